(* Keystreams and authenticated strings: C73, C74. *)
From Verif Require Import Prelude BytesNum SpecTransducer SpecBlock SpecModes TransformModel CipherModel CipherSpec CipherFacts CipherApi EncModel EncApi SpecAes AesModel AesniModel Aes AesApi
  SpecStream StreamModel StreamApi SpecPoly SpecGhash PolyModel Poly AuthModel AeadModel Auth SpecAead AeadApi KeyStream AeadMore Toy.

(* C73.  [ks_xor ks 0 msg]: byte i of msg xored with ks i.  The keystream ks is chosen before
   the direction and the message. *)
Theorem C73_modes : forall fresh, (forall n, 0 <= n -> zlen (fresh n) = n) ->
  forall nb key bs E D m iv, block_family nb key bs E D -> match m with OFB _ | CTR | CTR_N _ => True | _ => False end ->
  mode_ok bs m -> iv_ok bs m iv ->
  exists ks, forall d, exists o, make_cipher fresh nb (Some m) None iv key d = Ret o /\
  forall msg, bytes_ok msg -> zlen msg + 3 * mode_bs bs m <= max_string_length -> zlen msg mod mode_bs bs m = 0 ->
    within_limit bs m (zlen msg / mode_bs bs m) ->
    run_string o msg = Ret (ks_xor ks 0 msg) /\ forall ops, history_of msg ops -> out_of o ops = ks_xor ks 0 msg.
Proof. exact mode_keystream. Qed.
Print Assumptions C73_modes.
(* the two ciphertexts of two messages under one key and IV give away the xor of the messages *)
Theorem C73_two_messages : forall fresh nb key bs E D m iv d, (forall n, 0 <= n -> zlen (fresh n) = n) -> block_family nb key bs E D ->
  match m with OFB _ | CTR | CTR_N _ => True | _ => False end -> mode_ok bs m -> iv_ok bs m iv ->
  exists o, make_cipher fresh nb (Some m) None iv key d = Ret o /\
  forall m1 m2, bytes_ok m1 -> bytes_ok m2 -> zlen m1 = zlen m2 -> zlen m1 + 3 * mode_bs bs m <= max_string_length -> zlen m1 mod mode_bs bs m = 0 ->
    within_limit bs m (zlen m1 / mode_bs bs m) ->
    exists c1 c2, run_string o m1 = Ret c1 /\ run_string o m2 = Ret c2 /\ xorb c1 c2 = xorb m1 m2.
Proof. exact mode_two_messages. Qed.
Print Assumptions C73_two_messages.
(* AEAD: the keystream does not depend on the header either, nor on the implementation *)
Theorem C73_gcm : forall key iv, aes_key_size key -> bytes_ok key -> bytes_ok iv -> zlen iv <= max_string_length ->
  exists ks, forall (fresh : Z -> bytes) accel nb A, (forall n, 0 <= n -> zlen (fresh n) = n) -> aes_class fresh nb -> bytes_ok A -> zlen A <= max_string_length ->
  exists o, aes_gcm fresh accel nb A iv key Encrypt = Ret o /\
  forall msg, bytes_ok msg -> zlen msg + 128 <= max_string_length -> zlen msg <= 2 ^ 36 - 32 ->
  exists t, auth_detached o msg = Ret (ks_xor ks 0 msg, t).
Proof. exact gcm_keystream. Qed.
Print Assumptions C73_gcm.
Theorem C73_chapoly : forall key iv, zlen key = 16 \/ zlen key = 32 -> zlen iv = 8 \/ zlen iv = 12 -> bytes_ok key -> bytes_ok iv ->
  exists ks, forall (fresh : Z -> bytes) P header, (forall n, 0 <= n -> zlen (fresh n) = n) -> poly_class P -> bytes_ok header -> zlen header <= max_string_length ->
  exists o, chacha20_poly1305 fresh P header iv key Encrypt = Ret o /\
  forall msg, bytes_ok msg -> zlen msg <= max_string_length -> (zlen iv = 12 -> zlen msg <= 2 ^ 38) ->
  exists t, auth_detached o msg = Ret (ks_xor ks 0 msg, t).
Proof. exact chapoly_keystream. Qed.
Print Assumptions C73_chapoly.
(* OFB with 3-byte chunks of a 4-byte cipher; CBC is not of this kind *)
Example C73_case :
  match make_cipher toy_fresh toy_block (Some (OFB 3)) None (Some [9; 8; 7; 6]) [17; 34; 51; 68] Encrypt with
  | Ret o => match run_string o [1; 2; 3; 4; 5; 6], run_string o [255; 0; 3; 7; 5; 1] with
             | Ret c1, Ret c2 => xorb c1 c2 = [254; 2; 0; 3; 0; 7] /\ c1 <> [1; 2; 3; 4; 5; 6]
             | _, _ => False
             end
  | _ => False
  end /\
  match make_cipher toy_fresh toy_block (Some CBC) None (Some [9; 8; 7; 6]) [17; 34; 51; 68] Encrypt with
  | Ret o => match run_string o [1; 2; 3; 4], run_string o [255; 0; 3; 7] with Ret c1, Ret c2 => xorb c1 c2 <> [254; 2; 0; 3] | _, _ => False end
  | _ => False
  end.
Proof. vm_compute. split; [split|]; (reflexivity || discriminate). Qed.

(* C74.  The tags are functions of a string built from header and ciphertext *)
Theorem C74_chapoly : forall key iv fresh P header, zlen key = 16 \/ zlen key = 32 -> zlen iv = 8 \/ zlen iv = 12 -> bytes_ok key -> bytes_ok iv ->
  (forall n, 0 <= n -> zlen (fresh n) = n) -> poly_class P -> bytes_ok header -> zlen header <= max_string_length ->
  exists o, chacha20_poly1305 fresh P header iv key Encrypt = Ret o /\
  forall msg, bytes_ok msg -> zlen msg <= max_string_length -> (zlen iv = 12 -> zlen msg <= 2 ^ 38) ->
  exists c, auth_detached o msg = Ret (c, poly1305 (firstn 32 (chacha_block key 0 iv)) (poly_input header c)).
Proof. exact chapoly_authenticates. Qed.
Print Assumptions C74_chapoly.
Theorem C74_gcm : forall key iv fresh accel nb A, aes_key_size key -> bytes_ok key -> bytes_ok iv -> zlen iv <= max_string_length ->
  (forall n, 0 <= n -> zlen (fresh n) = n) -> aes_class fresh nb -> bytes_ok A -> zlen A <= max_string_length ->
  exists o, aes_gcm fresh accel nb A iv key Encrypt = Ret o /\
  forall msg, bytes_ok msg -> zlen msg + 128 <= max_string_length -> zlen msg <= 2 ^ 36 - 32 ->
  exists c, auth_detached o msg = Ret (c, gctr (aes_E key) (gcm_J0 (aes_E key) iv) (ghash (gcm_H (aes_E key)) (chunks 16 (ghash_input A c)))).
Proof. exact gcm_authenticates. Qed.
Print Assumptions C74_gcm.
(* which determines both *)
Theorem C74_chapoly_injective : forall A C A' C', zlen A < 2 ^ 64 -> zlen C < 2 ^ 64 -> zlen A' < 2 ^ 64 -> zlen C' < 2 ^ 64 ->
  poly_input A C = poly_input A' C' -> A = A' /\ C = C'.
Proof. exact poly_input_inj. Qed.
Print Assumptions C74_chapoly_injective.
(* GHASH ignores zero blocks in front: even so *)
Theorem C74_gcm_injective : forall A C A' C' k k', zlen A < 2 ^ 61 -> zlen C < 2 ^ 61 -> zlen A' < 2 ^ 61 -> zlen C' < 2 ^ 61 ->
  repeat (zeros 16) k ++ chunks 16 (ghash_input A C) = repeat (zeros 16) k' ++ chunks 16 (ghash_input A' C') -> A = A' /\ C = C'.
Proof. exact ghash_input_inj. Qed.
Print Assumptions C74_gcm_injective.
(* the same bytes split differently between header and ciphertext *)
Example C74_case : poly_input [1; 2] [3] <> poly_input [1] [2; 3] /\ poly_input [1; 0] [3] <> poly_input [1] [3] /\
  zlen (poly_input [1; 2] [3]) = 48 /\ ghash_input (zeros 16) [] <> ghash_input [] (zeros 16).
Proof. vm_compute. repeat split; discriminate. Qed.
