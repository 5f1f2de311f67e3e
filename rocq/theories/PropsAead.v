(* Properties of authenticated encryption: C43 to C47, parts of C03 and C15. *)
From Verif Require Import Prelude SpecTransducer SpecBlock TransformModel CipherModel EncModel EncApi SpecAes AesModel AesniModel
  SpecStream StreamModel SpecPoly PolyModel Poly Aes AesApi LibTransform EncLawful HashModel HashSpec ShaModel HashLib AuthModel AeadModel Auth SpecAead Gcm GcmObj ChaPoly AuthHash AeadApi Toy.

(* C43.  [aes_class]: the software AES or the AES instructions; [accel]: GHASH with the
   carry-less multiplication instruction or not.  [auth_whole o msg res]: the detached
   transform, the attached one (tag at the end) and every history of calls feeding msg
   give res.  gcm_C and gcm_T: SP 800-38D. *)
Theorem C43_gcm : forall (fresh : Z -> bytes) accel nb key A iv, (forall n, 0 <= n -> zlen (fresh n) = n) -> aes_class fresh nb ->
  aes_key_size key -> bytes_ok key -> bytes_ok A -> bytes_ok iv -> zlen A <= max_string_length -> zlen iv <= max_string_length ->
  exists o, aes_gcm fresh accel nb A iv key Encrypt = Ret o /\
  forall msg, bytes_ok msg -> zlen msg + 128 <= max_string_length ->
  auth_whole o msg (if zlen msg <=? 2 ^ 36 - 32
                    then Ret (gcm_C (aes_E key) iv msg, gcm_T (aes_E key) iv A (gcm_C (aes_E key) iv msg))
                    else Raise (Error Message_too_long)).
Proof. exact gcm_encrypts. Qed.
Print Assumptions C43_gcm.
(* test case 5 of McGrew and Viega: an IV of 8 bytes, a header, 60 bytes in three calls *)
Definition gcm_key : bytes :=
   [0xfe;0xff;0xe9;0x92;0x86;0x65;0x73;0x1c;0x6d;0x6a;0x8f;0x94;0x67;0x30;0x83;0x08].
Definition gcm_plain : bytes :=
   [0xd9;0x31;0x32;0x25;0xf8;0x84;0x06;0xe5;0xa5;0x59;0x09;0xc5;0xaf;0xf5;0x26;0x9a;0x86;0xa7;0xa9;
   0x53;0x15;0x34;0xf7;0xda;0x2e;0x4c;0x30;0x3d;0x8a;0x31;0x8a;0x72;0x1c;0x3c;0x0c;0x95;0x95;0x68;
   0x09;0x53;0x2f;0xcf;0x0e;0x24;0x49;0xa6;0xb5;0x25;0xb1;0x6a;0xed;0xf5;0xaa;0x0d;0xe6;0x57;0xba;
   0x63;0x7b;0x39].
Definition gcm_header : bytes :=
   [0xfe;0xed;0xfa;0xce;0xde;0xad;0xbe;0xef;0xfe;0xed;0xfa;0xce;0xde;0xad;0xbe;0xef;0xab;0xad;0xda;
   0xd2].
Definition gcm_iv : bytes :=
   [0xca;0xfe;0xba;0xbe;0xfa;0xce;0xdb;0xad].
Definition gcm_cipher : bytes :=
   [0x61;0x35;0x3b;0x4c;0x28;0x06;0x93;0x4a;0x77;0x7f;0xf5;0x1f;0xa2;0x2a;0x47;0x55;0x69;0x9b;0x2a;
   0x71;0x4f;0xcd;0xc6;0xf8;0x37;0x66;0xe5;0xf9;0x7b;0x6c;0x74;0x23;0x73;0x80;0x69;0x00;0xe4;0x9f;
   0x24;0xb2;0x2b;0x09;0x75;0x44;0xd4;0x89;0x6b;0x42;0x49;0x89;0xb5;0xe1;0xeb;0xac;0x0f;0x07;0xc2;
   0x3f;0x45;0x98].
Definition gcm_tag : bytes :=
   [0x36;0x12;0xd2;0xe7;0x9e;0x3b;0x07;0x85;0x56;0x1b;0xe1;0x4a;0xac;0xa2;0xfc;0xcb].
Example C43_case :
  match aes_gcm zeros false (new_aes zeros Encrypt) gcm_header gcm_iv gcm_key Encrypt with
  | Ret o => auth_run o [PutSubstring gcm_plain 0 17; GetString; PutString (sub gcm_plain 17 40); PutSubstring gcm_plain 57 3] = Ret (gcm_cipher, gcm_tag)
  | _ => False
  end.
Proof. vm_compute. reflexivity. Qed.

(* C44.  Decryption of what encryption returned gives the plaintext; with any other tag it gives nothing. *)
Theorem C44_gcm_round_trip : forall (fresh : Z -> bytes) accel nb accel' nb' key A iv, (forall n, 0 <= n -> zlen (fresh n) = n) ->
  aes_class fresh nb -> aes_class fresh nb' ->
  aes_key_size key -> bytes_ok key -> bytes_ok A -> bytes_ok iv -> zlen A <= max_string_length -> zlen iv <= max_string_length ->
  exists e d, aes_gcm fresh accel nb A iv key Encrypt = Ret e /\ aes_gcm fresh accel' nb' A iv key Decrypt = Ret d /\
  forall msg, bytes_ok msg -> zlen msg + 144 <= max_string_length -> zlen msg <= 2 ^ 36 - 32 ->
  exists s, auth_string e msg = Ret s /\ zlen s = zlen msg + 16 /\ auth_check d s = Ret (Some msg) /\
  forall t, bytes_ok t -> zlen t = 16 -> firstn (length msg) s ++ t <> s -> auth_check d (firstn (length msg) s ++ t) = Ret None.
Proof. exact gcm_round. Qed.
Print Assumptions C44_gcm_round_trip.
(* any string at all: accepted if and only if its last 16 bytes are the tag of the rest *)
Theorem C44_gcm_check : forall (fresh : Z -> bytes) accel nb key A iv, (forall n, 0 <= n -> zlen (fresh n) = n) -> aes_class fresh nb ->
  aes_key_size key -> bytes_ok key -> bytes_ok A -> bytes_ok iv -> zlen A <= max_string_length -> zlen iv <= max_string_length ->
  exists o, aes_gcm fresh accel nb A iv key Decrypt = Ret o /\
  forall c t, bytes_ok c -> bytes_ok t -> zlen t = 16 -> zlen c + 144 <= max_string_length ->
  auth_check o (c ++ t) = Ret (if list_eq_dec Z.eq_dec t (gcm_T (aes_E key) iv A c) then Some (gcm_C (aes_E key) iv c) else None).
Proof. exact gcm_check. Qed.
Print Assumptions C44_gcm_check.
Theorem C44_chapoly_round_trip : forall (fresh : Z -> bytes) P P' header iv key, (forall n, 0 <= n -> zlen (fresh n) = n) -> poly_class P -> poly_class P' ->
  zlen key = 16 \/ zlen key = 32 -> zlen iv = 8 \/ zlen iv = 12 -> bytes_ok key -> bytes_ok iv -> bytes_ok header -> zlen header <= max_string_length ->
  exists e d, chacha20_poly1305 fresh P header iv key Encrypt = Ret e /\ chacha20_poly1305 fresh P' header iv key Decrypt = Ret d /\
  forall msg, bytes_ok msg -> zlen msg + 16 <= max_string_length -> (zlen iv = 12 -> zlen msg <= 2 ^ 38) ->
  exists s, auth_string e msg = Ret s /\ zlen s = zlen msg + 16 /\ auth_check d s = Ret (Some msg) /\
  forall t, bytes_ok t -> zlen t = 16 -> firstn (length msg) s ++ t <> s -> auth_check d (firstn (length msg) s ++ t) = Ret None.
Proof. exact chapoly_round. Qed.
Print Assumptions C44_chapoly_round_trip.
Theorem C44_chapoly_check : forall (fresh : Z -> bytes) P header iv key, (forall n, 0 <= n -> zlen (fresh n) = n) -> poly_class P ->
  zlen key = 16 \/ zlen key = 32 -> zlen iv = 8 \/ zlen iv = 12 -> bytes_ok key -> bytes_ok iv -> bytes_ok header -> zlen header <= max_string_length ->
  exists o, chacha20_poly1305 fresh P header iv key Decrypt = Ret o /\
  forall c t, bytes_ok c -> bytes_ok t -> zlen t = 16 -> zlen c + 16 <= max_string_length ->
  auth_check o (c ++ t) = Ret (if list_eq_dec Z.eq_dec t (aead_T key iv header c) then Some (aead_C key iv c) else None).
Proof. exact chapoly_check. Qed.
Print Assumptions C44_chapoly_check.
(* strings too short to contain a tag *)
Theorem C44_short : forall (fresh : Z -> bytes) P header iv key o str, (forall n, 0 <= n -> zlen (fresh n) = n) ->
  (exists accel nb d, aes_gcm fresh accel nb header iv key d = Ret o) \/ (exists d, chacha20_poly1305 fresh P header iv key d = Ret o) ->
  zlen str < 16 -> auth_check o str = Raise (Error Wrong_data_length).
Proof. exact short_strings. Qed.
Print Assumptions C44_short.
Example C44_case :
  match aes_gcm zeros true (new_aes zeros Encrypt) gcm_header gcm_iv gcm_key Decrypt with
  | Ret o => auth_check o (sub gcm_cipher 0 0 ++ gcm_tag) = Ret None /\ auth_check o [1; 2] = Raise (Error Wrong_data_length)
  | _ => False
  end.
Proof. vm_compute. split; reflexivity. Qed.

(* C45.  [poly_class]: the 64-bit or the 32-bit implementation of Poly1305.  aead_C and
   aead_T: RFC 8439 section 2.8, also with keys of 16 bytes and IVs of 8 bytes. *)
Theorem C45_chapoly : forall (fresh : Z -> bytes) P header iv key, (forall n, 0 <= n -> zlen (fresh n) = n) -> poly_class P ->
  zlen key = 16 \/ zlen key = 32 -> zlen iv = 8 \/ zlen iv = 12 -> bytes_ok key -> bytes_ok iv -> bytes_ok header -> zlen header <= max_string_length ->
  exists o, chacha20_poly1305 fresh P header iv key Encrypt = Ret o /\
  forall msg, bytes_ok msg -> zlen msg <= max_string_length ->
  auth_whole o msg (if (zlen iv =? 12) && (zlen msg >? 2 ^ 38) then Raise (Error Message_too_long)
                    else Ret (aead_C key iv msg, aead_T key iv header (aead_C key iv msg))).
Proof. exact chapoly_encrypts. Qed.
Print Assumptions C45_chapoly.
(* RFC 8439, 2.8.2, in three calls *)
Definition cp_key : bytes :=
   [0x80;0x81;0x82;0x83;0x84;0x85;0x86;0x87;0x88;0x89;0x8a;0x8b;0x8c;0x8d;0x8e;0x8f;0x90;0x91;0x92;
   0x93;0x94;0x95;0x96;0x97;0x98;0x99;0x9a;0x9b;0x9c;0x9d;0x9e;0x9f].
Definition cp_iv : bytes :=
   [0x07;0x00;0x00;0x00;0x40;0x41;0x42;0x43;0x44;0x45;0x46;0x47].
Definition cp_header : bytes :=
   [0x50;0x51;0x52;0x53;0xc0;0xc1;0xc2;0xc3;0xc4;0xc5;0xc6;0xc7].
Definition cp_plain : bytes :=
   [0x4c;0x61;0x64;0x69;0x65;0x73;0x20;0x61;0x6e;0x64;0x20;0x47;0x65;0x6e;0x74;0x6c;0x65;0x6d;0x65;
   0x6e;0x20;0x6f;0x66;0x20;0x74;0x68;0x65;0x20;0x63;0x6c;0x61;0x73;0x73;0x20;0x6f;0x66;0x20;0x27;
   0x39;0x39;0x3a;0x20;0x49;0x66;0x20;0x49;0x20;0x63;0x6f;0x75;0x6c;0x64;0x20;0x6f;0x66;0x66;0x65;
   0x72;0x20;0x79;0x6f;0x75;0x20;0x6f;0x6e;0x6c;0x79;0x20;0x6f;0x6e;0x65;0x20;0x74;0x69;0x70;0x20;
   0x66;0x6f;0x72;0x20;0x74;0x68;0x65;0x20;0x66;0x75;0x74;0x75;0x72;0x65;0x2c;0x20;0x73;0x75;0x6e;
   0x73;0x63;0x72;0x65;0x65;0x6e;0x20;0x77;0x6f;0x75;0x6c;0x64;0x20;0x62;0x65;0x20;0x69;0x74;0x2e].
Definition cp_cipher : bytes :=
   [0xd3;0x1a;0x8d;0x34;0x64;0x8e;0x60;0xdb;0x7b;0x86;0xaf;0xbc;0x53;0xef;0x7e;0xc2;0xa4;0xad;0xed;
   0x51;0x29;0x6e;0x08;0xfe;0xa9;0xe2;0xb5;0xa7;0x36;0xee;0x62;0xd6;0x3d;0xbe;0xa4;0x5e;0x8c;0xa9;
   0x67;0x12;0x82;0xfa;0xfb;0x69;0xda;0x92;0x72;0x8b;0x1a;0x71;0xde;0x0a;0x9e;0x06;0x0b;0x29;0x05;
   0xd6;0xa5;0xb6;0x7e;0xcd;0x3b;0x36;0x92;0xdd;0xbd;0x7f;0x2d;0x77;0x8b;0x8c;0x98;0x03;0xae;0xe3;
   0x28;0x09;0x1b;0x58;0xfa;0xb3;0x24;0xe4;0xfa;0xd6;0x75;0x94;0x55;0x85;0x80;0x8b;0x48;0x31;0xd7;
   0xbc;0x3f;0xf4;0xde;0xf0;0x8e;0x4b;0x7a;0x9d;0xe5;0x76;0xd2;0x65;0x86;0xce;0xc6;0x4b;0x61;0x16].
Definition cp_rfc_tag : bytes :=
   [0x1a;0xe1;0x0b;0x59;0x4f;0x09;0xe2;0x6a;0x7e;0x90;0x2e;0xcb;0xd0;0x60;0x06;0x91].
Example C45_case :
  match chacha20_poly1305 toy_fresh (poly64 mach) cp_header cp_iv cp_key Encrypt with
  | Ret o => auth_run o [PutSubstring cp_plain 0 1; GetString; PutString (sub cp_plain 1 70); PutSubstring cp_plain 71 43] = Ret (cp_cipher, cp_rfc_tag)
  | _ => False
  end.
Proof. vm_compute. reflexivity. Qed.

(* C46.  GCM: the tag uses the counter block number 0 (gcm_T), block i of the data number
   i + 1, and these are all different. *)
Theorem C46_gcm : forall key iv msg, aes_key_size key -> bytes_ok key -> bytes_ok iv -> zlen msg <= 2 ^ 36 - 32 ->
  let E := aes_E key in let J := gcm_J0 E iv in let N := length (chunks 16 msg) in
  (forall i, (i < N)%nat -> nth i (chunks 16 (gcm_C E iv msg)) [] =
     xorb (nth i (chunks 16 msg) []) (firstn (length (nth i (chunks 16 msg) [])) (E (inc32s (S i) J)))) /\
  (forall i j, (i < j <= N)%nat -> inc32s i J <> inc32s j J).
Proof. exact gcm_keystream_aes. Qed.
Print Assumptions C46_gcm.
(* ChaCha20-Poly1305: the one-time key uses counter 0 (aead_key), byte n of the data
   counter 1 + n / 64; the initial matrices are all different for messages up to the limit
   of RFC 8439, and for all messages with an IV of 8 bytes. *)
Theorem C46_chapoly_partial : forall key iv msg, zlen key = 16 \/ zlen key = 32 -> zlen iv = 8 \/ zlen iv = 12 -> bytes_ok key -> bytes_ok iv ->
  zlen msg <= max_string_length -> (zlen iv = 12 -> zlen msg <= 2 ^ 38 - 64) ->
  (forall n, (n < length msg)%nat -> nth n (aead_C key iv msg) 0 =
     Z.lxor (nth n msg 0) (nth (n mod 64) (chacha_block key (1 + Z.of_nat (n / 64)) iv) 0)) /\
  (forall i j, 0 <= i < j -> j <= (zlen msg + 63) / 64 -> chacha_matrix key i iv <> chacha_matrix key j iv).
Proof. exact chapoly_keystream_ok. Qed.
Print Assumptions C46_chapoly_partial.
(* The code accepts 64 bytes more with an IV of 12 bytes: the counter wraps around and the
   last data block is encrypted with block 0, whose first half is the Poly1305 key. *)
Theorem C46_chapoly_refuted : exists (fresh : Z -> bytes) P header iv key o msg,
  zlen iv = 12 /\ chacha20_poly1305 fresh P header iv key Encrypt = Ret o /\ zlen msg = 2 ^ 38 /\
  exists C, auth_detached o msg = Ret (C, aead_T key iv header C) /\
  forall n, (n < 64)%nat -> nth (Z.to_nat (2 ^ 38 - 64) + n) C 0 = Z.lxor (nth (Z.to_nat (2 ^ 38 - 64) + n) msg 0) (nth n (chacha_block key 0 iv) 0).
Proof. exact chapoly_reuse_exists. Qed.
Print Assumptions C46_chapoly_refuted.
Example C46_case : inc32s 1 (repeat 255 16) = repeat 255 12 ++ [0; 0; 0; 0] /\ length (chunks 16 gcm_plain) = 4%nat.
Proof. split; reflexivity. Qed.

(* C47.  [simple_transform]: any block cipher in any mode and padding, any stream cipher,
   Base64 or hexadecimal, in either direction; D: what the hash or MAC object computes. *)
Theorem C47_then_hash : forall (fresh : Z -> bytes), (forall n, 0 <= n -> zlen (fresh n) = n) ->
  forall tr K A, simple_transform fresh tr K A -> forall h D, computes_on (fun _ => True) h D -> defined D ->
  forall msg, bytes_ok msg -> K * zlen msg + 2 * A <= max_string_length ->
  auth_whole (new_transform_then_hash fresh tr h) msg (olet c := run_string tr msg in olet t := D c in Ret (c, t)).
Proof. exact then_whole. Qed.
Print Assumptions C47_then_hash.
Theorem C47_and_hash : forall (fresh : Z -> bytes), (forall n, 0 <= n -> zlen (fresh n) = n) ->
  forall tr K A, simple_transform fresh tr K A -> forall h D, computes_on (fun _ => True) h D -> defined D ->
  forall msg, bytes_ok msg -> K * zlen msg + 2 * A <= max_string_length ->
  auth_whole (new_transform_and_hash tr h) msg (olet c := run_string tr msg in olet t := D msg in Ret (c, t)).
Proof. exact and_whole. Qed.
Print Assumptions C47_and_hash.
(* Any transform, compositions included.  When several stages of a composition fail, which
   exception is seen depends on how the data is cut: [auth_whole_upto false] and
   [auth_checks_upto false] say that an exception is raised, not which. *)
Theorem C47_then_hash_any : forall (fresh : Z -> bytes), (forall n, 0 <= n -> zlen (fresh n) = n) ->
  forall tr K A, lib_transform fresh tr K A -> forall h D, computes_on (fun _ => True) h D -> defined D ->
  forall msg, bytes_ok msg -> K * zlen msg + 2 * A <= max_string_length ->
  auth_whole_upto false (new_transform_then_hash fresh tr h) msg (olet c := run_string tr msg in olet t := D c in Ret (c, t)).
Proof. exact then_whole_lib. Qed.
Print Assumptions C47_then_hash_any.
Theorem C47_and_hash_any : forall (fresh : Z -> bytes), (forall n, 0 <= n -> zlen (fresh n) = n) ->
  forall tr K A, lib_transform fresh tr K A -> forall h D, computes_on (fun _ => True) h D -> defined D ->
  forall msg, bytes_ok msg -> K * zlen msg + 2 * A <= max_string_length ->
  auth_whole_upto false (new_transform_and_hash tr h) msg (olet c := run_string tr msg in olet t := D msg in Ret (c, t)).
Proof. exact and_whole_lib. Qed.
Print Assumptions C47_and_hash_any.
(* what is accepted: the strings whose last hash_size bytes are the hash *)
Theorem C47_then_hash_check : forall (fresh : Z -> bytes), (forall n, 0 <= n -> zlen (fresh n) = n) ->
  forall tr K A, lib_transform fresh tr K A -> forall h D, computes_on (fun _ => True) h D -> defined D -> 0 <= h_size (ho_class h) ->
  forall str, bytes_ok str -> K * zlen str + 2 * A <= max_string_length ->
  auth_checks_upto false (new_transform_then_hash fresh tr h) (h_size (ho_class h)) (fun msg => olet c := run_string tr msg in olet t := D c in Ret (c, t)) str.
Proof. exact then_checks_lib. Qed.
Print Assumptions C47_then_hash_check.
Theorem C47_and_hash_check : forall (fresh : Z -> bytes), (forall n, 0 <= n -> zlen (fresh n) = n) ->
  forall tr K A, lib_transform fresh tr K A -> forall h D, computes_on (fun _ => True) h D -> defined D -> 0 <= h_size (ho_class h) ->
  forall str, bytes_ok str -> K * zlen str + 2 * A <= max_string_length ->
  auth_checks_upto false (new_transform_and_hash tr h) (h_size (ho_class h)) (fun msg => olet c := run_string tr msg in olet t := D msg in Ret (c, t)) str.
Proof. exact and_checks_lib. Qed.
Print Assumptions C47_and_hash_check.
(* two hexadecimal encodings in a row *)
Example C47_composed_case :
  lib_transform toy_fresh (composed (hexa_encode_obj toy_fresh) (hexa_encode_obj toy_fresh)) 4 0 /\
  match auth_string (new_transform_then_hash toy_fresh (composed (hexa_encode_obj toy_fresh) (hexa_encode_obj toy_fresh)) (sha1_obj toy_fresh)) [171] with
  | Ret s => zlen s = 24 /\ sub s 0 4 = [54; 49; 54; 50] /\
             auth_check (new_transform_and_hash (composed (hexa_decode_obj toy_fresh) (hexa_decode_obj toy_fresh)) (sha1_obj toy_fresh)) s = Ret (Some [171])
  | _ => False
  end.
Proof. split; [apply (LT_compose _ _ 2 0 _ 2 0); apply LT_hexe|]. vm_compute. repeat split. Qed.
(* hash of the ciphertext, checked by a decryption that hashes its input *)
Theorem C47_round_trip_partial : forall (fresh : Z -> bytes), (forall n, 0 <= n -> zlen (fresh n) = n) ->
  forall e K1 A1 d K2 A2 h D msg c t,
  lib_transform fresh e K1 A1 -> lib_transform fresh d K2 A2 -> computes_on (fun _ => True) h D -> defined D ->
  bytes_ok msg -> bytes_ok c -> bytes_ok t -> K1 * zlen msg + 2 * A1 <= max_string_length -> K2 * (zlen c + zlen t) + 2 * A2 <= max_string_length ->
  run_string e msg = Ret c -> run_string d c = Ret msg -> D c = Ret t -> zlen t = h_size (ho_class h) ->
  auth_string (new_transform_then_hash fresh e h) msg = Ret (c ++ t) /\
  auth_check (new_transform_and_hash d h) (c ++ t) = Ret (Some msg) /\
  (forall t', bytes_ok t' -> zlen t' = zlen t -> t' <> t -> auth_check (new_transform_and_hash d h) (c ++ t') = Ret None).
Proof. exact then_and_round. Qed.
Print Assumptions C47_round_trip_partial.
(* hash of the plaintext, checked by a decryption that hashes its output *)
Theorem C47_round_trip_plain_partial : forall (fresh : Z -> bytes), (forall n, 0 <= n -> zlen (fresh n) = n) ->
  forall e K1 A1 d K2 A2 h D msg c t,
  lib_transform fresh e K1 A1 -> lib_transform fresh d K2 A2 -> computes_on (fun _ => True) h D -> defined D ->
  bytes_ok msg -> bytes_ok c -> bytes_ok t -> K1 * zlen msg + 2 * A1 <= max_string_length -> K2 * (zlen c + zlen t) + 2 * A2 <= max_string_length ->
  run_string e msg = Ret c -> run_string d c = Ret msg -> D msg = Ret t -> zlen t = h_size (ho_class h) ->
  auth_string (new_transform_and_hash e h) msg = Ret (c ++ t) /\
  auth_check (new_transform_then_hash fresh d h) (c ++ t) = Ret (Some msg) /\
  (forall t', bytes_ok t' -> zlen t' = zlen t -> t' <> t -> auth_check (new_transform_then_hash fresh d h) (c ++ t') = Ret None).
Proof. exact and_then_round. Qed.
Print Assumptions C47_round_trip_plain_partial.
(* With SHA-224 (hash_size 24, 28 bytes returned) or RIPEMD-160 (32, 20) no string is ever
   accepted, genuine or not *)
Theorem C47_wrong_size_refuted : forall fresh : Z -> bytes, (forall n, 0 <= n -> zlen (fresh n) = n) ->
  exists h1 h2, lib_hash fresh h1 /\ lib_hash fresh h2 /\
  forall h, h = h1 \/ h = h2 -> forall d K A str txt, lib_transform fresh d K A -> bytes_ok str -> K * zlen str + 2 * A <= max_string_length ->
  auth_check (new_transform_and_hash d h) str <> Ret (Some txt) /\ auth_check (new_transform_then_hash fresh d h) str <> Ret (Some txt).
Proof. exact wrong_size_never. Qed.
Print Assumptions C47_wrong_size_refuted.
(* hexadecimal and SHA-1 *)
Example C47_case :
  simple_transform toy_fresh (hexa_encode_obj toy_fresh) 2 0 /\
  match auth_string (new_transform_then_hash toy_fresh (hexa_encode_obj toy_fresh) (sha1_obj toy_fresh)) [1; 254] with
  | Ret s => zlen s = 24 /\ sub s 0 4 = [48; 49; 102; 101] /\
             auth_check (new_transform_and_hash (hexa_decode_obj toy_fresh) (sha1_obj toy_fresh)) s = Ret (Some [1; 254]) /\
             auth_check (new_transform_and_hash (hexa_decode_obj toy_fresh) (sha1_obj toy_fresh)) (sub s 0 4 ++ zeros 20) = Ret None
  | _ => False
  end.
Proof. split; [apply ST_hexe|]. vm_compute. repeat split. Qed.

(* C15 *)
Theorem C15_gcm_key_size : forall (fresh : Z -> bytes) accel nb key A iv d, (forall n, 0 <= n -> zlen (fresh n) = n) -> aes_class fresh nb ->
  bytes_ok key -> bytes_ok A -> bytes_ok iv -> zlen A <= max_string_length -> zlen iv <= max_string_length ->
  (aes_key_size key -> exists o, aes_gcm fresh accel nb A iv key d = Ret o) /\
  (~ aes_key_size key -> aes_gcm fresh accel nb A iv key d = Raise (Error Wrong_key_size)).
Proof. exact gcm_key_size. Qed.
Print Assumptions C15_gcm_key_size.
Theorem C15_chapoly_sizes : forall (fresh : Z -> bytes) P header iv key d, (forall n, 0 <= n -> zlen (fresh n) = n) -> poly_class P ->
  bytes_ok key -> bytes_ok iv -> bytes_ok header -> zlen header <= max_string_length ->
  (zlen key = 16 \/ zlen key = 32 -> zlen iv = 8 \/ zlen iv = 12 -> exists o, chacha20_poly1305 fresh P header iv key d = Ret o) /\
  (~ (zlen key = 16 \/ zlen key = 32) -> chacha20_poly1305 fresh P header iv key d = Raise (Error Wrong_key_size)) /\
  (zlen key = 16 \/ zlen key = 32 -> ~ (zlen iv = 8 \/ zlen iv = 12) -> chacha20_poly1305 fresh P header iv key d = Raise (Error Wrong_IV_size)).
Proof. exact chapoly_sizes. Qed.
Print Assumptions C15_chapoly_sizes.
Example C15_aead_case : chacha20_poly1305 zeros (poly64 mach) [] (zeros 11) (zeros 32) Encrypt = Raise (Error Wrong_IV_size) /\ zlen cp_key = 32 /\ aes_key_size gcm_key.
Proof. split; [reflexivity|]. split; [reflexivity|]. left; reflexivity. Qed.

(* C03: a decrypting ChaCha20-Poly1305 object gives the range to the C code that reads it
   before checking it *)
Theorem C03_chapoly_decrypt_refuted : exists (fresh : Z -> bytes) P (header iv key : bytes), (forall n, 0 <= n -> zlen (fresh n) = n) /\ poly_class P /\
  exists o, chacha20_poly1305 fresh P header iv key Decrypt = Ret o /\ snd (a_put_substring (ao_class o) (ao_st o) [1; 2; 3] 2 5) = Undef.
Proof. exact chapoly_decrypt_undef. Qed.
Print Assumptions C03_chapoly_decrypt_refuted.
