(* C112: telling whether the padding was right tells everything. *)
From Verif Require Import Prelude SpecBlock SpecPadding TransformModel BlockModel CipherModel CipherSpec CipherApi Toy SpecOracle Oracle.

(* An observer has the IV and the ciphertext blocks C of a message, and is told for chosen IVs v and
   blocks c whether decryption of c raises Error Bad_padding (padding_oracle).  all_text, which only
   uses that, computes the message followed by its padding. *)
Theorem C112_recover : forall fresh, (forall n, 0 <= n -> zlen (fresh n) = n) ->
  forall nb key bs E D, block_family nb key bs E D ->
  forall p, match p with PLength => 2 <= bs < 256 | P8000 => True end ->
  forall iv msg, zlen iv = bs -> bytes_ok iv -> bytes_ok msg -> zlen msg + 4 * bs <= max_string_length ->
  exists oe C, make_cipher fresh nb (Some CBC) (Some (scheme_of p)) (Some iv) key Encrypt = Ret oe /\
    run_string oe msg = Ret (concat C) /\ blocks_ok bs C /\
    padded p (all_text p (padding_oracle fresh nb key p) (Z.to_nat bs) iv C) msg.
Proof. exact padding_oracle_recovers. Qed.
Print Assumptions C112_recover.
(* what the answer says about the decrypted block, which is xorb b v: it ends with a padding *)
Theorem C112_one_bit : forall fresh, (forall n, 0 <= n -> zlen (fresh n) = n) ->
  forall nb key bs E D, block_family nb key bs E D ->
  forall p v b, zlen v = bs -> bytes_ok v -> zlen b = bs -> bytes_ok b ->
  padding_oracle fresh nb key p v (E b) = true <-> exists data, padded p (xorb b v) data.
Proof. exact oracle_one_bit. Qed.
Print Assumptions C112_one_bit.
(* blocks of two bytes; the message 3 1 4, the IV 0 0 *)
Example C112_case :
  block_family (toy_block_n 2) [5; 6] 2 (toy_E [5; 6]) (toy_D [5; 6]) /\
  (exists oe, make_cipher toy_fresh (toy_block_n 2) (Some CBC) (Some padding_length) (Some [0; 0]) [5; 6] Encrypt = Ret oe /\
     run_string oe [3; 1; 4] = Ret (concat [[4; 5]; [1; 6]])) /\
  all_text PLength (padding_oracle toy_fresh (toy_block_n 2) [5; 6] PLength) 2 [0; 0] [[4; 5]; [1; 6]] = [3; 1; 4; 1] /\
  padding_oracle toy_fresh (toy_block_n 2) [5; 6] PLength [0; 0] [4; 5] = true /\
  padding_oracle toy_fresh (toy_block_n 2) [5; 6] PLength [0; 1] [4; 5] = false /\
  all_text P8000 (padding_oracle toy_fresh (toy_block_n 2) [5; 6] P8000) 2 [0; 0] [[4; 5]; [128; 6]] = [3; 1; 4; 128].
Proof.
  split; [apply toy_family_n; [lia|reflexivity|repeat constructor; unfold byte_ok; lia]|].
  split; [eexists; split; [reflexivity|]; vm_compute; reflexivity|]. vm_compute. repeat split; reflexivity.
Qed.
