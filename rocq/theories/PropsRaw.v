(* What RSA without padding and Diffie-Hellman without checks do not protect: C110, C111.
   Vocabulary in SpecPk.v; be: the number written in big-endian bytes. *)
From Coq Require Import Znumtheory.
From Verif Require Import Prelude BytesNum RngModel BnModel PkModel SpecPk PkCases Toy PkRaw.

(* C110.  A string whose number is the product of two ciphertexts decrypts to the product of the
   messages *)
Theorem C110_decrypt_product : forall sk pk m1 m2 c1 c2 c, rsa_pair sk pk -> aligned (rp_size pk) -> bytes_ok m1 -> bytes_ok m2 -> be m1 < be (rp_n pk) -> be m2 < be (rp_n pk) ->
  rsa_encrypt pk m1 = Ret c1 -> rsa_encrypt pk m2 = Ret c2 -> be c = be c1 * be c2 mod be (rp_n pk) ->
  exists r, rsa_decrypt sk c = Ret r /\ be r = be m1 * be m2 mod be (rp_n pk).
Proof. exact decrypt_product. Qed.
Print Assumptions C110_decrypt_product.
(* the product of two signatures is the signature of the product *)
Theorem C110_sign_product : forall sk pk m1 m2 s1 s2 m, rsa_pair sk pk -> aligned (rp_size pk) -> be m1 < be (rp_n pk) -> be m2 < be (rp_n pk) ->
  rsa_sign sk m1 = Ret s1 -> rsa_sign sk m2 = Ret s2 -> be m = be m1 * be m2 mod be (rp_n pk) ->
  exists s, rsa_sign sk m = Ret s /\ be s = be s1 * be s2 mod be (rp_n pk).
Proof. exact sign_product. Qed.
Print Assumptions C110_sign_product.
(* every string below the modulus is the signature of some message, which the public key gives *)
Theorem C110_any_signature : forall sk pk s, rsa_pair sk pk -> aligned (rp_size pk) -> bytes_ok s -> be s < be (rp_n pk) ->
  exists m, rsa_unwrap_signature pk s = Ret m /\ exists s', rsa_sign sk m = Ret s' /\ be s' = be s.
Proof. exact any_signature. Qed.
Print Assumptions C110_any_signature.
(* a guess of the message is confirmed by the public key exactly if it is right *)
Theorem C110_guess : forall sk pk m m' c, rsa_pair sk pk -> aligned (rp_size pk) -> bytes_ok m -> bytes_ok m' -> be m < be (rp_n pk) -> rsa_encrypt pk m = Ret c ->
  (rsa_encrypt pk m' = Ret c <-> be m' = be m).
Proof. exact guess. Qed.
Print Assumptions C110_guess.
(* with the key of 128 bits of C54 *)
Example C110_case :
  match snd (rsa_new_key toy_fresh toy_rng toy_nextprime 4 0%nat (Some 3) 128) with
  | Ret (sk, pk) =>
      match rsa_encrypt pk [1; 2; 3; 4; 5; 6; 7; 8; 9], rsa_encrypt pk [2] with
      | Ret c1, Ret c2 => (olet r := rsa_decrypt sk (to_be 16 (be c1 * be c2 mod be (rp_n pk))) in Ret (be r)) = Ret (2 * be [1; 2; 3; 4; 5; 6; 7; 8; 9])
      | _, _ => False
      end /\
      match rsa_sign sk [7; 1], rsa_sign sk [3] with
      | Ret s1, Ret s2 => rsa_sign sk [21; 3] = Ret (to_be 16 (be s1 * be s2 mod be (rp_n pk)))
      | _, _ => False
      end /\
      (olet m := rsa_unwrap_signature pk [5; 5] in rsa_sign sk m) = Ret (zeros 14 ++ [5; 5])
  | _ => False
  end.
Proof. vm_compute. repeat split; reflexivity. Qed.

(* C111.  shared_secret takes every string for a message of the other side, also one that is not
   reduced modulo p or not a power of the generator *)
Theorem C111_any_message : forall pr x m, dh_ok pr -> 0 < x -> exists k, snd (dh_shared_secret pr x m) = Ret k /\ zlen k = zlen (dh_p pr) /\ be k = be m ^ x mod be (dh_p pr).
Proof. exact dh_any. Qed.
Print Assumptions C111_any_message.
(* with 0, 1 and p-1 the result does not depend on the private secret x, or on its parity only *)
Theorem C111_fixed : forall pr x m, dh_ok pr -> 0 < x -> 2 < be (dh_p pr) -> exists k, snd (dh_shared_secret pr x m) = Ret k /\
  (be m mod be (dh_p pr) = 0 -> be k = 0) /\ (be m mod be (dh_p pr) = 1 -> be k = 1) /\
  (be m mod be (dh_p pr) = be (dh_p pr) - 1 -> be k = if Z.even x then 1 else be (dh_p pr) - 1).
Proof. exact dh_fixed. Qed.
Print Assumptions C111_fixed.
(* with an m of order q only x mod q counts: at most q results *)
Theorem C111_order : forall pr x m q k, dh_ok pr -> 0 < x -> 0 < q -> be m ^ q mod be (dh_p pr) = 1 mod be (dh_p pr) -> snd (dh_shared_secret pr x m) = Ret k ->
  be k = be m ^ (x mod q) mod be (dh_p pr).
Proof. exact dh_order. Qed.
Print Assumptions C111_order.
(* the product of two messages gives the product of the secrets *)
Theorem C111_product : forall pr x m1 m2 m k1 k2, dh_ok pr -> 0 < x -> be m mod be (dh_p pr) = be m1 * be m2 mod be (dh_p pr) ->
  snd (dh_shared_secret pr x m1) = Ret k1 -> snd (dh_shared_secret pr x m2) = Ret k2 ->
  exists k, snd (dh_shared_secret pr x m) = Ret k /\ be k = be k1 * be k2 mod be (dh_p pr).
Proof. exact dh_product. Qed.
Print Assumptions C111_product.
Example C111_case : dh_ok toy_dh /\ snd (dh_shared_secret toy_dh 11 [0]) = Ret (zeros 8) /\ snd (dh_shared_secret toy_dh 11 [1]) = Ret (to_be 8 1) /\
  snd (dh_shared_secret toy_dh 11 (to_be 8 (toy_p - 1))) = Ret (to_be 8 (toy_p - 1)) /\ snd (dh_shared_secret toy_dh 10 (to_be 8 (toy_p - 1))) = Ret (to_be 8 1) /\
  snd (dh_shared_secret toy_dh 11 (to_be 9 (toy_p + 3))) = snd (dh_shared_secret toy_dh 11 [3]) /\
  be (to_be 8 (toy_p - 1)) ^ 2 mod be (dh_p toy_dh) = 1 mod be (dh_p toy_dh).
Proof. split; [exact toy_dh_ok|]. vm_compute. repeat split; reflexivity. Qed.
