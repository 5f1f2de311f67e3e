(* Properties C51 to C58: big integers and public-key cryptography.
   Vocabulary in SpecPk.v.  [np]: the oracle for Z.nextprime. *)
From Coq Require Import Znumtheory.
From Verif Require Import Prelude BytesNum SpecHash RngModel BnModel PkModel SpecPk Bn Pk PkGen Pk2 Pk3 PkCases Toy.

(* C51.  The full property is that to_bytes ~numbits:nb n gives n on width nb bytes for all
   n < 2^nb, and that mod_power a b c is a^b mod c on the bytes of c. *)
Theorem C51_of_bytes : forall s, bn_of_bytes s = fold_left (fun a c => 256 * a + c) s 0.
Proof. exact of_bytes_horner. Qed.
Print Assumptions C51_of_bytes.
(* the sizes for which to_bytes works are those filling whole limbs of 8 bytes *)
Theorem C51_to_bytes_partial : forall nb, 1 <= nb -> size_ok nb ->
  ((forall n, 0 <= n < 2 ^ nb -> bn_to_bytes (Some nb) n = Ret (to_be (width nb) n)) <-> aligned nb).
Proof. exact to_bytes_iff. Qed.
Print Assumptions C51_to_bytes_partial.
Theorem C51_to_bytes_refuted : exists nb n, 0 <= nb /\ 0 <= n < 2 ^ nb /\ bn_to_bytes (Some nb) n = Raise Invalid_argument.
Proof. exists 32, 1. repeat split; try (vm_compute; (reflexivity || discriminate)). Qed.
Print Assumptions C51_to_bytes_refuted.
Theorem C51_to_bytes_default : forall n, 0 <= n -> z_numbits n <= 2 ^ 52 -> exists s, bn_to_bytes None n = Ret s /\ bytes_ok s /\ be s = n.
Proof. exact to_bytes_none_ok. Qed.
Print Assumptions C51_to_bytes_default.
Theorem C51_mod_power_partial : forall a b c, str_ok c -> (8 | zlen c) -> 0 < be b -> Z.odd (be c) = true -> 0 < be c ->
  mod_power a b c = Ret (to_be (length c) ((be a) ^ (be b) mod be c)).
Proof. exact mod_power_ok. Qed.
Print Assumptions C51_mod_power_partial.
(* a null exponent or an even modulus is refused *)
Theorem C51_mod_power_limits : forall a b c, be b <= 0 \/ Z.odd (be c) = false -> mod_power a b c = Raise Invalid_argument.
Proof. exact mod_power_limits. Qed.
Print Assumptions C51_mod_power_limits.
Theorem C51_mod_mult_partial : forall a b c, str_ok c -> (8 | zlen c) -> 0 <= be a -> 0 <= be b -> 0 < be c ->
  mod_mult a b c = Ret (to_be (length c) (be a * be b mod be c)).
Proof. exact mod_mult_ok. Qed.
Print Assumptions C51_mod_mult_partial.
Example C51_case : bn_to_bytes (Some 60) 258 = Ret [0; 0; 0; 0; 0; 0; 1; 2] /\ aligned 60 /\ size_ok 60 /\
  mod_power [1; 0] [3] [0; 0; 0; 0; 0; 0; 1; 1] = Ret [0; 0; 0; 0; 0; 0; 1; 0] /\
  mod_mult [2] [200] [0; 0; 0; 0; 0; 0; 0; 144] = Ret [0; 0; 0; 0; 0; 0; 0; 112] /\ bn_to_bytes (Some 33) 258 = Raise Invalid_argument.
Proof. repeat split; try (vm_compute; (reflexivity || discriminate)). exists 1. reflexivity. Qed.

(* C52 *)
Theorem C52_roundtrip_partial : forall sk pk msg, rsa_pair sk pk -> aligned (rp_size pk) -> bytes_ok msg -> be msg < be (rp_n pk) ->
  (exists c, rsa_encrypt pk msg = Ret c /\ length c = width (rp_size pk) /\ rsa_decrypt sk c = Ret (to_be (width (rp_size pk)) (be msg))) /\
  (exists c, rsa_sign sk msg = Ret c /\ length c = width (rp_size pk) /\ rsa_unwrap_signature pk c = Ret (to_be (width (rp_size pk)) (be msg))).
Proof. exact rsa_roundtrip. Qed.
Print Assumptions C52_roundtrip_partial.
(* all keys, whatever the size: [encode size x] is x on width size bytes if the limbs of x fit
   there, and the exception Invalid_argument otherwise *)
Theorem C52_results : forall sk pk msg, rsa_pair sk pk -> bytes_ok msg ->
  rsa_encrypt pk msg = (if be msg >=? be (rp_n pk) then Raise (Error Message_too_long) else encode (rp_size pk) ((be msg) ^ be (rp_e pk) mod be (rp_n pk))) /\
  rsa_decrypt sk msg = (if be msg >=? be (rk_n sk) then Raise (Error Message_too_long) else encode (rk_size sk) ((be msg) ^ be (rk_d sk) mod be (rk_n sk))).
Proof. exact rsa_exact. Qed.
Print Assumptions C52_results.
Theorem C52_roundtrip_refuted : exists sk pk msg, rsa_pair sk pk /\ bytes_ok msg /\ be msg < be (rp_n pk) /\
  rsa_encrypt pk msg = Raise Invalid_argument /\ rsa_sign sk msg = Raise Invalid_argument.
Proof. exact rsa_unaligned. Qed.
Print Assumptions C52_roundtrip_refuted.

(* C53 *)
Theorem C53_crt_partial : forall sk msg, rsa_crt sk -> be (rk_q sk) < be (rk_p sk) -> bytes_ok msg ->
  rsa_decrypt_CRT sk msg = rsa_decrypt sk msg /\ rsa_sign_CRT sk msg = rsa_sign sk msg.
Proof. exact rsa_crt_ok. Qed.
Print Assumptions C53_crt_partial.
Theorem C53_crt_refuted : exists sk msg m1 m2, rsa_crt sk /\ aligned (rk_size sk) /\ bytes_ok msg /\ be msg < be (rk_n sk) /\
  rsa_decrypt sk msg = Ret m1 /\ rsa_decrypt_CRT sk msg = Ret m2 /\ m1 <> m2.
Proof. exact crt_wrong. Qed.
Print Assumptions C53_crt_refuted.

(* C54 *)
Theorem C54_valid : forall fresh R np fuel s e numbits s' k, fresh_ok fresh -> rng_bytes R -> (forall n, 0 <= n -> prime (np n)) -> (forall x, e = Some x -> 0 < x) ->
  rsa_new_key fresh R np fuel s e numbits = (s', Ret k) -> new_key_spec e numbits k /\ rsa_pair (fst k) (snd k) /\ rsa_crt (fst k).
Proof. exact new_key_valid. Qed.
Print Assumptions C54_valid.
(* no failure if the sizes are whole numbers of limbs: only the loops waiting for suitable random
   numbers may go on *)
Theorem C54_total_partial : forall fresh R np fuel s e numbits, fresh_ok fresh -> rng_bytes R -> (forall n, 0 <= n -> prime (np n)) -> rng_total R ->
  32 <= numbits -> Z.even numbits = true -> size_ok numbits -> aligned numbits -> aligned (numbits / 2) -> (forall x, e = Some x -> 0 < x < 2 ^ numbits) ->
  ret_or_hang R (rsa_new_key fresh R np fuel s e numbits).
Proof. intros fresh R np fuel s e numbits F B P T. revert fuel s e numbits. exact (new_key_total fresh R np F B P T). Qed.
Print Assumptions C54_total_partial.
Theorem C54_wrong_sizes : forall fresh R np fuel s e numbits, numbits < 32 \/ Z.odd numbits = true ->
  rsa_new_key fresh R np fuel s e numbits = (s, Raise (Error Wrong_key_size)).
Proof. exact wrong_sizes. Qed.
Print Assumptions C54_wrong_sizes.
(* sizes for which no key is ever returned *)
Theorem C54_total_refuted : exists numbits, 32 <= numbits /\ Z.even numbits = true /\
  forall fresh R np fuel s e, fresh_ok fresh -> rng_bytes R -> (forall n, 0 <= n -> prime (np n)) -> (forall x, e = Some x -> 0 < x) ->
  forall k, snd (rsa_new_key fresh R np fuel s e numbits) <> Ret k.
Proof. exact new_key_32. Qed.
Print Assumptions C54_total_refuted.
(* the modulus may have one bit less than asked *)
Theorem C54_size_refuted : exists fresh R np fuel s k, fresh_ok fresh /\ rng_bytes R /\ (forall n, 0 <= n -> prime (np n)) /\
  snd (rsa_new_key fresh R np fuel s (Some 3) 128) = Ret k /\ be (rp_n (snd k)) < 2 ^ 127.
Proof. exact short_modulus. Qed.
Print Assumptions C54_size_refuted.
(* an even exponent is not refused: the function does not terminate, whatever the random numbers *)
Theorem C54_even_exponent : forall fresh R np fuel s e numbits, fresh_ok fresh -> rng_bytes R -> rng_total R -> (forall n, 0 <= n -> prime (np n)) ->
  32 <= numbits -> Z.even numbits = true -> size_ok numbits -> aligned numbits -> aligned (numbits / 2) -> 0 < e < 2 ^ numbits -> Z.even e = true ->
  snd (rsa_new_key fresh R np fuel s (Some e) numbits) = Hang.
Proof. exact even_exponent. Qed.
Print Assumptions C54_even_exponent.
(* a key of 128 bits, and its use *)
Example C54_case : fresh_ok toy_fresh /\ rng_bytes toy_rng /\ rng_total toy_rng /\ (forall n, 0 <= n -> prime (toy_nextprime n)) /\ aligned 128 /\ aligned 64 /\
  match snd (rsa_new_key toy_fresh toy_rng toy_nextprime 4 0%nat (Some 3) 128) with
  | Ret (sk, pk) => be (rk_p sk) = toy_p /\ be (rp_n pk) = toy_p * toy_q /\
      (olet c := rsa_encrypt pk [1; 2; 3; 4; 5; 6; 7; 8; 9] in rsa_decrypt sk c) = Ret [0; 0; 0; 0; 0; 0; 0; 1; 2; 3; 4; 5; 6; 7; 8; 9] /\
      (olet c := rsa_encrypt pk [1; 2; 3; 4; 5; 6; 7; 8; 9] in rsa_decrypt_CRT sk c) = Ret [0; 0; 0; 0; 0; 0; 0; 1; 2; 3; 4; 5; 6; 7; 8; 9] /\
      (olet c := rsa_sign_CRT sk [9; 8] in rsa_unwrap_signature pk c) = Ret [0; 0; 0; 0; 0; 0; 0; 0; 0; 0; 0; 0; 0; 0; 9; 8]
  | _ => False
  end.
Proof.
  split; [exact toy_fresh_ok|]. split; [exact toy_rng_bytes|]. split; [exact toy_rng_total|]. split; [exact toy_nextprime_ok|]. split; [exists 2; reflexivity|]. split; [exists 1; reflexivity|].
  vm_compute. repeat split; reflexivity.
Qed.

(* C55 *)
Theorem C55_roundtrip_partial : forall sk pk msg fresh R fuel s s' c, pai_key sk pk -> fresh_ok fresh -> rng_bytes R -> 0 < be msg < be (pp_n pk) ->
  pai_encrypt fresh R fuel s pk msg = (s', Ret c) -> exists x, pai_decrypt sk c = Ret x /\ be x = be msg.
Proof. exact pai_roundtrip. Qed.
Print Assumptions C55_roundtrip_partial.
Theorem C55_total_partial : forall fresh R fuel s sk pk msg, fresh_ok fresh -> rng_bytes R -> rng_total R -> pai_key sk pk -> 0 < be msg -> 2 <= pp_size pk -> size_ok (pp_size pk) ->
  ret_or_hang R (pai_encrypt fresh R fuel s pk msg).
Proof. intros fresh R fuel s sk pk msg F B T. revert fuel s sk pk msg. exact (pai_encrypt_total fresh R F B T). Qed.
Print Assumptions C55_total_partial.
(* zero cannot be encrypted *)
Theorem C55_zero_refuted : exists sk pk msg, pai_key sk pk /\ 0 <= be msg < be (pp_n pk) /\ bytes_ok msg /\
  forall fresh R fuel s c, snd (pai_encrypt fresh R fuel s pk msg) <> Ret c.
Proof. exact pai_zero. Qed.
Print Assumptions C55_zero_refuted.
Theorem C55_new_key : forall fresh R np fuel s numbits s' k, fresh_ok fresh -> rng_bytes R -> (forall n, 0 <= n -> prime (np n)) -> numbits <= 2 ^ 50 ->
  pai_new_key fresh R np fuel s numbits = (s', Ret k) ->
  pai_key (fst k) (snd k) /\ pp_size (snd k) = numbits /\ 2 ^ (numbits - 2) <= be (pp_n (snd k)) < 2 ^ numbits /\ 32 <= numbits /\ aligned (numbits / 2).
Proof. intros fresh R np fuel s numbits s' k F B P. revert fuel s numbits s' k. exact (pai_new_key_inv fresh R np F B P). Qed.
Print Assumptions C55_new_key.
Example C55_case : (exists sk pk, snd toy_pai = Ret (sk, pk) /\ pai_key sk pk /\ 2 <= pp_size pk /\ size_ok (pp_size pk)) /\
  match snd toy_pai with
  | Ret (sk, pk) => match snd (pai_encrypt toy_fresh toy_rng 4 0%nat pk [7; 1]) with Ret c => pai_decrypt sk c = Ret [0; 0; 0; 0; 0; 0; 7; 1] | _ => False end
  | _ => False
  end.
Proof. split; [exact toy_pai_ok|]. vm_compute. reflexivity. Qed.

(* C56.  Any number of additions. *)
Theorem C56_sum : forall sk pk m c, pai_key sk pk -> ciphertext pk m c -> exists x, pai_decrypt sk c = Ret x /\ be x = m mod be (pp_n pk).
Proof. exact pai_ciphertext_ok. Qed.
Print Assumptions C56_sum.
Theorem C56_add : forall sk pk m1 c1 m2 c2, pai_key sk pk -> ciphertext pk m1 c1 -> ciphertext pk m2 c2 ->
  exists c, pai_add pk c1 c2 = Ret c /\ ciphertext pk (m1 + m2) c.
Proof. exact pai_add_total. Qed.
Print Assumptions C56_add.
Example C56_case :
  match snd toy_pai with
  | Ret (sk, pk) =>
    match snd (pai_encrypt toy_fresh toy_rng 4 0%nat pk [7; 1]), snd (pai_encrypt toy_fresh toy_rng 4 1%nat pk [1; 255]) with
    | Ret c1, Ret c2 => c1 <> c2 /\ (olet c := pai_add pk c1 c2 in pai_decrypt sk c) = Ret [0; 0; 0; 0; 0; 0; 9; 0]
    | _, _ => False
    end
  | _ => False
  end.
Proof. vm_compute. split; [discriminate|reflexivity]. Qed.

(* C57.  The second component of dh_shared_secret is the result, the first the private secret afterwards. *)
Theorem C57_agreement_partial : forall pr x y, dh_ok pr -> 0 < x -> 0 < y -> exists mx my k,
  dh_message pr x = Ret mx /\ dh_message pr y = Ret my /\ snd (dh_shared_secret pr x my) = Ret k /\ snd (dh_shared_secret pr y mx) = Ret k /\
  zlen k = zlen (dh_p pr) /\ be k = (be (dh_g pr) ^ (x * y)) mod be (dh_p pr).
Proof. exact dh_agree. Qed.
Print Assumptions C57_agreement_partial.
Theorem C57_agreement_refuted : exists pr x, bytes_ok (dh_p pr) /\ prime (be (dh_p pr)) /\ 1 < be (dh_g pr) < be (dh_p pr) /\ 0 < x /\
  dh_message pr x = Raise Invalid_argument.
Proof. exact dh_unaligned. Qed.
Print Assumptions C57_agreement_refuted.
Theorem C57_private_secret : forall fresh R s pr s' x, fresh_ok fresh -> rng_bytes R -> dh_private_secret fresh R s pr = (s', Ret x) ->
  2 ^ (dh_privlen pr - 1) <= x < 2 ^ dh_privlen pr /\ 0 < x.
Proof. exact private_secret_bits. Qed.
Print Assumptions C57_private_secret.
Theorem C57_new_parameters : forall fresh R np fuel s privlen nb s' pr, fresh_ok fresh -> rng_bytes R -> (forall n, 0 <= n -> prime (np n)) ->
  dh_new_parameters fresh R np fuel s privlen nb = (s', Ret pr) ->
  32 <= nb /\ privlen < nb /\ dh_privlen pr = privlen /\ prime (be (dh_p pr)) /\ 2 ^ (nb - 1) <= be (dh_p pr) < 2 ^ nb /\
  1 < be (dh_g pr) < be (dh_p pr) /\ length (dh_p pr) = width nb /\ bytes_ok (dh_p pr) /\ aligned nb.
Proof. intros fresh R np fuel s privlen nb s' pr F B P. exact (new_parameters_inv fresh R np F B P fuel s privlen nb s' pr). Qed.
Print Assumptions C57_new_parameters.
(* used once: private secrets of 63 bits or more *)
Theorem C57_once_partial : forall fresh R s pr s' x m k, fresh_ok fresh -> rng_bytes R -> 63 <= dh_privlen pr -> dh_private_secret fresh R s pr = (s', Ret x) ->
  snd (dh_shared_secret pr x m) = Ret k ->
  let x' := fst (dh_shared_secret pr x m) in x' = 0 /\ dh_message pr x' = Raise Invalid_argument /\ forall m', snd (dh_shared_secret pr x' m') = Raise Invalid_argument.
Proof. exact private_wiped. Qed.
Print Assumptions C57_once_partial.
(* smaller ones remain *)
Theorem C57_once_refuted : exists pr x m k, dh_ok pr /\ 0 < x < 2 ^ dh_privlen pr /\ dh_shared_secret pr x m = (x, Ret k).
Proof. exact dh_not_wiped. Qed.
Print Assumptions C57_once_refuted.
Example C57_case : dh_ok toy_dh /\ (olet m := dh_message toy_dh 9 in snd (dh_shared_secret toy_dh 11 m)) = (olet m := dh_message toy_dh 11 in snd (dh_shared_secret toy_dh 9 m)) /\
  (olet m := dh_message toy_dh 9 in Ret (be m)) = Ret (5 ^ 9).
Proof. split; [exact toy_dh_ok|]. vm_compute. split; reflexivity. Qed.

(* C58.  [dec i]: the number i in decimal.  The result does not depend on the number K of hashes
   considered, so shorter keys are prefixes of longer ones. *)
Theorem C58_derive_key : forall (fresh : Z -> bytes) dv secret nb (dec : Z -> bytes) K, (forall n, 0 <= n -> zlen (fresh n) = n) ->
  (forall i, 0 < i -> is_decimal (dec i) i) -> bytes_ok dv -> bytes_ok secret -> zlen dv + zlen secret + 20 <= max_string_length ->
  0 <= nb <= max_string_length -> nb <= 32 * Z.of_nat K -> Z.of_nat K < 2 ^ 62 ->
  dh_derive_key fresh dv secret nb = Ret (firstn (Z.to_nat nb) (concat (map (fun i => sha256 (dv ++ secret ++ dec (Z.of_nat i))) (seq 1 K)))).
Proof. exact derive_key_ok. Qed.
Print Assumptions C58_derive_key.
Example C58_case : is_decimal [49; 50] 12 /\ bytes_ok [97] /\
  dh_derive_key toy_fresh [97] [98] 34 = Ret (sha256 [97; 98; 49] ++ firstn 2 (sha256 [97; 98; 50])).
Proof. split; [repeat split; [repeat constructor; discriminate|discriminate]|]. split; [repeat constructor; unfold byte_ok; discriminate|]. vm_compute. reflexivity. Qed.
