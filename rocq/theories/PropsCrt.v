(* Properties of RSA by Chinese remainders: part of C53, C117. *)
From Coq Require Import Znumtheory.
From Verif Require Import Prelude BytesNum RngModel BnModel PkModel SpecPk Pk PkCases Crt.

(* C53: the exact results.  [encode size x]: x on the number of bytes of the key size, or
   Invalid_argument if whole limbs do not fit.  If p < q the result may be n minus the
   right one; if q < p it is always right. *)
Theorem C53_exact : forall sk msg, rsa_crt sk -> bytes_ok msg -> be msg < be (rk_n sk) ->
  let p := be (rk_p sk) in let q := be (rk_q sk) in let n := be (rk_n sk) in let x := be msg ^ be (rk_d sk) mod n in
  rsa_decrypt sk msg = encode (rk_size sk) x /\
  rsa_decrypt_CRT sk msg = encode (rk_size sk) (if (x mod p + p <? x mod q) && (q <=? x) then n - x else x).
Proof. exact rsa_crt_exact. Qed.
Print Assumptions C53_exact.
(* p = 5, q = 17: the result for 50 is 85 - 50 ^ 43 mod 85 *)
Example C53_exact_case : rsa_crt crt_sk /\ rsa_decrypt crt_sk [50] = Ret [0; 0; 0; 0; 0; 0; 0; 50 ^ 43 mod 85] /\
  rsa_decrypt_CRT crt_sk [50] = Ret [0; 0; 0; 0; 0; 0; 0; 85 - 50 ^ 43 mod 85].
Proof. split; [exact crt_small|]. split; vm_compute; reflexivity. Qed.

(* C117.  A private key in which the exponent for p or the inverse of q (or d) has been
   altered in any way: if sign_CRT gives a wrong signature, it gives away q to anyone who
   knows the message and the public key. *)
Theorem C117_p : forall sk pk d' dp' qinv' msg s m', rsa_crt sk -> be (rk_q sk) < be (rk_p sk) ->
  rsa_numbers (be (rk_p sk)) (be (rk_q sk)) (be (rp_e pk)) (be (rk_d sk)) -> be (rp_n pk) = be (rk_n sk) -> rp_size pk = rk_size sk ->
  bytes_ok qinv' -> bytes_ok msg ->
  rsa_sign_CRT (RsaPriv (rk_size sk) (rk_n sk) d' (rk_p sk) (rk_q sk) dp' (rk_dq sk) qinv') msg = Ret s ->
  rsa_unwrap_signature pk s = Ret m' -> be m' <> be msg ->
  Z.gcd (be m' - be msg) (be (rk_n sk)) = be (rk_q sk).
Proof. exact fault_p. Qed.
Print Assumptions C117_p.
(* the exponent for q altered: the signature gives away p *)
Theorem C117_q : forall sk pk d' dq' msg s m', rsa_crt sk -> be (rk_q sk) < be (rk_p sk) ->
  rsa_numbers (be (rk_p sk)) (be (rk_q sk)) (be (rp_e pk)) (be (rk_d sk)) -> be (rp_n pk) = be (rk_n sk) -> rp_size pk = rk_size sk ->
  bytes_ok msg ->
  rsa_sign_CRT (RsaPriv (rk_size sk) (rk_n sk) d' (rk_p sk) (rk_q sk) (rk_dp sk) dq' (rk_qinv sk)) msg = Ret s ->
  rsa_unwrap_signature pk s = Ret m' -> be m' <> be msg ->
  Z.gcd (be m' - be msg) (be (rk_n sk)) = be (rk_p sk).
Proof. exact fault_q. Qed.
Print Assumptions C117_q.
(* p = 17, q = 5, e = 3, d = 43; message 2 *)
Definition fault_sk : rsa_private := RsaPriv 64 [85] [43] [17] [5] [11] [3] [7].
Example C117_case : rsa_crt fault_sk /\ rsa_numbers 17 5 3 43 /\
  match rsa_sign_CRT (RsaPriv 64 [85] [43] [17] [5] [10] [3] [7]) [2] with
  | Ret s => match rsa_unwrap_signature (RsaPub 64 [85] [3]) s with Ret m' => Z.gcd (be m' - 2) 85 = 5 | _ => False end
  | _ => False
  end /\
  match rsa_sign_CRT (RsaPriv 64 [85] [43] [17] [5] [11] [2] [7]) [2] with
  | Ret s => match rsa_unwrap_signature (RsaPub 64 [85] [3]) s with Ret m' => Z.gcd (be m' - 2) 85 = 17 | _ => False end
  | _ => False
  end.
Proof.
  split; [|split; [|split; vm_compute; reflexivity]].
  - unfold rsa_crt. cbn zeta. repeat match goal with |- _ /\ _ => split end; try (vm_compute; discriminate); try (vm_compute; (reflexivity || congruence || (split; discriminate))); try (apply small_prime; vm_compute; reflexivity).
    + apply Zgcd_1_rel_prime. vm_compute. reflexivity.
    + apply Zgcd_1_rel_prime. vm_compute. reflexivity.
    + exists 2. vm_compute. reflexivity.
  - unfold rsa_numbers. repeat match goal with |- _ /\ _ => split end; try (vm_compute; discriminate); try (vm_compute; (reflexivity || congruence || (split; discriminate))); try (apply small_prime; vm_compute; reflexivity).
    + exists 8. reflexivity.
    + exists 32. reflexivity.
Qed.
