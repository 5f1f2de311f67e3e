(* Properties of Diffie-Hellman: part of C57. *)
From Coq Require Import Znumtheory.
From Verif Require Import Prelude BytesNum RngModel BnModel PkModel SpecPk Pk PkCases DhExact.

(* C57: the exact results for every p, prime or not, and every secret.  [encode size x]: x on
   size / 8 bytes, or Invalid_argument if whole limbs do not fit.  The private secret is
   erased if it is 2^62 or more, and only when a result is returned. *)
Theorem C57_exact : forall pr x m, str_ok (dh_p pr) ->
  let p := be (dh_p pr) in
  let answer b := if (x <=? 0) || Z.even p then Raise Invalid_argument else encode (zlen (dh_p pr) * 8) (b ^ x mod p) in
  dh_message pr x = answer (be (dh_g pr)) /\ snd (dh_shared_secret pr x m) = answer (be m) /\
  fst (dh_shared_secret pr x m) = match answer (be m) with Ret _ => if x <? 2 ^ 62 then x else 0 | _ => x end.
Proof. exact dh_results. Qed.
Print Assumptions C57_exact.
(* whatever the parameters: if nobody gets an exception, both get the same secret *)
Theorem C57_agree : forall pr x y mx my k k', str_ok (dh_p pr) -> dh_message pr x = Ret mx -> dh_message pr y = Ret my ->
  snd (dh_shared_secret pr x my) = Ret k -> snd (dh_shared_secret pr y mx) = Ret k' ->
  k = k' /\ zlen k = zlen (dh_p pr) /\ be k = be (dh_g pr) ^ (x * y) mod be (dh_p pr).
Proof. exact dh_agree_any. Qed.
Print Assumptions C57_agree.
(* p = 23, g = 5 on eight bytes and on one; secrets below and above 2^62 *)
Definition dh23 : dh_params := DhParams [0; 0; 0; 0; 0; 0; 0; 23] [5] 4.
Example C57_exact_case : str_ok (dh_p dh23) /\ dh_message dh23 6 = Ret [0; 0; 0; 0; 0; 0; 0; 8] /\ dh_message dh23 15 = Ret [0; 0; 0; 0; 0; 0; 0; 19] /\
  dh_shared_secret dh23 6 [19] = (6, Ret [0; 0; 0; 0; 0; 0; 0; 2]) /\ dh_shared_secret dh23 15 [8] = (15, Ret [0; 0; 0; 0; 0; 0; 0; 2]) /\
  fst (dh_shared_secret dh23 (2 ^ 62) [19]) = 0 /\ dh_shared_secret (DhParams [23] [5] 4) (2 ^ 62) [19] = (2 ^ 62, Raise Invalid_argument) /\
  dh_message (DhParams [22] [5] 4) 6 = Raise Invalid_argument.
Proof. split; [split; [repeat (apply Forall_cons; [unfold byte_ok; lia|]); apply Forall_nil|vm_compute; discriminate]|]. repeat split; vm_compute; reflexivity. Qed.
