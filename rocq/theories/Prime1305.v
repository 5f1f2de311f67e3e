(* 2^130 - 5 is prime, by Pocklington's criterion with one large prime factor. *)
From Coq Require Import ZArith Znumtheory Zpow_facts Lia.
From Verif Require Import NumTheory PrimeCert SpecPoly.
Open Scope Z_scope.

Lemma pock_div p q k a : prime q -> 0 < k -> p = k * q + 1 -> Zpow_mod a (p - 1) p = 1 -> Z.gcd (Zpow_mod a k p - 1) p = 1 ->
  forall r, prime r -> (r | p) -> (q | r - 1).
Proof.
  intros Pq K E A G. pose proof (prime_pos q Pq) as Q2. assert (P1 : 1 < p) by nia. rewrite Zpow_mod_correct in * by lia.
  intros r R D. pose proof (prime_pos r R) as R2. assert (C1 : cong r (a ^ (p - 1)) 1).
    { apply (cong_div r p); [exact D|]. apply cong_mod; [lia|]. rewrite A. rewrite Z.mod_small by lia. reflexivity. }
    assert (Na : ~ (r | a)).
    { intros Da. assert (Dp : (r | a ^ (p - 1))) by (replace (p - 1) with (Z.succ (p - 2)) by lia; rewrite Z.pow_succ_r by lia; apply Z.divide_mul_l; exact Da). assert (Z1 : (r | 1)) by (replace 1 with (a ^ (p - 1) - (a ^ (p - 1) - 1)) by ring; apply Z.divide_sub_r; [exact Dp|exact C1]). apply Z.divide_1_r in Z1. lia. }
    destruct (Zdivide_dec q (r - 1)) as [Y|Y]; [exact Y|]. exfalso.
    pose proof (pow_gcd r a (p - 1) (r - 1) R Na ltac:(lia) ltac:(lia) C1 (fermat r a R Na)) as C2. set (g := Z.gcd (p - 1) (r - 1)) in *. assert (G0 : 0 <= g) by apply Z.gcd_nonneg.
    assert (Dg : (g | k)).
    { apply (Gauss g q); [replace (q * k) with (p - 1) by lia; apply Z.gcd_divide_l|]. apply rel_prime_sym, prime_rel_prime; [exact Pq|]. intros Hg. apply Y. eapply Z.divide_trans; [exact Hg|]. apply Z.gcd_divide_r. }
    assert (C3 : cong r (a ^ k) 1).
    { destruct Dg as (j & J). rewrite J. assert (0 <= j) by (clear - J K G0; nia). rewrite Z.mul_comm, Z.pow_mul_r by lia. apply cong_trans with (1 ^ j); [apply cong_pow; exact C2|]. rewrite Z.pow_1_l by lia. apply cong_refl. }
    assert (Dx : (r | a ^ k mod p - 1)).
    { apply (cong_trans r _ (a ^ k)); [|exact C3]. apply (cong_div r p); [exact D|]. apply cong_rem. lia. }
    assert (D1 : (r | 1)) by (rewrite <- G; apply Z.gcd_greatest; [exact Dx|exact D]). apply Z.divide_1_r in D1. lia.
Qed.
Lemma pock_end p f : 1 < p -> 1 < f -> p < f * f -> (forall r, prime r -> (r | p) -> (f | r - 1)) -> prime p.
Proof.
  intros P1 F L Big.
  destruct (prime_dec p) as [Y|Y]; [exact Y|]. exfalso. apply not_prime_divide in Y; [|exact P1]. destruct Y as (d & D1 & (e & De)).
  assert (HD : forall x, 1 < x -> (x | p) -> f < x).
  { intros x X Dx. destruct (prime_divisor x X) as (r & R & Dr). specialize (Big r R (Z.divide_trans _ _ _ Dr Dx)). pose proof (prime_pos r R). apply Z.divide_pos_le in Big; [|lia]. apply Z.divide_pos_le in Dr; [|lia]. lia. }
  assert (X1 : f < d) by (apply HD; [lia|exists e; exact De]). assert (E1 : 1 < e) by nia. assert (X2 : f < e) by (apply HD; [exact E1|exists d; lia]).
  clear - X1 X2 De L F. nia.
Qed.

Theorem pocklington p q k a : prime q -> 0 < k -> p = k * q + 1 -> p < q * q -> Zpow_mod a (p - 1) p = 1 -> Z.gcd (Zpow_mod a k p - 1) p = 1 -> prime p.
Proof.
  intros Pq K E L A G. pose proof (prime_pos q Pq). apply (pock_end p q); [nia|lia|exact L|]. exact (pock_div p q k a Pq K E A G).
Qed.
Theorem pocklington2 p q q' k k' a a' : prime q -> prime q' -> q <> q' -> 0 < k -> 0 < k' -> p = k * q + 1 -> p = k' * q' + 1 -> p < q * q' * (q * q') ->
  Zpow_mod a (p - 1) p = 1 -> Z.gcd (Zpow_mod a k p - 1) p = 1 -> Zpow_mod a' (p - 1) p = 1 -> Z.gcd (Zpow_mod a' k' p - 1) p = 1 -> prime p.
Proof.
  intros Pq Pq' N K K' E E' L A G A' G'. pose proof (prime_pos q Pq). pose proof (prime_pos q' Pq'). apply (pock_end p (q * q')); [nia|nia|exact L|].
  intros r R D. pose proof (pock_div p q k a Pq K E A G r R D) as D1. pose proof (pock_div p q' k' a' Pq' K' E' A' G' r R D) as D2.
  assert (C : cong (q * q') r 1) by (apply crt_cong; [apply primes_coprime; assumption|exact D1|exact D2]). exact C.
Qed.

(* small primes, by trial division *)
Fixpoint no_div (fuel : nat) (d n : Z) : bool :=
  match fuel with O => true | S f => negb (n mod d =? 0) && no_div f (d + 1) n end.
Lemma no_div_ok f : forall d n x, 0 < d -> no_div f d n = true -> d <= x < d + Z.of_nat f -> n mod x <> 0.
Proof.
  induction f as [|f IH]; intros d n x D H X; [lia|]. cbn [no_div] in H. apply andb_prop in H. destruct H as (H1 & H2).
  destruct (Z.eq_dec x d) as [->|N]; [apply Bool.negb_true_iff, Z.eqb_neq in H1; exact H1|]. apply (IH (d + 1) n x); [lia|exact H2|lia].
Qed.
Lemma trial n (f : nat) : 1 < n -> n < (Z.of_nat f + 2) * (Z.of_nat f + 2) -> no_div f 2 n = true -> prime n.
Proof.
  intros N F H. destruct (prime_dec n) as [Y|Y]; [exact Y|]. exfalso. apply not_prime_divide in Y; [|exact N]. destruct Y as (d & D1 & (e & De)).
  assert (K : forall x y, 1 < x -> n = x * y -> Z.of_nat f + 2 <= x).
  { intros x y X E. destruct (Z.le_gt_cases (Z.of_nat f + 2) x) as [L|L]; [exact L|]. exfalso. apply (no_div_ok f 2 n x ltac:(lia) H ltac:(lia)). rewrite E, Z.mul_comm. apply Z.mod_mul. lia. }
  assert (1 < e) by nia. pose proof (K d e ltac:(lia) ltac:(lia)). pose proof (K e d ltac:(lia) ltac:(lia)). nia.
Qed.
Lemma prime_221101 : prime 221101. Proof. apply (trial 221101 470); [lia|lia|vm_compute; reflexivity]. Qed.
Lemma prime_37003 : prime 37003. Proof. apply (trial 37003 192); [lia|lia|vm_compute; reflexivity]. Qed.
Lemma prime_4024685905107147541 : prime 4024685905107147541.
Proof. apply (pocklington2 4024685905107147541 221101 37003 18202929453540 108766475829180 2 2); [exact prime_221101|exact prime_37003|lia|lia|lia|reflexivity|reflexivity|lia|vm_compute; reflexivity..]. Qed.
Lemma prime_897064739519922787230182993783 : prime 897064739519922787230182993783.
Proof. apply (pocklington 897064739519922787230182993783 4024685905107147541 222890620702 2); [exact prime_4024685905107147541|lia|reflexivity|lia|vm_compute; reflexivity..]. Qed.
Theorem prime_1305 : prime p1305.
Proof. apply (pocklington p1305 897064739519922787230182993783 1517314646 2); [exact prime_897064739519922787230182993783|lia|vm_compute; reflexivity|vm_compute; reflexivity|vm_compute; reflexivity..]. Qed.
