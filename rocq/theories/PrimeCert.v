(* Primality certificates for the examples: numbers k 2^m + 1 with k < 2^m (Proth, Pocklington). *)
From Coq Require Import ZArith Znumtheory Zpow_facts Lia.
From Verif Require Import NumTheory.
Open Scope Z_scope.

Lemma prime_divisor : forall n, 1 < n -> exists r, prime r /\ (r | n).
Proof.
  intros n N. assert (G : forall k : nat, forall n, 1 < n -> n < Z.of_nat k -> exists r, prime r /\ (r | n)).
  { induction k as [|k IH]; intros m M K; [lia|]. destruct (prime_dec m) as [P|P]; [exists m; split; [exact P|apply Z.divide_refl]|].
    apply not_prime_divide in P; [|exact M]. destruct P as (d & D1 & D2). destruct (IH d ltac:(lia) ltac:(lia)) as (r & R & Dv). exists r. split; [exact R|eapply Z.divide_trans; eassumption]. }
  apply (G (Z.to_nat (n + 1)) n N). lia.
Qed.
(* a^x = a^y = 1 give a^gcd(x,y) = 1 *)
Lemma pow_gcd r a x y : prime r -> ~ (r | a) -> 0 < x -> 0 < y -> cong r (a ^ x) 1 -> cong r (a ^ y) 1 -> cong r (a ^ Z.gcd x y) 1.
Proof.
  intros P A X Y Hx Hy.
  assert (G : forall k : nat, forall x y, 0 <= x -> 0 <= y -> x + y < Z.of_nat k -> cong r (a ^ x) 1 -> cong r (a ^ y) 1 -> cong r (a ^ Z.gcd x y) 1).
  { clear X Y Hx Hy x y. induction k as [|k IH]; intros x y X Y K Hx Hy; [lia|].
    assert (Sub : forall u v, 0 <= u -> u <= v -> cong r (a ^ u) 1 -> cong r (a ^ v) 1 -> cong r (a ^ (v - u)) 1).
    { intros u v U V Hu Hv. apply cong_trans with (a ^ (v - u) * a ^ u); [|rewrite <- Z.pow_add_r by lia; replace (v - u + u) with v by lia; exact Hv].
      apply cong_trans with (a ^ (v - u) * 1); [rewrite Z.mul_1_r; apply cong_refl|]. apply cong_mul; [apply cong_refl|apply cong_sym; exact Hu]. }
    destruct (Z.eq_dec x 0) as [->|X0]; [rewrite Z.gcd_0_l, Z.abs_eq by lia; exact Hy|]. destruct (Z.eq_dec y 0) as [->|Y0]; [rewrite Z.gcd_0_r, Z.abs_eq by lia; exact Hx|].
    destruct (Z.le_gt_cases x y) as [L|L].
    - replace (Z.gcd x y) with (Z.gcd x (y - x)) by (rewrite Z.gcd_sub_diag_r; reflexivity). apply IH; try lia; [exact Hx|]. apply Sub; assumption.
    - replace (Z.gcd x y) with (Z.gcd (x - y) y) by (rewrite (Z.gcd_comm (x - y)), Z.gcd_sub_diag_r, Z.gcd_comm; reflexivity). apply IH; try lia; [|exact Hy]. apply Sub; try assumption; lia. }
  apply (G (Z.to_nat (x + y + 1)) x y); try assumption; lia.
Qed.
Lemma two_power_div m : 0 <= m -> forall k g, Z.odd k = true -> (g | k * 2 ^ m) -> ~ (2 ^ m | g) -> 0 < m -> (g | k * 2 ^ (m - 1)).
Proof.
  revert m. apply (natlike_ind (fun m => forall k g, Z.odd k = true -> (g | k * 2 ^ m) -> ~ (2 ^ m | g) -> 0 < m -> (g | k * 2 ^ (m - 1)))); [intros; lia|].
  intros m M IH k g O D N _. replace (Z.succ m - 1) with m by lia. rewrite Z.pow_succ_r in * by lia. destruct (Z.odd g) eqn:Og.
  - (* g odd *) apply (Gauss g 2); [replace (2 * (k * 2 ^ m)) with (k * (2 * 2 ^ m)) by ring; exact D|]. apply rel_prime_sym. apply prime_rel_prime; [exact prime_2|]. intros (j & J). rewrite J, Z.odd_mul in Og. rewrite Bool.andb_false_r in Og. discriminate Og.
  - rewrite <- Z.negb_even in Og. apply Bool.negb_false_iff in Og. apply Z.even_spec in Og. destruct Og as (h & ->).
    assert (Dh : (h | k * 2 ^ m)) by (destruct D as (j & D); exists j; lia). destruct (Z.eq_dec m 0) as [->|M0].
    + exfalso. apply N. change (2 * 2 ^ 0) with 2. apply Z.divide_factor_l.
    + specialize (IH k h O Dh). assert (Nh : ~ (2 ^ m | h)) by (intros (j & J); apply N; exists j; lia). specialize (IH Nh ltac:(lia)). destruct IH as (j & J). exists j. replace (2 ^ m) with (2 * 2 ^ (m - 1)) by (rewrite <- Z.pow_succ_r by lia; f_equal; lia). lia.
Qed.
Theorem proth p k m a : 0 < m -> Z.odd k = true -> 0 < k -> p = k * 2 ^ m + 1 -> k < 2 ^ m -> Zpow_mod a (p - 1) p = 1 -> Z.gcd (Zpow_mod a ((p - 1) / 2) p - 1) p = 1 -> prime p.
Proof.
  intros M O K E L A G. assert (P1 : 1 < p) by (assert (0 < 2 ^ m) by (apply Z.pow_pos_nonneg; lia); nia). rewrite Zpow_mod_correct in * by lia.
  assert (H2 : (p - 1) / 2 = k * 2 ^ (m - 1)).
  { replace (p - 1) with (k * 2 ^ (m - 1) * 2); [apply Z.div_mul; lia|]. rewrite E. replace (k * 2 ^ m + 1 - 1) with (k * 2 ^ m) by ring. replace (2 ^ m) with (2 ^ (m - 1) * 2); [ring|]. rewrite Z.mul_comm, <- Z.pow_succ_r by lia. f_equal. lia. }
  assert (Big : forall r, prime r -> (r | p) -> (2 ^ m | r - 1)).
  { intros r R D. pose proof (prime_pos r R) as R2. assert (C1 : cong r (a ^ (p - 1)) 1).
    { apply (cong_div r p); [exact D|]. apply cong_mod; [lia|]. rewrite A. rewrite Z.mod_small by lia. reflexivity. }
    assert (Na : ~ (r | a)).
    { intros Da. assert (Dp : (r | a ^ (p - 1))) by (replace (p - 1) with (Z.succ (p - 2)) by lia; rewrite Z.pow_succ_r by lia; apply Z.divide_mul_l; exact Da). assert (Z1 : (r | 1)) by (replace 1 with (a ^ (p - 1) - (a ^ (p - 1) - 1)) by ring; apply Z.divide_sub_r; [exact Dp|exact C1]). apply Z.divide_1_r in Z1. lia. }
    destruct (Zdivide_dec (2 ^ m) (r - 1)) as [Y|Y]; [exact Y|]. exfalso.
    pose proof (pow_gcd r a (p - 1) (r - 1) R Na ltac:(lia) ltac:(lia) C1 (fermat r a R Na)) as C2. set (g := Z.gcd (p - 1) (r - 1)) in *. assert (G0 : 0 <= g) by apply Z.gcd_nonneg.
    assert (Dg : (g | k * 2 ^ (m - 1))).
    { apply two_power_div; [lia|exact O| | |exact M].
      - replace (k * 2 ^ m) with (p - 1) by lia. apply Z.gcd_divide_l.
      - intros Hg. apply Y. eapply Z.divide_trans; [exact Hg|]. apply Z.gcd_divide_r. }
    assert (C3 : cong r (a ^ ((p - 1) / 2)) 1).
    { rewrite H2. destruct Dg as (j & J). rewrite J. assert (0 < k * 2 ^ (m - 1)) by (apply Z.mul_pos_pos; [lia|apply Z.pow_pos_nonneg; lia]). assert (0 <= j) by nia. rewrite Z.mul_comm, Z.pow_mul_r by lia. apply cong_trans with (1 ^ j); [apply cong_pow; exact C2|]. rewrite Z.pow_1_l by lia. apply cong_refl. }
    assert (Dx : (r | a ^ ((p - 1) / 2) mod p - 1)).
    { apply (cong_trans r _ (a ^ ((p - 1) / 2))); [|exact C3]. apply (cong_div r p); [exact D|]. apply cong_rem. lia. }
    assert (D1 : (r | 1)) by (rewrite <- G; apply Z.gcd_greatest; [exact Dx|exact D]). apply Z.divide_1_r in D1. lia. }
  destruct (prime_dec p) as [Y|Y]; [exact Y|]. exfalso. apply not_prime_divide in Y; [|exact P1]. destruct Y as (d & D1 & (e & De)).
  assert (HD : forall x, 1 < x -> (x | p) -> 2 ^ m < x).
  { intros x X Dx. destruct (prime_divisor x X) as (r & R & Dr). specialize (Big r R (Z.divide_trans _ _ _ Dr Dx)). pose proof (prime_pos r R). apply Z.divide_pos_le in Big; [|lia]. apply Z.divide_pos_le in Dr; [|lia]. lia. }
  assert (X1 : 2 ^ m < d) by (apply HD; [lia|exists e; exact De]). assert (E1 : 1 < e) by nia. assert (X2 : 2 ^ m < e) by (apply HD; [exact E1|exists d; lia]).
  set (T := 2 ^ m) in *. clearbody T. clear - X1 X2 De E L K. nia.
Qed.
