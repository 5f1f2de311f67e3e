(* Machine words of w bits, represented by integers in [0, 2^w). *)
From Verif Require Import Prelude PreludeFacts BytesNum.

Definition word_ok (w x : Z) : Prop := 0 <= x < 2 ^ w.

(* ---- the C operators on unsigned w-bit integers ---- *)
Definition c_add (w x y : Z) : Z := (x + y) mod 2 ^ w.
Definition c_shl (w x n : Z) : Z := Z.shiftl x n mod 2 ^ w.
Definition c_shr (x n : Z) : Z := Z.shiftr x n.
Definition c_not (w x : Z) : Z := 2 ^ w - 1 - x.
(* (x << n) | (x >> (w - n)) and (x >> n) | (x << (w - n)) *)
Definition c_rol (w x n : Z) : Z := Z.lor (c_shl w x n) (c_shr x (w - n)).
Definition c_ror (w x n : Z) : Z := Z.lor (c_shr x n) (c_shl w x (w - n)).

(* ---- specification of rotations ---- *)
Definition rotl (w n x : Z) : Z := (x * 2 ^ n) mod 2 ^ w + x / 2 ^ (w - n).
Definition rotr (w n x : Z) : Z := x / 2 ^ n + (x mod 2 ^ n) * 2 ^ (w - n).

Lemma testbit_high w x n : word_ok w x -> w <= n -> Z.testbit x n = false.
Proof.
  intros (H1 & H2) H. destruct (Z.eq_dec x 0) as [->|]; [apply Z.bits_0|]. apply Z.bits_above_log2; [lia|].
  apply Z.log2_lt_pow2; [lia|]. apply Z.lt_le_trans with (2 ^ w); [assumption|].
  apply Z.pow_le_mono_r; lia.
Qed.
Lemma word_ok_bits w x : 0 <= w -> 0 <= x -> (forall n, w <= n -> Z.testbit x n = false) -> word_ok w x.
Proof.
  intros Hw Hx H. split; [assumption|]. destruct (Z.lt_ge_cases x (2 ^ w)); [assumption|]. exfalso.
  assert (Hl : w <= Z.log2 x) by (apply Z.log2_le_pow2; [|assumption]; apply Z.lt_le_trans with (2 ^ w); [apply Z.pow_pos_nonneg; lia|assumption]).
  specialize (H (Z.log2 x) Hl). rewrite Z.bit_log2 in H; [discriminate|].
  apply Z.lt_le_trans with (2 ^ w); [apply Z.pow_pos_nonneg; lia|assumption].
Qed.
Lemma word_ok_mod w x : 0 <= w -> word_ok w (x mod 2 ^ w).
Proof. intros. apply Z.mod_pos_bound, Z.pow_pos_nonneg; lia. Qed.
Lemma word_ok_add w x y : 0 <= w -> word_ok w (c_add w x y).
Proof. apply word_ok_mod. Qed.
Lemma word_ok_lxor w x y : 0 <= w -> word_ok w x -> word_ok w y -> word_ok w (Z.lxor x y).
Proof. apply lxor_bound. Qed.
Lemma word_ok_land w x y : 0 <= w -> word_ok w x -> word_ok w y -> word_ok w (Z.land x y).
Proof.
  intros Hw Hx Hy. apply word_ok_bits; [assumption|apply Z.land_nonneg; left; apply Hx|].
  intros n Hn. rewrite Z.land_spec, (testbit_high w x n) by assumption. reflexivity.
Qed.
Lemma word_ok_lor w x y : 0 <= w -> word_ok w x -> word_ok w y -> word_ok w (Z.lor x y).
Proof.
  intros Hw Hx Hy. apply word_ok_bits; [assumption|apply Z.lor_nonneg; split; [apply Hx|apply Hy]|].
  intros n Hn. rewrite Z.lor_spec, (testbit_high w x n), (testbit_high w y n) by assumption. reflexivity.
Qed.
Lemma word_ok_shr w x n : 0 <= n -> word_ok w x -> word_ok w (c_shr x n).
Proof.
  intros Hn (H1 & H2). unfold c_shr. rewrite Z.shiftr_div_pow2 by assumption. assert (0 < 2 ^ n) by (apply Z.pow_pos_nonneg; lia). split.
  - apply Z.div_pos; lia.
  - apply Z.le_lt_trans with x; [|assumption]. apply Z.div_le_upper_bound; [assumption|]. nia.
Qed.
Lemma word_ok_shl w x n : 0 <= w -> word_ok w (c_shl w x n).
Proof. apply word_ok_mod. Qed.
Lemma word_ok_rol w x n : 0 <= w -> n <= w -> word_ok w x -> word_ok w (c_rol w x n).
Proof. intros. apply word_ok_lor; [assumption|apply word_ok_shl; assumption|apply word_ok_shr; [lia|assumption]]. Qed.
Lemma word_ok_ror w x n : 0 <= w -> 0 <= n -> word_ok w x -> word_ok w (c_ror w x n).
Proof. intros. apply word_ok_lor; [assumption|apply word_ok_shr; assumption|apply word_ok_shl; assumption]. Qed.
Lemma word_ok_not w x : word_ok w x -> word_ok w (c_not w x).
Proof. unfold word_ok, c_not. lia. Qed.

Lemma c_not_testbit w x n : 0 <= w -> word_ok w x -> 0 <= n -> Z.testbit (c_not w x) n = (n <? w) && negb (Z.testbit x n).
Proof.
  intros Hw Hx Hn. unfold c_not. replace (2 ^ w - 1 - x) with (Z.lnot x mod 2 ^ w).
  - destruct (Z.ltb_spec n w); cbn [andb].
    + rewrite Z.mod_pow2_bits_low by lia. apply Z.lnot_spec. assumption.
    + apply Z.mod_pow2_bits_high. lia.
  - unfold Z.lnot, word_ok in *. replace (Z.pred (- x)) with (2 ^ w - 1 - x + (-1) * 2 ^ w) by lia. rewrite Z.mod_add by lia. apply Z.mod_small. lia.
Qed.
Lemma testbit_mod w x n : 0 <= w -> 0 <= n -> Z.testbit (x mod 2 ^ w) n = (n <? w) && Z.testbit x n.
Proof.
  intros Hw Hn. destruct (Z.ltb_spec n w); cbn [andb]; [apply Z.mod_pow2_bits_low; lia|apply Z.mod_pow2_bits_high; lia].
Qed.

(* disjoint bits: or is addition *)
Lemma lor_add a b : Z.land a b = 0 -> Z.lor a b = a + b.
Proof. intros H. rewrite <- Z.lxor_lor, <- Z.add_nocarry_lxor by exact H. reflexivity. Qed.
Lemma lor_shift_add a b n : 0 <= n -> 0 <= a < 2 ^ n -> Z.lor a (b * 2 ^ n) = a + b * 2 ^ n.
Proof.
  intros Hn Ha. apply lor_add. apply Z.bits_inj'. intros k Hk. rewrite Z.land_spec, Z.bits_0. destruct (Z.lt_ge_cases k n).
  - rewrite Z.mul_pow2_bits_low by lia. apply andb_false_r.
  - rewrite (testbit_high n a k) by (assumption || lia). reflexivity.
Qed.

Lemma c_rol_rotl w x n : word_ok w x -> 0 <= n <= w -> c_rol w x n = rotl w n x.
Proof.
  intros Hx Hn. unfold c_rol, c_shl, c_shr, rotl. rewrite Z.shiftl_mul_pow2, Z.shiftr_div_pow2 by lia.
  assert (P : 0 < 2 ^ n) by (apply Z.pow_pos_nonneg; lia). assert (P' : 0 < 2 ^ (w - n)) by (apply Z.pow_pos_nonneg; lia).
  assert (W : 2 ^ w = 2 ^ (w - n) * 2 ^ n) by (rewrite <- Z.pow_add_r by lia; f_equal; lia).
  rewrite W, Z.mul_mod_distr_r by lia. rewrite Z.lor_comm, lor_shift_add; [lia|lia|].
  destruct Hx. split; [apply Z.div_pos; lia|]. apply Z.div_lt_upper_bound; [lia|]. lia.
Qed.
Lemma c_ror_rotr w x n : word_ok w x -> 0 <= n <= w -> c_ror w x n = rotr w n x.
Proof.
  intros Hx Hn. unfold c_ror, c_shl, c_shr, rotr. rewrite Z.shiftl_mul_pow2, Z.shiftr_div_pow2 by lia.
  assert (P : 0 < 2 ^ n) by (apply Z.pow_pos_nonneg; lia). assert (P' : 0 < 2 ^ (w - n)) by (apply Z.pow_pos_nonneg; lia).
  assert (W : 2 ^ w = 2 ^ n * 2 ^ (w - n)) by (rewrite <- Z.pow_add_r by lia; f_equal; lia).
  rewrite W, Z.mul_mod_distr_r by lia. rewrite lor_shift_add; [lia|lia|].
  destruct Hx. split; [apply Z.div_pos; lia|]. apply Z.div_lt_upper_bound; [lia|]. lia.
Qed.
Lemma word_ok_rotl w n x : word_ok w x -> 0 <= n <= w -> word_ok w (rotl w n x).
Proof. intros Hx Hn. rewrite <- c_rol_rotl by assumption. apply word_ok_rol; [lia|lia|assumption]. Qed.
Lemma word_ok_rotr w n x : word_ok w x -> 0 <= n <= w -> word_ok w (rotr w n x).
Proof. intros Hx Hn. rewrite <- c_ror_rotr by assumption. apply word_ok_ror; [lia|lia|assumption]. Qed.

(* ---- lists of words and bytes ---- *)
Lemma word_ok_be l w : bytes_ok l -> w = 8 * zlen l -> word_ok w (be l).
Proof. intros H ->. pose proof (be_bound l H) as B. unfold word_ok. rewrite Z.pow_mul_r by (try apply zlen_nonneg; lia). exact B. Qed.
Lemma word_ok_le l w : bytes_ok l -> w = 8 * zlen l -> word_ok w (le l).
Proof. intros H ->. pose proof (le_bound l H) as B. unfold word_ok. rewrite Z.pow_mul_r by (try apply zlen_nonneg; lia). exact B. Qed.

(* equality of boolean combinations of words, bit by bit *)
Ltac bitwise :=
  apply Z.bits_inj'; let n := fresh "n" in let Hn := fresh "Hn" in intros n Hn;
  repeat (rewrite Z.lxor_spec || rewrite Z.land_spec || rewrite Z.lor_spec || (rewrite c_not_testbit by (assumption || lia)));
  repeat match goal with |- context [Z.testbit ?x n] => destruct (Z.testbit x n) eqn:? end;
  try destruct (_ <? _); try reflexivity.
