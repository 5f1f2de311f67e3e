(* The 64-bit variant of Poly1305 computes modulo 2^130 - 5. *)
From Verif Require Import Prelude PreludeFacts BytesNum Word SpecPoly PolyModel.
Ltac Zify.zify_post_hook ::= Z.div_mod_to_equations.

Lemma land_mask x n : 0 <= n -> Z.land x (2 ^ n - 1) = x mod 2 ^ n.
Proof. intros. rewrite <- Z.land_ones by lia. rewrite Z.ones_equiv. reflexivity. Qed.
Lemma land44 x : Z.land x 0xfffffffffff = x mod 2 ^ 44.
Proof. exact (land_mask x 44 ltac:(lia)). Qed.
Lemma land42 x : Z.land x 0x3ffffffffff = x mod 2 ^ 42.
Proof. exact (land_mask x 42 ltac:(lia)). Qed.
Lemma land26 x : Z.land x 0x3ffffff = x mod 2 ^ 26.
Proof. exact (land_mask x 26 ltac:(lia)). Qed.
Lemma shr_div x n : 0 <= n -> c_shr x n = x / 2 ^ n.
Proof. intros. apply Z.shiftr_div_pow2. assumption. Qed.
Lemma lor_add_low a b n : 0 <= n -> 0 <= a < 2 ^ n -> Z.lor a (b * 2 ^ n) = a + b * 2 ^ n.
Proof. apply lor_shift_add. Qed.
(* a sum of masks *)
Lemma land_split x a b k : 0 <= k -> 0 <= a < 2 ^ k -> Z.land x (a + 2 ^ k * b) = Z.land (x mod 2 ^ k) a + 2 ^ k * Z.land (x / 2 ^ k) b.
Proof.
  intros Hk Ha. rewrite <- (Z.mul_comm b), <- (Z.mul_comm (Z.land (x / 2 ^ k) b)). rewrite <- lor_shift_add by lia.
  rewrite <- lor_shift_add.
  2: lia.
  2:{ pose proof (word_ok_land k (x mod 2 ^ k) a Hk) as W. apply W; [apply word_ok_mod; lia|exact Ha]. }
  apply Z.bits_inj'. intros n Hn. rewrite Z.land_spec, !Z.lor_spec, Z.land_spec.
  destruct (Z.lt_ge_cases n k).
  - rewrite !Z.mul_pow2_bits_low by lia. rewrite Z.mod_pow2_bits_low by lia. rewrite !orb_false_r. reflexivity.
  - rewrite !Z.mul_pow2_bits by lia. rewrite Z.land_spec. rewrite (testbit_high k a n) by assumption.
    rewrite Z.mod_pow2_bits_high by lia. cbn [orb andb]. rewrite Z.div_pow2_bits by lia. replace (n - k + k) with n by lia. reflexivity.
Qed.
Lemma mid44 t0 t1 : word_ok 64 t0 -> word_ok 64 t1 ->
  Z.land (Z.lor (c_shr t0 44) (c_shl 64 t1 20)) 0xfffffffffff = t0 / 2 ^ 44 + (t1 mod 2 ^ 24) * 2 ^ 20.
Proof.
  intros H0 H1. rewrite land44, shr_div by lia. unfold c_shl. rewrite Z.shiftl_mul_pow2 by lia. unfold word_ok in *.
  replace ((t1 * 2 ^ 20) mod 2 ^ 64) with ((t1 mod 2 ^ 44) * 2 ^ 20) by lia.
  rewrite lor_shift_add by lia. lia.
Qed.
Lemma u8to_div n m i : 0 <= n -> 0 <= i -> i + n <= zlen m -> bytes_ok m -> u8to n m i = (le m / 256 ^ i) mod 256 ^ n.
Proof.
  intros Hn Hi Hl B. unfold u8to. pose proof (zlen_nonneg m) as Hz. assert (E : m = sub m 0 i ++ (sub m i n ++ sub m (i + n) (zlen m - (i + n)))).
  { rewrite <- sub_app_split by lia. rewrite <- (sub_app_split m 0) by lia. symmetry. apply sub_0_all. lia. }
  assert (L1 : zlen (sub m 0 i) = i) by (apply zlen_sub; lia). assert (L2 : zlen (sub m i n) = n) by (apply zlen_sub; lia).
  rewrite E at 2. rewrite !le_app, L1, L2.
  pose proof (le_bound _ (bytes_ok_sub m 0 i B)) as B1. rewrite L1 in B1. pose proof (le_bound _ (bytes_ok_sub m i n B)) as B2. rewrite L2 in B2.
  rewrite (Z.mul_comm (256 ^ i)), Z.div_add by lia. rewrite (Z.div_small (le (sub m 0 i))) by exact B1.
  rewrite Z.add_0_l, (Z.mul_comm (256 ^ n)), Z.mod_add by lia. symmetry. apply Z.mod_small. exact B2.
Qed.
Lemma le16_bound m : zlen m = 16 -> bytes_ok m -> 0 <= le m < 2 ^ 128.
Proof. intros H B. pose proof (le_bound m B) as X. rewrite H in X. exact X. Qed.

Lemma halves64 m : zlen m = 16 -> bytes_ok m -> u8to 8 m 0 = le m mod 2 ^ 64 /\ u8to 8 m 8 = le m / 2 ^ 64.
Proof.
  intros Hl B. pose proof (le16_bound m Hl B). split.
  - rewrite u8to_div by (try assumption; lia). change (256 ^ 0) with 1. rewrite Z.div_1_r. reflexivity.
  - rewrite u8to_div by (try assumption; lia). change (256 ^ 8) with (2 ^ 64). apply Z.mod_small. lia.
Qed.

Lemma p1305_nz : p1305 <> 0.
Proof. unfold p1305. lia. Qed.

Lemma mulb a b A B : 0 <= a <= A -> 0 <= b <= B -> 0 <= a * b <= A * B.
Proof. intros. split; [apply Z.mul_nonneg_nonneg; lia|apply Z.mul_le_mono_nonneg; lia]. Qed.
Lemma to_le_app n m a b : 0 <= a < 256 ^ Z.of_nat n -> to_le (n + m) (a + 256 ^ Z.of_nat n * b) = to_le n a ++ to_le m b.
Proof.
  revert a. induction n as [|n IH]; intros a H.
  - cbn [Nat.add to_le app]. change (256 ^ Z.of_nat 0) with 1 in *. f_equal. lia.
  - cbn [Nat.add to_le app]. rewrite pow256_S in *. pose proof (pow256_pos n) as P. f_equal.
    + replace (a + 256 * 256 ^ Z.of_nat n * b) with (a + (256 ^ Z.of_nat n * b) * 256) by ring. apply Z.mod_add. lia.
    + replace (a + 256 * 256 ^ Z.of_nat n * b) with (a + (256 ^ Z.of_nat n * b) * 256) by ring. rewrite Z.div_add by lia. apply IH. split; [apply Z.div_pos; lia|apply Z.div_lt_upper_bound; lia].
Qed.
Lemma land_all x : word_ok 64 x -> Z.land x (2 ^ 64 - 1) = x.
Proof. intros H. rewrite land_mask by lia. apply Z.mod_small. exact H. Qed.

Section W64.
Variable w : Z -> Z -> Z.
Hypothesis Hw : forall n x, 0 <= x < 2 ^ n -> w n x = x.

Definition val3 (a b c : Z) : Z := a + b * 2 ^ 44 + c * 2 ^ 88.
(* limbs of the accumulator and the multiplier between two blocks *)
Definition ok64 (r s acc : Z) (x : p64) : Prop :=
  0 <= x_r0 x < 2 ^ 44 /\ 0 <= x_r1 x < 2 ^ 44 /\ 0 <= x_r2 x < 2 ^ 40 /\
  0 <= x_h0 x < 2 ^ 44 /\ 0 <= x_h1 x < 2 ^ 44 + 2 ^ 10 /\ 0 <= x_h2 x < 2 ^ 42 /\
  val3 (x_r0 x) (x_r1 x) (x_r2 x) = r /\ val3 (x_h0 x) (x_h1 x) (x_h2 x) mod p1305 = acc /\
  word_ok 64 (x_pad0 x) /\ word_ok 64 (x_pad1 x) /\ x_pad0 x + 2 ^ 64 * x_pad1 x = s.


(* the arithmetic of one block *)
Lemma limbs64 r0 r1 r2 h0 h1 h2 : 0 <= r0 < 2 ^ 44 -> 0 <= r1 < 2 ^ 44 -> 0 <= r2 < 2 ^ 40 ->
  0 <= h0 < 2 ^ 45 -> 0 <= h1 < 2 ^ 46 -> 0 <= h2 < 2 ^ 43 ->
  let s1 := w 64 (r1 * 20) in
  let s2 := w 64 (r2 * 20) in
  let d0 := w 128 (w 128 (w 128 (h0 * r0) + w 128 (h1 * s2)) + w 128 (h2 * s1)) in
  let d1 := w 128 (w 128 (w 128 (h0 * r1) + w 128 (h1 * r0)) + w 128 (h2 * s2)) in
  let d2 := w 128 (w 128 (w 128 (h0 * r2) + w 128 (h1 * r1)) + w 128 (h2 * r0)) in
  0 <= d0 < 2 ^ 93 /\ 0 <= d1 < 2 ^ 93 /\ 0 <= d2 < 2 ^ 92 /\ exists k, val3 d0 d1 d2 = val3 h0 h1 h2 * val3 r0 r1 r2 + k * p1305.
Proof.
  intros R0 R1 R2 H0 H1 H2. cbv zeta. rewrite (Hw 64 (r1 * 20)), (Hw 64 (r2 * 20)) by lia.
  pose proof (mulb h0 r0 (2 ^ 45) (2 ^ 44) ltac:(lia) ltac:(lia)) as A1.
  pose proof (mulb h1 (r2 * 20) (2 ^ 46) (20 * 2 ^ 40) ltac:(lia) ltac:(lia)) as A2.
  pose proof (mulb h2 (r1 * 20) (2 ^ 43) (20 * 2 ^ 44) ltac:(lia) ltac:(lia)) as A3.
  pose proof (mulb h0 r1 (2 ^ 45) (2 ^ 44) ltac:(lia) ltac:(lia)) as A4.
  pose proof (mulb h1 r0 (2 ^ 46) (2 ^ 44) ltac:(lia) ltac:(lia)) as A5.
  pose proof (mulb h2 (r2 * 20) (2 ^ 43) (20 * 2 ^ 40) ltac:(lia) ltac:(lia)) as A6.
  pose proof (mulb h0 r2 (2 ^ 45) (2 ^ 40) ltac:(lia) ltac:(lia)) as A7.
  pose proof (mulb h1 r1 (2 ^ 46) (2 ^ 44) ltac:(lia) ltac:(lia)) as A8.
  pose proof (mulb h2 r0 (2 ^ 43) (2 ^ 44) ltac:(lia) ltac:(lia)) as A9.
  set (p1 := h0 * r0) in *. set (p2 := h1 * (r2 * 20)) in *. set (p3 := h2 * (r1 * 20)) in *.
  set (p4 := h0 * r1) in *. set (p5 := h1 * r0) in *. set (p6 := h2 * (r2 * 20)) in *.
  set (p7 := h0 * r2) in *. set (p8 := h1 * r1) in *. set (p9 := h2 * r0) in *.
  rewrite (Hw 128 p1), (Hw 128 p2), (Hw 128 p3), (Hw 128 p4), (Hw 128 p5), (Hw 128 p6), (Hw 128 p7), (Hw 128 p8), (Hw 128 p9) by lia.
  rewrite (Hw 128 (p1 + p2)), (Hw 128 (p4 + p5)), (Hw 128 (p7 + p8)) by lia.
  rewrite !Hw by lia. split; [lia|]. split; [lia|]. split; [lia|].
  exists (- 4 * (h1 * r2 + h2 * r1 + h2 * r2 * 2 ^ 44)). unfold val3, p1305, p1, p2, p3, p4, p5, p6, p7, p8, p9. ring.
Qed.

Lemma carry64 d0 d1 d2 : 0 <= d0 < 2 ^ 93 -> 0 <= d1 < 2 ^ 93 -> 0 <= d2 < 2 ^ 92 ->
  let c := w 64 (c_shr d0 44) in let h0 := Z.land (d0 mod 2 ^ 64) 0xfffffffffff in
  let D1 := w 128 (d1 + c) in
  let c := w 64 (c_shr D1 44) in let h1 := Z.land (D1 mod 2 ^ 64) 0xfffffffffff in
  let D2 := w 128 (d2 + c) in
  let c := w 64 (c_shr D2 42) in let h2 := Z.land (D2 mod 2 ^ 64) 0x3ffffffffff in
  let h0 := w 64 (h0 + w 64 (c * 5)) in
  let c := c_shr h0 44 in let h0 := Z.land h0 0xfffffffffff in
  let h1 := w 64 (h1 + c) in
  0 <= h0 < 2 ^ 44 /\ 0 <= h1 < 2 ^ 44 + 2 ^ 10 /\ 0 <= h2 < 2 ^ 42 /\ exists k, val3 h0 h1 h2 + k * p1305 = val3 d0 d1 d2.
Proof.
  intros D0 D1 D2. cbv zeta. rewrite !land44, !land42, !shr_div by lia.
  replace ((d0 mod 2 ^ 64) mod 2 ^ 44) with (d0 mod 2 ^ 44) by lia.
  rewrite (Hw 64 (d0 / 2 ^ 44)) by lia.
  assert (X0 : d0 = 2 ^ 44 * (d0 / 2 ^ 44) + d0 mod 2 ^ 44 /\ 0 <= d0 mod 2 ^ 44 < 2 ^ 44 /\ 0 <= d0 / 2 ^ 44 < 2 ^ 49) by lia.
  revert X0. generalize (d0 / 2 ^ 44), (d0 mod 2 ^ 44). intros c0 e0 X0. clear D0.
  rewrite (Hw 128 (d1 + c0)) by lia. assert (E1 : 0 <= d1 + c0 < 2 ^ 94) by lia. remember (d1 + c0) as d1' eqn:Q1.
  replace ((d1' mod 2 ^ 64) mod 2 ^ 44) with (d1' mod 2 ^ 44) by (clear - E1; lia).
  rewrite (Hw 64 (d1' / 2 ^ 44)) by (clear - E1; lia).
  assert (X1 : d1' = 2 ^ 44 * (d1' / 2 ^ 44) + d1' mod 2 ^ 44 /\ 0 <= d1' mod 2 ^ 44 < 2 ^ 44 /\ 0 <= d1' / 2 ^ 44 < 2 ^ 50) by (clear - E1; lia).
  revert X1. generalize (d1' / 2 ^ 44), (d1' mod 2 ^ 44). intros c1 e1 X1.
  rewrite (Hw 128 (d2 + c1)) by lia. assert (E2 : 0 <= d2 + c1 < 2 ^ 93) by lia. remember (d2 + c1) as d2' eqn:Q2.
  replace ((d2' mod 2 ^ 64) mod 2 ^ 42) with (d2' mod 2 ^ 42) by (clear - E2; lia).
  rewrite (Hw 64 (d2' / 2 ^ 42)) by (clear - E2; lia).
  assert (X2 : d2' = 2 ^ 42 * (d2' / 2 ^ 42) + d2' mod 2 ^ 42 /\ 0 <= d2' mod 2 ^ 42 < 2 ^ 42 /\ 0 <= d2' / 2 ^ 42 < 2 ^ 51) by (clear - E2; lia).
  revert X2. generalize (d2' / 2 ^ 42), (d2' mod 2 ^ 42). intros c2 e2 X2.
  rewrite (Hw 64 (c2 * 5)) by lia. rewrite (Hw 64 (e0 + c2 * 5)) by lia. assert (E3 : 0 <= e0 + c2 * 5 < 2 ^ 54) by lia. remember (e0 + c2 * 5) as h0' eqn:Q3.
  assert (X3 : h0' = 2 ^ 44 * (h0' / 2 ^ 44) + h0' mod 2 ^ 44 /\ 0 <= h0' mod 2 ^ 44 < 2 ^ 44 /\ 0 <= h0' / 2 ^ 44 < 2 ^ 10) by (clear - E3; lia).
  revert X3. generalize (h0' / 2 ^ 44), (h0' mod 2 ^ 44). intros c3 e3 X3.
  rewrite (Hw 64 (e1 + c3)) by lia.
  split; [lia|]. split; [lia|]. split; [lia|]. exists c2. unfold val3, p1305. lia.
Qed.

Lemma block64 r s acc x m (final : bool) : ok64 r s acc x -> zlen m = 16 -> bytes_ok m ->
  ok64 r s (((acc + le m + (if final then 0 else 2 ^ 128)) * r) mod p1305) (p64_block w x final m).
Proof.
  intros (R0 & R1 & R2 & H0 & H1 & H2 & VR & VH & W0 & W1 & VS) Hl B.
  pose proof (le16_bound m Hl B) as BM. unfold p64_block. cbv zeta.
  destruct (halves64 m Hl B) as (T0 & T1).
  rewrite T0, T1. set (M := le m) in *.
  rewrite mid44 by (unfold word_ok; clear - BM; lia). rewrite (land44 (M mod 2 ^ 64)), (land42 (c_shr (M / 2 ^ 64) 24)), (shr_div (M / 2 ^ 64)) by (clear; lia).
  set (hb := if final then 0 else 2 ^ 40). assert (Hh : hb = 0 \/ hb = 2 ^ 40) by (destruct final; auto).
  assert (EH : (if final then 0 else 2 ^ 128) = hb * 2 ^ 88) by (destruct final; reflexivity). rewrite EH. clearbody hb. clear EH.
  set (q0 := (M mod 2 ^ 64) mod 2 ^ 44). set (q1 := M mod 2 ^ 64 / 2 ^ 44 + (M / 2 ^ 64) mod 2 ^ 24 * 2 ^ 20).
  assert (EL : Z.lor ((M / 2 ^ 64 / 2 ^ 24) mod 2 ^ 42) hb = M / 2 ^ 88 + hb).
  { replace ((M / 2 ^ 64 / 2 ^ 24) mod 2 ^ 42) with (M / 2 ^ 88) by lia. destruct Hh as [->| ->]; [rewrite Z.lor_0_r; lia|].
    replace (2 ^ 40) with (1 * 2 ^ 40) at 1 by lia. rewrite lor_shift_add; lia. }
  rewrite EL. set (q2 := M / 2 ^ 88).
  assert (EQ : M = val3 q0 q1 q2 /\ 0 <= q0 < 2 ^ 44 /\ 0 <= q1 < 2 ^ 44 /\ 0 <= q2 < 2 ^ 40) by (unfold val3, q0, q1, q2; clear - BM; lia).
  clearbody q0 q1 q2. destruct EQ as (EQ & Q0 & Q1 & Q2). clear EL T0 T1.
  rewrite (Hw 64 (x_h0 x + q0)), (Hw 64 (x_h1 x + q1)), (Hw 64 (x_h2 x + (q2 + hb))) by lia.
  pose proof (limbs64 (x_r0 x) (x_r1 x) (x_r2 x) (x_h0 x + q0) (x_h1 x + q1) (x_h2 x + (q2 + hb)) R0 R1 R2 ltac:(lia) ltac:(lia) ltac:(lia)) as L.
  cbv zeta in L |- *. destruct L as (L0 & L1 & L2 & k & LV).
  match type of L0 with 0 <= ?d < _ => set (d0 := d) in * end.
  match type of L1 with 0 <= ?d < _ => set (d1 := d) in * end.
  match type of L2 with 0 <= ?d < _ => set (d2 := d) in * end.
  pose proof (carry64 d0 d1 d2 L0 L1 L2) as C. cbv zeta in C. destruct C as (C0 & C1 & C2 & k' & CV).
  unfold ok64. cbn [x_r0 x_r1 x_r2 x_h0 x_h1 x_h2 x_pad0 x_pad1].
  split; [exact R0|]. split; [exact R1|]. split; [exact R2|]. split; [exact C0|]. split; [exact C1|]. split; [exact C2|].
  split; [exact VR|]. split; [|auto].
  match goal with |- val3 ?a ?b ?c mod _ = _ => set (v := val3 a b c) in * end. clearbody v.
  rewrite <- VH. replace v with (val3 d0 d1 d2 + (- k') * p1305) by lia. rewrite Z.mod_add by (unfold p1305; lia).
  rewrite LV. rewrite Z.mod_add by (unfold p1305; lia). rewrite <- VR. rewrite <- (Z.mul_mod_idemp_l (_ mod _ + _ + _)) by (unfold p1305; lia).
  rewrite <- !Z.add_assoc, Z.add_mod_idemp_l by (unfold p1305; lia). rewrite Z.mul_mod_idemp_l by (unfold p1305; lia).
  f_equal. f_equal. rewrite EQ. unfold val3. ring.
Qed.

(* ---- poly1305_finish ---- *)
Lemma full64 h0 h1 h2 : 0 <= h0 < 2 ^ 44 -> 0 <= h1 < 2 ^ 44 + 2 ^ 10 -> 0 <= h2 < 2 ^ 42 ->
  let V := val3 h0 h1 h2 in
  let c := c_shr h1 44 in let h1 := Z.land h1 0xfffffffffff in
  let h2 := w 64 (h2 + c) in let c := c_shr h2 42 in let h2 := Z.land h2 0x3ffffffffff in
  let h0 := w 64 (h0 + w 64 (c * 5)) in let c := c_shr h0 44 in let h0 := Z.land h0 0xfffffffffff in
  let h1 := w 64 (h1 + c) in let c := c_shr h1 44 in let h1 := Z.land h1 0xfffffffffff in
  let h2 := w 64 (h2 + c) in let c := c_shr h2 42 in let h2 := Z.land h2 0x3ffffffffff in
  let h0 := w 64 (h0 + w 64 (c * 5)) in let c := c_shr h0 44 in let h0 := Z.land h0 0xfffffffffff in
  let h1 := w 64 (h1 + c) in
  0 <= h0 < 2 ^ 44 /\ 0 <= h1 <= 2 ^ 44 /\ 0 <= h2 < 2 ^ 42 /\ exists k, val3 h0 h1 h2 + k * p1305 = V.
Proof.
  intros H0 H1 H2. cbv zeta. rewrite !land44, !land42, !shr_div by lia.
  assert (X1 : h1 = 2 ^ 44 * (h1 / 2 ^ 44) + h1 mod 2 ^ 44 /\ 0 <= h1 mod 2 ^ 44 < 2 ^ 44 /\ 0 <= h1 / 2 ^ 44 <= 1) by (clear - H1; lia).
  revert X1. generalize (h1 / 2 ^ 44), (h1 mod 2 ^ 44). intros c1 e1 X1.
  rewrite (Hw 64 (h2 + c1)) by lia. assert (B2 : 0 <= h2 + c1 <= 2 ^ 42) by lia. remember (h2 + c1) as i2 eqn:Q2.
  assert (X2 : i2 = 2 ^ 42 * (i2 / 2 ^ 42) + i2 mod 2 ^ 42 /\ 0 <= i2 mod 2 ^ 42 < 2 ^ 42 /\ 0 <= i2 / 2 ^ 42 <= 1) by (clear - B2; lia).
  revert X2. generalize (i2 / 2 ^ 42), (i2 mod 2 ^ 42). intros c2 e2 X2.
  rewrite (Hw 64 (c2 * 5)) by lia. rewrite (Hw 64 (h0 + c2 * 5)) by lia. assert (B3 : 0 <= h0 + c2 * 5 < 2 ^ 44 + 6) by lia. remember (h0 + c2 * 5) as i0 eqn:Q3.
  assert (X3 : i0 = 2 ^ 44 * (i0 / 2 ^ 44) + i0 mod 2 ^ 44 /\ 0 <= i0 mod 2 ^ 44 < 2 ^ 44 /\ 0 <= i0 / 2 ^ 44 <= 1) by (clear - B3; lia).
  revert X3. generalize (i0 / 2 ^ 44), (i0 mod 2 ^ 44). intros c3 e3 X3.
  rewrite (Hw 64 (e1 + c3)) by lia. assert (B4 : 0 <= e1 + c3 <= 2 ^ 44) by lia. remember (e1 + c3) as i1 eqn:Q4.
  assert (X4 : i1 = 2 ^ 44 * (i1 / 2 ^ 44) + i1 mod 2 ^ 44 /\ 0 <= i1 mod 2 ^ 44 < 2 ^ 44 /\ 0 <= i1 / 2 ^ 44 <= 1) by (clear - B4; lia).
  revert X4. generalize (i1 / 2 ^ 44), (i1 mod 2 ^ 44). intros c4 e4 X4.
  rewrite (Hw 64 (e2 + c4)) by lia. assert (B5 : 0 <= e2 + c4 <= 2 ^ 42) by lia. remember (e2 + c4) as j2 eqn:Q5.
  assert (X5 : j2 = 2 ^ 42 * (j2 / 2 ^ 42) + j2 mod 2 ^ 42 /\ 0 <= j2 mod 2 ^ 42 < 2 ^ 42 /\ 0 <= j2 / 2 ^ 42 <= 1) by (clear - B5; lia).
  revert X5. generalize (j2 / 2 ^ 42), (j2 mod 2 ^ 42). intros c5 e5 X5.
  rewrite (Hw 64 (c5 * 5)) by lia. rewrite (Hw 64 (e3 + c5 * 5)) by lia. assert (B6 : 0 <= e3 + c5 * 5 < 2 ^ 44 + 6) by lia. remember (e3 + c5 * 5) as j0 eqn:Q6.
  assert (X6 : j0 = 2 ^ 44 * (j0 / 2 ^ 44) + j0 mod 2 ^ 44 /\ 0 <= j0 mod 2 ^ 44 < 2 ^ 44 /\ 0 <= j0 / 2 ^ 44 <= 1) by (clear - B6; lia).
  revert X6. generalize (j0 / 2 ^ 44), (j0 mod 2 ^ 44). intros c6 e6 X6.
  rewrite (Hw 64 (e4 + c6)) by lia. split; [lia|]. split; [lia|]. split; [lia|]. exists (c2 + c5). unfold val3, p1305. lia.
Qed.


(* h or h - p *)
Lemma select64 h0 h1 h2 : 0 <= h0 < 2 ^ 44 -> 0 <= h1 <= 2 ^ 44 -> 0 <= h2 < 2 ^ 42 ->
  let V := val3 h0 h1 h2 in
  let g0 := w 64 (h0 + 5) in let c := c_shr g0 44 in let g0 := Z.land g0 0xfffffffffff in
  let g1 := w 64 (h1 + c) in let c := c_shr g1 44 in let g1 := Z.land g1 0xfffffffffff in
  let g2 := (w 64 (h2 + c) - 2 ^ 42) mod 2 ^ 64 in
  let c := (c_shr g2 63 - 1) mod 2 ^ 64 in
  let g0 := Z.land g0 c in let g1 := Z.land g1 c in let g2 := Z.land g2 c in
  let c := c_not 64 c in
  let h0 := Z.lor (Z.land h0 c) g0 in
  let h1 := Z.lor (Z.land h1 c) g1 in
  let h2 := Z.lor (Z.land h2 c) g2 in
  0 <= h0 < 2 ^ 44 /\ 0 <= h1 <= 2 ^ 44 /\ 0 <= h2 < 2 ^ 42 /\ val3 h0 h1 h2 = V mod p1305.
Proof.
  intros H0 H1 H2. cbv zeta. rewrite !land44, !shr_div by lia.
  rewrite (Hw 64 (h0 + 5)) by lia. assert (B0 : 0 <= h0 + 5 < 2 ^ 45) by lia. remember (h0 + 5) as i0 eqn:Q0.
  assert (X0 : i0 = 2 ^ 44 * (i0 / 2 ^ 44) + i0 mod 2 ^ 44 /\ 0 <= i0 mod 2 ^ 44 < 2 ^ 44 /\ 0 <= i0 / 2 ^ 44 <= 1) by (clear - B0; lia).
  revert X0. generalize (i0 / 2 ^ 44), (i0 mod 2 ^ 44). intros c0 g0 X0.
  rewrite (Hw 64 (h1 + c0)) by lia. assert (B1 : 0 <= h1 + c0 < 2 ^ 45) by lia. remember (h1 + c0) as i1 eqn:Q1.
  assert (X1 : i1 = 2 ^ 44 * (i1 / 2 ^ 44) + i1 mod 2 ^ 44 /\ 0 <= i1 mod 2 ^ 44 < 2 ^ 44 /\ 0 <= i1 / 2 ^ 44 <= 1) by (clear - B1; lia).
  revert X1. generalize (i1 / 2 ^ 44), (i1 mod 2 ^ 44). intros c1 g1 X1.
  rewrite (Hw 64 (h2 + c1)) by lia. destruct (Z.lt_ge_cases (h2 + c1) (2 ^ 42)) as [L|G].
  - replace (((h2 + c1 - 2 ^ 42) mod 2 ^ 64 / 2 ^ 63 - 1) mod 2 ^ 64) with 0 by (clear - L H2 X1; lia).
    rewrite !Z.land_0_r, !Z.lor_0_r. change (c_not 64 0) with (2 ^ 64 - 1). rewrite !land_all by (unfold word_ok; lia).
    split; [lia|]. split; [lia|]. split; [lia|]. symmetry. apply Z.mod_small. unfold val3, p1305. lia.
  - replace (((h2 + c1 - 2 ^ 42) mod 2 ^ 64 / 2 ^ 63 - 1) mod 2 ^ 64) with (2 ^ 64 - 1) by (clear - G H2 X1; lia).
    replace ((h2 + c1 - 2 ^ 42) mod 2 ^ 64) with (h2 + c1 - 2 ^ 42) by (clear - G H2 X1; lia).
    change (c_not 64 (2 ^ 64 - 1)) with 0. rewrite !Z.land_0_r, !Z.lor_0_l. rewrite !land_all by (unfold word_ok; lia).
    split; [lia|]. split; [lia|]. split; [lia|]. apply Z.mod_unique with 1; [left|]; unfold val3, p1305; lia.
Qed.


Lemma pad64 h0 h1 h2 t0 t1 : 0 <= h0 < 2 ^ 44 -> 0 <= h1 <= 2 ^ 44 -> 0 <= h2 < 2 ^ 42 -> word_ok 64 t0 -> word_ok 64 t1 ->
  let V := val3 h0 h1 h2 in
  let h0 := w 64 (h0 + Z.land t0 0xfffffffffff) in
  let c := c_shr h0 44 in let h0 := Z.land h0 0xfffffffffff in
  let h1 := w 64 (h1 + w 64 (Z.land (Z.lor (c_shr t0 44) (c_shl 64 t1 20)) 0xfffffffffff + c)) in
  let c := c_shr h1 44 in let h1 := Z.land h1 0xfffffffffff in
  let h2 := w 64 (h2 + w 64 (Z.land (c_shr t1 24) 0x3ffffffffff + c)) in
  let h2 := Z.land h2 0x3ffffffffff in
  let o0 := Z.lor h0 (c_shl 64 h1 44) in
  let o1 := Z.lor (c_shr h1 20) (c_shl 64 h2 24) in
  to_le 8 o0 ++ to_le 8 o1 = to_le 16 ((V + (t0 + 2 ^ 64 * t1)) mod 2 ^ 128).
Proof.
  intros H0 H1 H2 W0 W1. cbv zeta. rewrite mid44 by assumption. rewrite !land44, !land42, !shr_div by lia. unfold word_ok in *.
  set (q0 := t0 mod 2 ^ 44). set (q1 := t0 / 2 ^ 44 + t1 mod 2 ^ 24 * 2 ^ 20).
  replace ((t1 / 2 ^ 24) mod 2 ^ 42) with (t1 / 2 ^ 24) by lia. set (q2 := t1 / 2 ^ 24).
  assert (EQ : t0 + 2 ^ 64 * t1 = val3 q0 q1 q2 /\ 0 <= q0 < 2 ^ 44 /\ 0 <= q1 < 2 ^ 44 /\ 0 <= q2 < 2 ^ 40) by (unfold val3, q0, q1, q2; clear - W0 W1; lia).
  rewrite (proj1 EQ). destruct EQ as (_ & Q0 & Q1 & Q2). clearbody q0 q1 q2. clear W0 W1 t0 t1.
  rewrite (Hw 64 (h0 + q0)) by lia. assert (B0 : 0 <= h0 + q0 < 2 ^ 45) by lia. remember (h0 + q0) as i0 eqn:E0.
  assert (X0 : i0 = 2 ^ 44 * (i0 / 2 ^ 44) + i0 mod 2 ^ 44 /\ 0 <= i0 mod 2 ^ 44 < 2 ^ 44 /\ 0 <= i0 / 2 ^ 44 <= 1) by (clear - B0; lia).
  revert X0. generalize (i0 / 2 ^ 44), (i0 mod 2 ^ 44). intros c0 e0 X0.
  rewrite (Hw 64 (q1 + c0)) by lia. rewrite (Hw 64 (h1 + (q1 + c0))) by lia. assert (B1 : 0 <= h1 + (q1 + c0) < 2 ^ 46) by lia. remember (h1 + (q1 + c0)) as i1 eqn:E1.
  assert (X1 : i1 = 2 ^ 44 * (i1 / 2 ^ 44) + i1 mod 2 ^ 44 /\ 0 <= i1 mod 2 ^ 44 < 2 ^ 44 /\ 0 <= i1 / 2 ^ 44 <= 3) by (clear - B1; lia).
  revert X1. generalize (i1 / 2 ^ 44), (i1 mod 2 ^ 44). intros c1 e1 X1.
  rewrite (Hw 64 (q2 + c1)) by lia. rewrite (Hw 64 (h2 + (q2 + c1))) by lia. assert (B2 : 0 <= h2 + (q2 + c1) < 2 ^ 44) by lia. remember (h2 + (q2 + c1)) as i2 eqn:E2.
  assert (X2 : i2 = 2 ^ 42 * (i2 / 2 ^ 42) + i2 mod 2 ^ 42 /\ 0 <= i2 mod 2 ^ 42 < 2 ^ 42) by (clear - B2; lia).
  revert X2. generalize (i2 / 2 ^ 42), (i2 mod 2 ^ 42). intros c2 e2 X2.
  unfold c_shl. rewrite !Z.shiftl_mul_pow2 by lia.
  replace ((e1 * 2 ^ 44) mod 2 ^ 64) with ((e1 mod 2 ^ 20) * 2 ^ 44) by (clear - X1; lia).
  replace ((e2 * 2 ^ 24) mod 2 ^ 64) with ((e2 mod 2 ^ 40) * 2 ^ 24) by (clear - X2; lia).
  rewrite !lor_shift_add by (clear - X0 X1; lia).
  rewrite <- (to_le_app 8 8) by (change (256 ^ Z.of_nat 8) with (2 ^ 64); clear - X0; lia). f_equal. change (256 ^ Z.of_nat 8) with (2 ^ 64).
  assert (EV : val3 h0 h1 h2 + val3 q0 q1 q2 = e0 + 2 ^ 44 * e1 + 2 ^ 88 * e2 + 2 ^ 130 * c2) by (unfold val3; lia). rewrite EV.
  clear - X0 X1 X2. destruct X0 as (_ & X0 & _). destruct X1 as (_ & X1 & _). destruct X2 as (_ & X2).
  replace (e0 + 2 ^ 44 * e1 + 2 ^ 88 * e2 + 2 ^ 130 * c2) with (e0 + 2 ^ 44 * e1 + 2 ^ 88 * (e2 mod 2 ^ 40) + (e2 / 2 ^ 40 + 4 * c2) * 2 ^ 128) by lia.
  rewrite Z.mod_add by lia. rewrite (Z.mod_small (e0 + 2 ^ 44 * e1 + 2 ^ 88 * (e2 mod 2 ^ 40)) (2 ^ 128)) by lia. lia.
Qed.

Lemma tag64 r s acc x : ok64 r s acc x -> p64_tag w x = to_le 16 ((acc + s) mod 2 ^ 128).
Proof.
  intros (R0 & R1 & R2 & H0 & H1 & H2 & VR & VH & W0 & W1 & VS). unfold p64_tag.
  pose proof (full64 _ _ _ H0 H1 H2) as F. cbv zeta in F |- *. destruct F as (F0 & F1 & F2 & k & FV).
  match type of F0 with 0 <= ?d < _ => set (a0 := d) in * end.
  match type of F1 with 0 <= ?d <= _ => set (a1 := d) in * end.
  match type of F2 with 0 <= ?d < _ => set (a2 := d) in * end.
  pose proof (select64 _ _ _ F0 F1 F2) as G. cbv zeta in G. destruct G as (G0 & G1 & G2 & GV).
  match type of G0 with 0 <= ?d < _ => set (b0 := d) in * end.
  match type of G1 with 0 <= ?d <= _ => set (b1 := d) in * end.
  match type of G2 with 0 <= ?d < _ => set (b2 := d) in * end.
  rewrite (pad64 b0 b1 b2 (x_pad0 x) (x_pad1 x) G0 G1 G2 W0 W1). rewrite VS. f_equal. f_equal. f_equal. rewrite GV, <- VH, <- FV.
  rewrite Z.mod_add by exact p1305_nz. reflexivity.
Qed.
End W64.

Lemma key_half key : 32 <= zlen key -> bytes_ok key ->
  zlen (sub key 0 16) = 16 /\ bytes_ok (sub key 0 16) /\ zlen (sub key 16 16) = 16 /\ bytes_ok (sub key 16 16).
Proof. intros H B. rewrite !zlen_sub by lia. repeat split; apply bytes_ok_sub; exact B. Qed.
Lemma u8to_sub n key i o : 0 <= n -> 0 <= i -> 0 <= o -> i + n <= 16 -> u8to n key (o + i) = u8to n (sub key o 16) i.
Proof. intros. unfold u8to. rewrite sub_sub by lia. reflexivity. Qed.

Lemma init64 key : 32 <= zlen key -> bytes_ok key -> ok64 (poly_r key) (poly_s key) 0 (p64_init key).
Proof.
  intros Hl B. destruct (key_half key Hl B) as (L1 & B1 & L2 & B2). unfold p64_init, ok64, poly_r, poly_s. cbn [x_r0 x_r1 x_r2 x_h0 x_h1 x_h2 x_pad0 x_pad1].
  pose proof (u8to_sub 8 key 0 0) as U1. pose proof (u8to_sub 8 key 8 0) as U2. pose proof (u8to_sub 8 key 0 16) as U3. pose proof (u8to_sub 8 key 8 16) as U4. cbn [Z.add] in U1, U2. change (16 + 0) with 16 in U3. change (16 + 8) with 24 in U4.
  rewrite U1, U2, U3, U4 by lia. clear U1 U2 U3 U4.
  destruct (halves64 _ L1 B1) as (-> & ->). destruct (halves64 _ L2 B2) as (-> & ->).
  pose proof (le16_bound _ L1 B1) as K1. pose proof (le16_bound _ L2 B2) as K2. set (K := le (sub key 0 16)) in *. set (J := le (sub key 16 16)) in *.
  assert (E0 : Z.land (K mod 2 ^ 64) 0xffc0fffffff = Z.land (K mod 2 ^ 44) 0xffc0fffffff).
  { pose proof (land_split (K mod 2 ^ 64) 0xffc0fffffff 0 44 ltac:(lia) ltac:(lia)) as Q. rewrite Z.land_0_r, Z.mul_0_r, !Z.add_0_r in Q. rewrite Q. f_equal. clear - K1. lia. }
  assert (E1 : Z.land (Z.lor (c_shr (K mod 2 ^ 64) 44) (c_shl 64 (K / 2 ^ 64) 20)) 0xfffffc0ffff = Z.land ((K / 2 ^ 44) mod 2 ^ 44) 0xfffffc0ffff).
  { match goal with |- Z.land ?a _ = _ => set (y := a) end.
    pose proof (land_split y 0xfffffc0ffff 0 44 ltac:(lia) ltac:(lia)) as Q. rewrite Z.land_0_r, Z.mul_0_r, !Z.add_0_r in Q. rewrite Q. f_equal.
    rewrite <- land44. unfold y. rewrite mid44 by (unfold word_ok; clear - K1; lia). clear - K1. lia. }
  assert (E2 : c_shr (K / 2 ^ 64) 24 = K / 2 ^ 44 / 2 ^ 44) by (rewrite shr_div by lia; clear - K1; lia).
  rewrite E0, E1, E2.
  assert (Z0 : word_ok 44 (Z.land (K mod 2 ^ 44) 0xffc0fffffff)) by (apply word_ok_land; [lia|apply word_ok_mod; lia|unfold word_ok; lia]).
  assert (Z1 : word_ok 44 (Z.land ((K / 2 ^ 44) mod 2 ^ 44) 0xfffffc0ffff)) by (apply word_ok_land; [lia|apply word_ok_mod; lia|unfold word_ok; lia]).
  assert (Z2 : word_ok 40 (Z.land (K / 2 ^ 44 / 2 ^ 44) 0x00ffffffc0f)) by (apply word_ok_land; [lia|unfold word_ok; clear - K1; lia|unfold word_ok; lia]).
  split; [exact Z0|]. split; [exact Z1|]. split; [exact Z2|]. split; [lia|]. split; [lia|]. split; [lia|].
  split; [|split; [reflexivity|]; split; [unfold word_ok; clear - K2; lia|]; split; [unfold word_ok; clear - K2; lia|clear - K2; lia]].
  change 0x0ffffffc0ffffffc0ffffffc0fffffff with (0xffc0fffffff + 2 ^ 44 * (0xfffffc0ffff + 2 ^ 44 * 0x00ffffffc0f)).
  rewrite (land_split K) by lia. rewrite (land_split (K / 2 ^ 44)) by lia. unfold val3. ring.
Qed.
