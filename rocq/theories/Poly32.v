(* The 32-bit variant of Poly1305 computes modulo 2^130 - 5. *)
From Verif Require Import Prelude PreludeFacts BytesNum Word SpecPoly PolyModel Poly64.
Ltac Zify.zify_post_hook ::= Z.div_mod_to_equations.

Lemma parts32 m : zlen m = 16 -> bytes_ok m ->
  Z.land (u8to 4 m 0) 0x3ffffff = le m mod 2 ^ 26 /\
  Z.land (c_shr (u8to 4 m 3) 2) 0x3ffffff = (le m / 2 ^ 26) mod 2 ^ 26 /\
  Z.land (c_shr (u8to 4 m 6) 4) 0x3ffffff = (le m / 2 ^ 52) mod 2 ^ 26 /\
  Z.land (c_shr (u8to 4 m 9) 6) 0x3ffffff = (le m / 2 ^ 78) mod 2 ^ 26 /\
  c_shr (u8to 4 m 12) 8 = le m / 2 ^ 104.
Proof.
  intros Hl B. pose proof (le16_bound m Hl B) as K. rewrite !land26, !shr_div by lia. rewrite !u8to_div by (try assumption; lia).
  change (256 ^ 0) with 1. change (256 ^ 3) with (2 ^ 24). change (256 ^ 6) with (2 ^ 48). change (256 ^ 9) with (2 ^ 72). change (256 ^ 12) with (2 ^ 96). change (256 ^ 4) with (2 ^ 32).
  clear - K. set (x := le m) in *. clearbody x. repeat split; lia.
Qed.

Section W32.
Variable w : Z -> Z -> Z.
Hypothesis Hw : forall n x, 0 <= x < 2 ^ n -> w n x = x.

Definition val5 (a b c d e : Z) : Z := a + b * 2 ^ 26 + c * 2 ^ 52 + d * 2 ^ 78 + e * 2 ^ 104.
Definition ok32 (r s acc : Z) (x : p32) : Prop :=
  0 <= y_r0 x < 2 ^ 26 /\ 0 <= y_r1 x < 2 ^ 26 /\ 0 <= y_r2 x < 2 ^ 26 /\ 0 <= y_r3 x < 2 ^ 26 /\ 0 <= y_r4 x < 2 ^ 26 /\
  0 <= y_h0 x < 2 ^ 26 /\ 0 <= y_h1 x < 2 ^ 26 + 64 /\ 0 <= y_h2 x < 2 ^ 26 /\ 0 <= y_h3 x < 2 ^ 26 /\ 0 <= y_h4 x < 2 ^ 26 /\
  val5 (y_r0 x) (y_r1 x) (y_r2 x) (y_r3 x) (y_r4 x) = r /\ val5 (y_h0 x) (y_h1 x) (y_h2 x) (y_h3 x) (y_h4 x) mod p1305 = acc /\
  word_ok 32 (y_pad0 x) /\ word_ok 32 (y_pad1 x) /\ word_ok 32 (y_pad2 x) /\ word_ok 32 (y_pad3 x) /\
  y_pad0 x + 2 ^ 32 * y_pad1 x + 2 ^ 64 * y_pad2 x + 2 ^ 96 * y_pad3 x = s.

Lemma sum5_ok a b c d e B : 0 <= a -> 0 <= b -> 0 <= c -> 0 <= d -> 0 <= e -> a + b + c + d + e <= B -> B < 2 ^ 64 ->
  sum5 w a b c d e = a + b + c + d + e.
Proof. intros. unfold sum5. rewrite (Hw 64 a), (Hw 64 b), (Hw 64 c), (Hw 64 d), (Hw 64 e) by lia. rewrite (Hw 64 (a + b)) by lia. rewrite (Hw 64 (a + b + c)) by lia. rewrite (Hw 64 (a + b + c + d)) by lia. apply Hw. lia. Qed.

Lemma row5 a b c d e A B C D E : 0 <= a <= A -> 0 <= b <= B -> 0 <= c <= C -> 0 <= d <= D -> 0 <= e <= E -> A + B + C + D + E < 2 ^ 64 ->
  sum5 w a b c d e = a + b + c + d + e /\ 0 <= a + b + c + d + e <= A + B + C + D + E.
Proof. intros. split; [|lia]. apply (sum5_ok a b c d e (A + B + C + D + E)); lia. Qed.
Lemma below x B N : 0 <= x <= B -> (B <? N) = true -> 0 <= x < N.
Proof. intros H L. apply Z.ltb_lt in L. lia. Qed.

Lemma limbs32 r0 r1 r2 r3 r4 h0 h1 h2 h3 h4 :
  0 <= r0 < 2 ^ 26 -> 0 <= r1 < 2 ^ 26 -> 0 <= r2 < 2 ^ 26 -> 0 <= r3 < 2 ^ 26 -> 0 <= r4 < 2 ^ 26 ->
  0 <= h0 <= 2 ^ 27 -> 0 <= h1 <= 2 ^ 27 + 64 -> 0 <= h2 <= 2 ^ 27 -> 0 <= h3 <= 2 ^ 27 -> 0 <= h4 <= 2 ^ 27 ->
  let s1 := w 32 (r1 * 5) in let s2 := w 32 (r2 * 5) in
  let s3 := w 32 (r3 * 5) in let s4 := w 32 (r4 * 5) in
  let d0 := sum5 w (h0 * r0) (h1 * s4) (h2 * s3) (h3 * s2) (h4 * s1) in
  let d1 := sum5 w (h0 * r1) (h1 * r0) (h2 * s4) (h3 * s3) (h4 * s2) in
  let d2 := sum5 w (h0 * r2) (h1 * r1) (h2 * r0) (h3 * s4) (h4 * s3) in
  let d3 := sum5 w (h0 * r3) (h1 * r2) (h2 * r1) (h3 * r0) (h4 * s4) in
  let d4 := sum5 w (h0 * r4) (h1 * r3) (h2 * r2) (h3 * r1) (h4 * r0) in
  0 <= d0 < 22 * 2 ^ 53 /\ 0 <= d1 < 22 * 2 ^ 53 /\ 0 <= d2 < 22 * 2 ^ 53 /\ 0 <= d3 < 22 * 2 ^ 53 /\ 0 <= d4 < 5 * 2 ^ 53 + 2 ^ 33 /\
  exists k, val5 d0 d1 d2 d3 d4 = val5 h0 h1 h2 h3 h4 * val5 r0 r1 r2 r3 r4 + k * p1305.
Proof.
  intros R0 R1 R2 R3 R4 H0 H1 H2 H3 H4. cbv zeta. rewrite (Hw 32 (r1 * 5)), (Hw 32 (r2 * 5)), (Hw 32 (r3 * 5)), (Hw 32 (r4 * 5)) by lia.
  assert (P : forall h r, 0 <= h <= 2 ^ 27 -> 0 <= r < 2 ^ 26 -> 0 <= h * r <= 2 ^ 53).
  { intros h r A B. apply (mulb h r (2 ^ 27) (2 ^ 26)); lia. }
  assert (P1 : forall r, 0 <= r < 2 ^ 26 -> 0 <= h1 * r <= 2 ^ 53 + 2 ^ 32).
  { intros r B. pose proof (mulb h1 r (2 ^ 27 + 64) (2 ^ 26)). lia. }
  assert (P5 : forall h r, 0 <= h <= 2 ^ 27 -> 0 <= r < 2 ^ 26 -> 0 <= h * (r * 5) <= 5 * 2 ^ 53).
  { intros h r A B. pose proof (mulb h (r * 5) (2 ^ 27) (5 * 2 ^ 26)). lia. }
  assert (P15 : forall r, 0 <= r < 2 ^ 26 -> 0 <= h1 * (r * 5) <= 5 * (2 ^ 53 + 2 ^ 32)).
  { intros r B. pose proof (mulb h1 (r * 5) (2 ^ 27 + 64) (5 * 2 ^ 26)). lia. }
  destruct (row5 _ _ _ _ _ _ _ _ _ _ (P h0 r0 H0 R0) (P15 r4 R4) (P5 h2 r3 H2 R3) (P5 h3 r2 H3 R2) (P5 h4 r1 H4 R1) ltac:(lia)) as (E0 & I0).
  destruct (row5 _ _ _ _ _ _ _ _ _ _ (P h0 r1 H0 R1) (P1 r0 R0) (P5 h2 r4 H2 R4) (P5 h3 r3 H3 R3) (P5 h4 r2 H4 R2) ltac:(lia)) as (E1 & I1).
  destruct (row5 _ _ _ _ _ _ _ _ _ _ (P h0 r2 H0 R2) (P1 r1 R1) (P h2 r0 H2 R0) (P5 h3 r4 H3 R4) (P5 h4 r3 H4 R3) ltac:(lia)) as (E2 & I2).
  destruct (row5 _ _ _ _ _ _ _ _ _ _ (P h0 r3 H0 R3) (P1 r2 R2) (P h2 r1 H2 R1) (P h3 r0 H3 R0) (P5 h4 r4 H4 R4) ltac:(lia)) as (E3 & I3).
  destruct (row5 _ _ _ _ _ _ _ _ _ _ (P h0 r4 H0 R4) (P1 r3 R3) (P h2 r2 H2 R2) (P h3 r1 H3 R1) (P h4 r0 H4 R0) ltac:(lia)) as (E4 & I4).
  rewrite E0, E1, E2, E3, E4. clear E0 E1 E2 E3 E4.
  split; [eapply below; [exact I0|reflexivity]|]. split; [eapply below; [exact I1|reflexivity]|]. split; [eapply below; [exact I2|reflexivity]|]. split; [eapply below; [exact I3|reflexivity]|]. split; [eapply below; [exact I4|reflexivity]|].
  clear P P1 P5 P15 I0 I1 I2 I3 I4 H0 H1 H2 H3 H4 R0 R1 R2 R3 R4.
  exists (- (h1 * r4 + h2 * r3 + h3 * r2 + h4 * r1 + 2 ^ 26 * (h2 * r4 + h3 * r3 + h4 * r2) + 2 ^ 52 * (h3 * r4 + h4 * r3) + 2 ^ 78 * (h4 * r4))).
  unfold val5, p1305. ring.
Qed.

Ltac dm x n := let c := fresh "c" in let e := fresh "e" in
  assert (x = 2 ^ n * (x / 2 ^ n) + x mod 2 ^ n /\ 0 <= x mod 2 ^ n < 2 ^ n) by (clear; lia).

Lemma carry32 d0 d1 d2 d3 d4 : 0 <= d0 < 22 * 2 ^ 53 -> 0 <= d1 < 22 * 2 ^ 53 -> 0 <= d2 < 22 * 2 ^ 53 -> 0 <= d3 < 22 * 2 ^ 53 -> 0 <= d4 < 5 * 2 ^ 53 + 2 ^ 33 ->
  let c := w 32 (c_shr d0 26) in let h0 := Z.land (d0 mod 2 ^ 32) 0x3ffffff in
  let D1 := w 64 (d1 + c) in
  let c := w 32 (c_shr D1 26) in let h1 := Z.land (D1 mod 2 ^ 32) 0x3ffffff in
  let D2 := w 64 (d2 + c) in
  let c := w 32 (c_shr D2 26) in let h2 := Z.land (D2 mod 2 ^ 32) 0x3ffffff in
  let D3 := w 64 (d3 + c) in
  let c := w 32 (c_shr D3 26) in let h3 := Z.land (D3 mod 2 ^ 32) 0x3ffffff in
  let D4 := w 64 (d4 + c) in
  let c := w 32 (c_shr D4 26) in let h4 := Z.land (D4 mod 2 ^ 32) 0x3ffffff in
  let h0 := w 32 (h0 + w 32 (c * 5)) in
  let c := c_shr h0 26 in let h0 := Z.land h0 0x3ffffff in
  let h1 := w 32 (h1 + c) in
  0 <= h0 < 2 ^ 26 /\ 0 <= h1 < 2 ^ 26 + 64 /\ 0 <= h2 < 2 ^ 26 /\ 0 <= h3 < 2 ^ 26 /\ 0 <= h4 < 2 ^ 26 /\
  exists k, val5 h0 h1 h2 h3 h4 + k * p1305 = val5 d0 d1 d2 d3 d4.
Proof.
  intros D0 D1 D2 D3 D4. cbv zeta. rewrite !land26, !shr_div by lia.
  replace ((d0 mod 2 ^ 32) mod 2 ^ 26) with (d0 mod 2 ^ 26) by (clear; lia).
  rewrite (Hw 32 (d0 / 2 ^ 26)) by (clear - D0; lia).
  assert (X0 : d0 = 2 ^ 26 * (d0 / 2 ^ 26) + d0 mod 2 ^ 26 /\ 0 <= d0 mod 2 ^ 26 < 2 ^ 26 /\ 0 <= d0 / 2 ^ 26 < 2 ^ 32) by (clear - D0; lia).
  revert X0. generalize (d0 / 2 ^ 26), (d0 mod 2 ^ 26). intros c0 e0 X0.
  rewrite (Hw 64 (d1 + c0)) by lia. assert (E1 : 0 <= d1 + c0 < 23 * 2 ^ 53) by lia. remember (d1 + c0) as d1' eqn:Q1.
  replace ((d1' mod 2 ^ 32) mod 2 ^ 26) with (d1' mod 2 ^ 26) by (clear; lia).
  rewrite (Hw 32 (d1' / 2 ^ 26)) by (clear - E1; lia).
  assert (X1 : d1' = 2 ^ 26 * (d1' / 2 ^ 26) + d1' mod 2 ^ 26 /\ 0 <= d1' mod 2 ^ 26 < 2 ^ 26 /\ 0 <= d1' / 2 ^ 26 < 2 ^ 32) by (clear - E1; lia).
  revert X1. generalize (d1' / 2 ^ 26), (d1' mod 2 ^ 26). intros c1 e1 X1.
  rewrite (Hw 64 (d2 + c1)) by lia. assert (E2 : 0 <= d2 + c1 < 23 * 2 ^ 53) by lia. remember (d2 + c1) as d2' eqn:Q2.
  replace ((d2' mod 2 ^ 32) mod 2 ^ 26) with (d2' mod 2 ^ 26) by (clear; lia).
  rewrite (Hw 32 (d2' / 2 ^ 26)) by (clear - E2; lia).
  assert (X2 : d2' = 2 ^ 26 * (d2' / 2 ^ 26) + d2' mod 2 ^ 26 /\ 0 <= d2' mod 2 ^ 26 < 2 ^ 26 /\ 0 <= d2' / 2 ^ 26 < 2 ^ 32) by (clear - E2; lia).
  revert X2. generalize (d2' / 2 ^ 26), (d2' mod 2 ^ 26). intros c2 e2 X2.
  rewrite (Hw 64 (d3 + c2)) by lia. assert (E3 : 0 <= d3 + c2 < 23 * 2 ^ 53) by lia. remember (d3 + c2) as d3' eqn:Q3.
  replace ((d3' mod 2 ^ 32) mod 2 ^ 26) with (d3' mod 2 ^ 26) by (clear; lia).
  rewrite (Hw 32 (d3' / 2 ^ 26)) by (clear - E3; lia).
  assert (X3 : d3' = 2 ^ 26 * (d3' / 2 ^ 26) + d3' mod 2 ^ 26 /\ 0 <= d3' mod 2 ^ 26 < 2 ^ 26 /\ 0 <= d3' / 2 ^ 26 < 2 ^ 32) by (clear - E3; lia).
  revert X3. generalize (d3' / 2 ^ 26), (d3' mod 2 ^ 26). intros c3 e3 X3.
  rewrite (Hw 64 (d4 + c3)) by lia. assert (E4 : 0 <= d4 + c3 < 5 * 2 ^ 53 + 2 ^ 34) by lia. remember (d4 + c3) as d4' eqn:Q4.
  replace ((d4' mod 2 ^ 32) mod 2 ^ 26) with (d4' mod 2 ^ 26) by (clear; lia).
  rewrite (Hw 32 (d4' / 2 ^ 26)) by (clear - E4; lia).
  assert (X4 : d4' = 2 ^ 26 * (d4' / 2 ^ 26) + d4' mod 2 ^ 26 /\ 0 <= d4' mod 2 ^ 26 < 2 ^ 26 /\ 0 <= d4' / 2 ^ 26 < 5 * 2 ^ 27 + 2 ^ 9) by (clear - E4; lia).
  revert X4. generalize (d4' / 2 ^ 26), (d4' mod 2 ^ 26). intros c4 e4 X4.
  rewrite (Hw 32 (c4 * 5)) by lia. rewrite (Hw 32 (e0 + c4 * 5)) by lia. assert (E5 : 0 <= e0 + c4 * 5 < 2 ^ 32) by lia. remember (e0 + c4 * 5) as h0' eqn:Q5.
  assert (X5 : h0' = 2 ^ 26 * (h0' / 2 ^ 26) + h0' mod 2 ^ 26 /\ 0 <= h0' mod 2 ^ 26 < 2 ^ 26 /\ 0 <= h0' / 2 ^ 26 < 64) by (clear - E5; lia).
  revert X5. generalize (h0' / 2 ^ 26), (h0' mod 2 ^ 26). intros c5 e5 X5.
  rewrite (Hw 32 (e1 + c5)) by lia.
  split; [lia|]. split; [lia|]. split; [lia|]. split; [lia|]. split; [lia|]. exists c4. unfold val5, p1305. lia.
Qed.

Lemma block32 r s acc x m (final : bool) : ok32 r s acc x -> zlen m = 16 -> bytes_ok m ->
  ok32 r s (((acc + le m + (if final then 0 else 2 ^ 128)) * r) mod p1305) (p32_block w x final m).
Proof.
  intros (R0 & R1 & R2 & R3 & R4 & H0 & H1 & H2 & H3 & H4 & VR & VH & W) Hl B.
  pose proof (le16_bound m Hl B) as BM. unfold p32_block. cbv zeta.
  destruct (parts32 m Hl B) as (T0 & T1 & T2 & T3 & T4). rewrite T0, T1, T2, T3, T4. clear T0 T1 T2 T3 T4. set (M := le m) in *.
  set (hb := if final then 0 else 2 ^ 24). assert (Hh : hb = 0 \/ hb = 2 ^ 24) by (destruct final; auto).
  assert (EH : (if final then 0 else 2 ^ 128) = hb * 2 ^ 104) by (destruct final; reflexivity). rewrite EH. clearbody hb. clear EH.
  assert (EL : Z.lor (M / 2 ^ 104) hb = M / 2 ^ 104 + hb).
  { destruct Hh as [->| ->]; [rewrite Z.lor_0_r; clear; lia|]. change (2 ^ 24) with (1 * 2 ^ 24) at 1. rewrite lor_shift_add by (clear - BM; lia). reflexivity. }
  rewrite EL. clear EL.
  set (q0 := M mod 2 ^ 26). set (q1 := (M / 2 ^ 26) mod 2 ^ 26). set (q2 := (M / 2 ^ 52) mod 2 ^ 26). set (q3 := (M / 2 ^ 78) mod 2 ^ 26). set (q4 := M / 2 ^ 104).
  assert (EQ : M = val5 q0 q1 q2 q3 q4 /\ 0 <= q0 < 2 ^ 26 /\ 0 <= q1 < 2 ^ 26 /\ 0 <= q2 < 2 ^ 26 /\ 0 <= q3 < 2 ^ 26 /\ 0 <= q4 < 2 ^ 24) by (unfold val5, q0, q1, q2, q3, q4; clear - BM; lia).
  clearbody q0 q1 q2 q3 q4. destruct EQ as (EQ & Q0 & Q1 & Q2 & Q3 & Q4).
  rewrite (Hw 32 (y_h0 x + q0)), (Hw 32 (y_h1 x + q1)), (Hw 32 (y_h2 x + q2)), (Hw 32 (y_h3 x + q3)), (Hw 32 (y_h4 x + (q4 + hb))) by (clear - H0 H1 H2 H3 H4 Q0 Q1 Q2 Q3 Q4 Hh; lia).
  assert (L : 0 <= y_h0 x + q0 <= 2 ^ 27 /\ 0 <= y_h1 x + q1 <= 2 ^ 27 + 64 /\ 0 <= y_h2 x + q2 <= 2 ^ 27 /\ 0 <= y_h3 x + q3 <= 2 ^ 27 /\ 0 <= y_h4 x + (q4 + hb) <= 2 ^ 27) by (clear - H0 H1 H2 H3 H4 Q0 Q1 Q2 Q3 Q4 Hh; lia).
  destruct L as (M0 & M1 & M2 & M3 & M4).
  pose proof (limbs32 _ _ _ _ _ _ _ _ _ _ R0 R1 R2 R3 R4 M0 M1 M2 M3 M4) as L. cbv zeta in L. destruct L as (L0 & L1 & L2 & L3 & L4 & k & LV).
  match type of L0 with 0 <= ?d < _ => set (d0 := d) in * end.
  match type of L1 with 0 <= ?d < _ => set (d1 := d) in * end.
  match type of L2 with 0 <= ?d < _ => set (d2 := d) in * end.
  match type of L3 with 0 <= ?d < _ => set (d3 := d) in * end.
  match type of L4 with 0 <= ?d < _ => set (d4 := d) in * end.
  pose proof (carry32 d0 d1 d2 d3 d4 L0 L1 L2 L3 L4) as C. cbv zeta in C. destruct C as (C0 & C1 & C2 & C3 & C4 & k' & CV).
  unfold ok32. cbn [y_r0 y_r1 y_r2 y_r3 y_r4 y_h0 y_h1 y_h2 y_h3 y_h4 y_pad0 y_pad1 y_pad2 y_pad3].
  split; [exact R0|]. split; [exact R1|]. split; [exact R2|]. split; [exact R3|]. split; [exact R4|].
  split; [exact C0|]. split; [exact C1|]. split; [exact C2|]. split; [exact C3|]. split; [exact C4|].
  split; [exact VR|]. split; [|exact W].
  match goal with |- val5 ?a ?b ?c ?d ?e mod _ = _ => set (v := val5 a b c d e) in * end. clearbody v.
  rewrite <- VH. replace v with (val5 d0 d1 d2 d3 d4 + (- k') * p1305) by (rewrite <- CV; ring). rewrite Z.mod_add by exact p1305_nz.
  rewrite LV. rewrite Z.mod_add by exact p1305_nz. rewrite <- VR. rewrite <- (Z.mul_mod_idemp_l (_ mod _ + _ + _)) by exact p1305_nz.
  rewrite <- !Z.add_assoc, Z.add_mod_idemp_l by exact p1305_nz. rewrite Z.mul_mod_idemp_l by exact p1305_nz.
  f_equal. f_equal. rewrite EQ. unfold val5. ring.
Qed.

Lemma full32 h0 h1 h2 h3 h4 : 0 <= h0 < 2 ^ 26 -> 0 <= h1 < 2 ^ 26 + 64 -> 0 <= h2 < 2 ^ 26 -> 0 <= h3 < 2 ^ 26 -> 0 <= h4 < 2 ^ 26 ->
  let V := val5 h0 h1 h2 h3 h4 in
  let c := c_shr h1 26 in let h1 := Z.land h1 0x3ffffff in
  let h2 := w 32 (h2 + c) in let c := c_shr h2 26 in let h2 := Z.land h2 0x3ffffff in
  let h3 := w 32 (h3 + c) in let c := c_shr h3 26 in let h3 := Z.land h3 0x3ffffff in
  let h4 := w 32 (h4 + c) in let c := c_shr h4 26 in let h4 := Z.land h4 0x3ffffff in
  let h0 := w 32 (h0 + w 32 (c * 5)) in let c := c_shr h0 26 in let h0 := Z.land h0 0x3ffffff in
  let h1 := w 32 (h1 + c) in
  0 <= h0 < 2 ^ 26 /\ 0 <= h1 < 2 ^ 26 /\ 0 <= h2 < 2 ^ 26 /\ 0 <= h3 < 2 ^ 26 /\ 0 <= h4 < 2 ^ 26 /\
  exists k, val5 h0 h1 h2 h3 h4 + k * p1305 = V.
Proof.
  intros H0 H1 H2 H3 H4. cbv zeta. rewrite !land26, !shr_div by lia.
  assert (X1 : h1 = 2 ^ 26 * (h1 / 2 ^ 26) + h1 mod 2 ^ 26 /\ 0 <= h1 mod 2 ^ 26 < 2 ^ 26 /\ 0 <= h1 / 2 ^ 26 <= 1) by (clear - H1; lia).
  revert X1. generalize (h1 / 2 ^ 26), (h1 mod 2 ^ 26). intros c1 e1 X1.
  rewrite (Hw 32 (h2 + c1)) by lia. assert (B2 : 0 <= h2 + c1 <= 2 ^ 26) by lia. remember (h2 + c1) as i2 eqn:Q2.
  assert (X2 : i2 = 2 ^ 26 * (i2 / 2 ^ 26) + i2 mod 2 ^ 26 /\ 0 <= i2 mod 2 ^ 26 < 2 ^ 26 /\ 0 <= i2 / 2 ^ 26 <= 1) by (clear - B2; lia).
  revert X2. generalize (i2 / 2 ^ 26), (i2 mod 2 ^ 26). intros c2 e2 X2.
  rewrite (Hw 32 (h3 + c2)) by lia. assert (B3 : 0 <= h3 + c2 <= 2 ^ 26) by lia. remember (h3 + c2) as i3 eqn:Q3.
  assert (X3 : i3 = 2 ^ 26 * (i3 / 2 ^ 26) + i3 mod 2 ^ 26 /\ 0 <= i3 mod 2 ^ 26 < 2 ^ 26 /\ 0 <= i3 / 2 ^ 26 <= 1) by (clear - B3; lia).
  revert X3. generalize (i3 / 2 ^ 26), (i3 mod 2 ^ 26). intros c3 e3 X3.
  rewrite (Hw 32 (h4 + c3)) by lia. assert (B4 : 0 <= h4 + c3 <= 2 ^ 26) by lia. remember (h4 + c3) as i4 eqn:Q4.
  assert (X4 : i4 = 2 ^ 26 * (i4 / 2 ^ 26) + i4 mod 2 ^ 26 /\ 0 <= i4 mod 2 ^ 26 < 2 ^ 26 /\ 0 <= i4 / 2 ^ 26 <= 1) by (clear - B4; lia).
  revert X4. generalize (i4 / 2 ^ 26), (i4 mod 2 ^ 26). intros c4 e4 X4.
  rewrite (Hw 32 (c4 * 5)) by lia. rewrite (Hw 32 (h0 + c4 * 5)) by lia. assert (B5 : 0 <= h0 + c4 * 5 < 2 ^ 26 + 6) by lia. remember (h0 + c4 * 5) as i0 eqn:Q5.
  assert (X5 : i0 = 2 ^ 26 * (i0 / 2 ^ 26) + i0 mod 2 ^ 26 /\ 0 <= i0 mod 2 ^ 26 < 2 ^ 26 /\ 0 <= i0 / 2 ^ 26 <= 1) by (clear - B5; lia).
  revert X5. generalize (i0 / 2 ^ 26), (i0 mod 2 ^ 26). intros c5 e5 X5.
  (* if the last carry reaches h1, then the first one did too and h1 is small *)
  assert (S1 : e1 + c5 < 2 ^ 26).
  { assert (c5 = 0 \/ c4 = 1) as [->|C4] by lia; [lia|]. assert (c3 = 1) by lia. assert (c2 = 1) by lia. assert (c1 = 1) by lia. lia. }
  rewrite (Hw 32 (e1 + c5)) by lia. split; [lia|]. split; [lia|]. split; [lia|]. split; [lia|]. split; [lia|]. exists c4. unfold val5, p1305. lia.
Qed.

Lemma land_all32 x : word_ok 32 x -> Z.land x (2 ^ 32 - 1) = x.
Proof. intros H. rewrite land_mask by lia. apply Z.mod_small. exact H. Qed.

Lemma select32 h0 h1 h2 h3 h4 : 0 <= h0 < 2 ^ 26 -> 0 <= h1 < 2 ^ 26 -> 0 <= h2 < 2 ^ 26 -> 0 <= h3 < 2 ^ 26 -> 0 <= h4 < 2 ^ 26 ->
  let V := val5 h0 h1 h2 h3 h4 in
  let g0 := w 32 (h0 + 5) in let c := c_shr g0 26 in let g0 := Z.land g0 0x3ffffff in
  let g1 := w 32 (h1 + c) in let c := c_shr g1 26 in let g1 := Z.land g1 0x3ffffff in
  let g2 := w 32 (h2 + c) in let c := c_shr g2 26 in let g2 := Z.land g2 0x3ffffff in
  let g3 := w 32 (h3 + c) in let c := c_shr g3 26 in let g3 := Z.land g3 0x3ffffff in
  let g4 := (w 32 (h4 + c) - 2 ^ 26) mod 2 ^ 32 in
  let mask := (c_shr g4 31 - 1) mod 2 ^ 32 in
  let g0 := Z.land g0 mask in let g1 := Z.land g1 mask in let g2 := Z.land g2 mask in
  let g3 := Z.land g3 mask in let g4 := Z.land g4 mask in
  let mask := c_not 32 mask in
  let h0 := Z.lor (Z.land h0 mask) g0 in
  let h1 := Z.lor (Z.land h1 mask) g1 in
  let h2 := Z.lor (Z.land h2 mask) g2 in
  let h3 := Z.lor (Z.land h3 mask) g3 in
  let h4 := Z.lor (Z.land h4 mask) g4 in
  0 <= h0 < 2 ^ 26 /\ 0 <= h1 < 2 ^ 26 /\ 0 <= h2 < 2 ^ 26 /\ 0 <= h3 < 2 ^ 26 /\ 0 <= h4 < 2 ^ 26 /\
  val5 h0 h1 h2 h3 h4 = V mod p1305.
Proof.
  intros H0 H1 H2 H3 H4. cbv zeta. rewrite !land26, !shr_div by lia.
  rewrite (Hw 32 (h0 + 5)) by lia. assert (B0 : 0 <= h0 + 5 < 2 ^ 27) by lia. remember (h0 + 5) as i0 eqn:Q0.
  assert (X0 : i0 = 2 ^ 26 * (i0 / 2 ^ 26) + i0 mod 2 ^ 26 /\ 0 <= i0 mod 2 ^ 26 < 2 ^ 26 /\ 0 <= i0 / 2 ^ 26 <= 1) by (clear - B0; lia).
  revert X0. generalize (i0 / 2 ^ 26), (i0 mod 2 ^ 26). intros c0 g0 X0.
  rewrite (Hw 32 (h1 + c0)) by lia. assert (B1 : 0 <= h1 + c0 < 2 ^ 27) by lia. remember (h1 + c0) as i1 eqn:Q1.
  assert (X1 : i1 = 2 ^ 26 * (i1 / 2 ^ 26) + i1 mod 2 ^ 26 /\ 0 <= i1 mod 2 ^ 26 < 2 ^ 26 /\ 0 <= i1 / 2 ^ 26 <= 1) by (clear - B1; lia).
  revert X1. generalize (i1 / 2 ^ 26), (i1 mod 2 ^ 26). intros c1 g1 X1.
  rewrite (Hw 32 (h2 + c1)) by lia. assert (B2 : 0 <= h2 + c1 < 2 ^ 27) by lia. remember (h2 + c1) as i2 eqn:Q2.
  assert (X2 : i2 = 2 ^ 26 * (i2 / 2 ^ 26) + i2 mod 2 ^ 26 /\ 0 <= i2 mod 2 ^ 26 < 2 ^ 26 /\ 0 <= i2 / 2 ^ 26 <= 1) by (clear - B2; lia).
  revert X2. generalize (i2 / 2 ^ 26), (i2 mod 2 ^ 26). intros c2 g2 X2.
  rewrite (Hw 32 (h3 + c2)) by lia. assert (B3 : 0 <= h3 + c2 < 2 ^ 27) by lia. remember (h3 + c2) as i3 eqn:Q3.
  assert (X3 : i3 = 2 ^ 26 * (i3 / 2 ^ 26) + i3 mod 2 ^ 26 /\ 0 <= i3 mod 2 ^ 26 < 2 ^ 26 /\ 0 <= i3 / 2 ^ 26 <= 1) by (clear - B3; lia).
  revert X3. generalize (i3 / 2 ^ 26), (i3 mod 2 ^ 26). intros c3 g3 X3.
  rewrite (Hw 32 (h4 + c3)) by lia. destruct (Z.lt_ge_cases (h4 + c3) (2 ^ 26)) as [L|G].
  - replace (((h4 + c3 - 2 ^ 26) mod 2 ^ 32 / 2 ^ 31 - 1) mod 2 ^ 32) with 0 by (clear - L H4 X3; lia).
    rewrite !Z.land_0_r, !Z.lor_0_r. change (c_not 32 0) with (2 ^ 32 - 1). rewrite !land_all32 by (unfold word_ok; lia).
    split; [lia|]. split; [lia|]. split; [lia|]. split; [lia|]. split; [lia|]. symmetry. apply Z.mod_small. unfold val5, p1305. lia.
  - replace (((h4 + c3 - 2 ^ 26) mod 2 ^ 32 / 2 ^ 31 - 1) mod 2 ^ 32) with (2 ^ 32 - 1) by (clear - G H4 X3; lia).
    replace ((h4 + c3 - 2 ^ 26) mod 2 ^ 32) with (h4 + c3 - 2 ^ 26) by (clear - G H4 X3; lia).
    change (c_not 32 (2 ^ 32 - 1)) with 0. rewrite !Z.land_0_r, !Z.lor_0_l. rewrite !land_all32 by (unfold word_ok; lia).
    split; [lia|]. split; [lia|]. split; [lia|]. split; [lia|]. split; [lia|]. apply Z.mod_unique with 1; [left|]; unfold val5, p1305; lia.
Qed.

Lemma pad32 h0 h1 h2 h3 h4 t0 t1 t2 t3 : 0 <= h0 < 2 ^ 26 -> 0 <= h1 < 2 ^ 26 -> 0 <= h2 < 2 ^ 26 -> 0 <= h3 < 2 ^ 26 -> 0 <= h4 < 2 ^ 26 ->
  word_ok 32 t0 -> word_ok 32 t1 -> word_ok 32 t2 -> word_ok 32 t3 ->
  let o0 := Z.lor h0 (c_shl 32 h1 26) in
  let o1 := Z.lor (c_shr h1 6) (c_shl 32 h2 20) in
  let o2 := Z.lor (c_shr h2 12) (c_shl 32 h3 14) in
  let o3 := Z.lor (c_shr h3 18) (c_shl 32 h4 8) in
  let f := w 64 (o0 + t0) in let o0 := f mod 2 ^ 32 in
  let f := w 64 (w 64 (o1 + t1) + c_shr f 32) in let o1 := f mod 2 ^ 32 in
  let f := w 64 (w 64 (o2 + t2) + c_shr f 32) in let o2 := f mod 2 ^ 32 in
  let f := w 64 (w 64 (o3 + t3) + c_shr f 32) in let o3 := f mod 2 ^ 32 in
  to_le 4 o0 ++ to_le 4 o1 ++ to_le 4 o2 ++ to_le 4 o3 =
  to_le 16 ((val5 h0 h1 h2 h3 h4 + (t0 + 2 ^ 32 * t1 + 2 ^ 64 * t2 + 2 ^ 96 * t3)) mod 2 ^ 128).
Proof.
  unfold word_ok. intros H0 H1 H2 H3 H4 W0 W1 W2 W3. cbv zeta. rewrite !shr_div by lia. unfold c_shl. rewrite !Z.shiftl_mul_pow2 by lia.
  replace ((h1 * 2 ^ 26) mod 2 ^ 32) with ((h1 mod 2 ^ 6) * 2 ^ 26) by (clear - H1; lia).
  replace ((h2 * 2 ^ 20) mod 2 ^ 32) with ((h2 mod 2 ^ 12) * 2 ^ 20) by (clear - H2; lia).
  replace ((h3 * 2 ^ 14) mod 2 ^ 32) with ((h3 mod 2 ^ 18) * 2 ^ 14) by (clear - H3; lia).
  replace ((h4 * 2 ^ 8) mod 2 ^ 32) with ((h4 mod 2 ^ 24) * 2 ^ 8) by (clear - H4; lia).
  rewrite (lor_shift_add h0), (lor_shift_add (h1 / 2 ^ 6)), (lor_shift_add (h2 / 2 ^ 12)), (lor_shift_add (h3 / 2 ^ 18)) by (clear - H0 H1 H2 H3; lia).
  set (a0 := h0 + h1 mod 2 ^ 6 * 2 ^ 26). set (a1 := h1 / 2 ^ 6 + h2 mod 2 ^ 12 * 2 ^ 20). set (a2 := h2 / 2 ^ 12 + h3 mod 2 ^ 18 * 2 ^ 14). set (a3 := h3 / 2 ^ 18 + h4 mod 2 ^ 24 * 2 ^ 8).
  assert (A0 : 0 <= a0 < 2 ^ 32) by (unfold a0; clear - H0 H1; lia). assert (A1 : 0 <= a1 < 2 ^ 32) by (unfold a1; clear - H1 H2; lia).
  assert (A2 : 0 <= a2 < 2 ^ 32) by (unfold a2; clear - H2 H3; lia). assert (A3 : 0 <= a3 < 2 ^ 32) by (unfold a3; clear - H3 H4; lia).
  assert (EV : val5 h0 h1 h2 h3 h4 = a0 + 2 ^ 32 * a1 + 2 ^ 64 * a2 + 2 ^ 96 * a3 + 2 ^ 128 * (h4 / 2 ^ 24)).
  { assert (h1 = 2 ^ 6 * (h1 / 2 ^ 6) + h1 mod 2 ^ 6) by (clear; lia). assert (h2 = 2 ^ 12 * (h2 / 2 ^ 12) + h2 mod 2 ^ 12) by (clear; lia).
    assert (h3 = 2 ^ 18 * (h3 / 2 ^ 18) + h3 mod 2 ^ 18) by (clear; lia). assert (h4 = 2 ^ 24 * (h4 / 2 ^ 24) + h4 mod 2 ^ 24) by (clear; lia).
    unfold val5, a0, a1, a2, a3. clear - H H5 H6 H7.
    generalize dependent (h1 / 2 ^ 6). generalize dependent (h1 mod 2 ^ 6). generalize dependent (h2 / 2 ^ 12). generalize dependent (h2 mod 2 ^ 12).
    generalize dependent (h3 / 2 ^ 18). generalize dependent (h3 mod 2 ^ 18). generalize dependent (h4 / 2 ^ 24). generalize dependent (h4 mod 2 ^ 24). intros. lia. }
  rewrite EV. clearbody a0 a1 a2 a3. clear EV H0 H1 H2 H3 H4. set (top := h4 / 2 ^ 24). clearbody top.
  rewrite (Hw 64 (a0 + t0)) by lia. assert (B0 : 0 <= a0 + t0 < 2 ^ 33) by lia. remember (a0 + t0) as f0 eqn:F0.
  assert (X0 : f0 = 2 ^ 32 * (f0 / 2 ^ 32) + f0 mod 2 ^ 32 /\ 0 <= f0 mod 2 ^ 32 < 2 ^ 32 /\ 0 <= f0 / 2 ^ 32 <= 1) by (clear - B0; lia).
  revert X0. generalize (f0 / 2 ^ 32), (f0 mod 2 ^ 32). intros c0 e0 X0.
  rewrite (Hw 64 (a1 + t1)) by lia. rewrite (Hw 64 (a1 + t1 + c0)) by lia. assert (B1 : 0 <= a1 + t1 + c0 < 2 ^ 34) by lia. remember (a1 + t1 + c0) as f1 eqn:F1.
  assert (X1 : f1 = 2 ^ 32 * (f1 / 2 ^ 32) + f1 mod 2 ^ 32 /\ 0 <= f1 mod 2 ^ 32 < 2 ^ 32 /\ 0 <= f1 / 2 ^ 32 <= 3) by (clear - B1; lia).
  revert X1. generalize (f1 / 2 ^ 32), (f1 mod 2 ^ 32). intros c1 e1 X1.
  rewrite (Hw 64 (a2 + t2)) by lia. rewrite (Hw 64 (a2 + t2 + c1)) by lia. assert (B2 : 0 <= a2 + t2 + c1 < 2 ^ 34) by lia. remember (a2 + t2 + c1) as f2 eqn:F2.
  assert (X2 : f2 = 2 ^ 32 * (f2 / 2 ^ 32) + f2 mod 2 ^ 32 /\ 0 <= f2 mod 2 ^ 32 < 2 ^ 32 /\ 0 <= f2 / 2 ^ 32 <= 3) by (clear - B2; lia).
  revert X2. generalize (f2 / 2 ^ 32), (f2 mod 2 ^ 32). intros c2 e2 X2.
  rewrite (Hw 64 (a3 + t3)) by lia. rewrite (Hw 64 (a3 + t3 + c2)) by lia. assert (B3 : 0 <= a3 + t3 + c2 < 2 ^ 34) by lia. remember (a3 + t3 + c2) as f3 eqn:F3.
  assert (X3 : f3 = 2 ^ 32 * (f3 / 2 ^ 32) + f3 mod 2 ^ 32 /\ 0 <= f3 mod 2 ^ 32 < 2 ^ 32 /\ 0 <= f3 / 2 ^ 32 <= 3) by (clear - B3; lia).
  revert X3. generalize (f3 / 2 ^ 32), (f3 mod 2 ^ 32). intros c3 e3 X3.
  rewrite <- (to_le_app 4 4) by (change (256 ^ Z.of_nat 4) with (2 ^ 32); lia). change (256 ^ Z.of_nat 4) with (2 ^ 32).
  rewrite <- (to_le_app 4 (4 + 4)) by (change (256 ^ Z.of_nat 4) with (2 ^ 32); lia). change (256 ^ Z.of_nat 4) with (2 ^ 32).
  rewrite <- (to_le_app 4 (4 + (4 + 4))) by (change (256 ^ Z.of_nat 4) with (2 ^ 32); lia). change (256 ^ Z.of_nat 4) with (2 ^ 32).
  change (4 + (4 + (4 + 4)))%nat with 16%nat. f_equal. apply Z.mod_unique with (top + c3); [left; lia|lia].
Qed.

Lemma tag32 r s acc x : ok32 r s acc x -> p32_tag w x = to_le 16 ((acc + s) mod 2 ^ 128).
Proof.
  intros (R0 & R1 & R2 & R3 & R4 & H0 & H1 & H2 & H3 & H4 & VR & VH & W0 & W1 & W2 & W3 & VS). unfold p32_tag.
  pose proof (full32 _ _ _ _ _ H0 H1 H2 H3 H4) as F. cbv zeta in F |- *. destruct F as (F0 & F1 & F2 & F3 & F4 & k & FV).
  match type of F0 with 0 <= ?d < _ => set (a0 := d) in * end.
  match type of F1 with 0 <= ?d < _ => set (a1 := d) in * end.
  match type of F2 with 0 <= ?d < _ => set (a2 := d) in * end.
  match type of F3 with 0 <= ?d < _ => set (a3 := d) in * end.
  match type of F4 with 0 <= ?d < _ => set (a4 := d) in * end.
  pose proof (select32 _ _ _ _ _ F0 F1 F2 F3 F4) as G. cbv zeta in G. destruct G as (G0 & G1 & G2 & G3 & G4 & GV).
  match type of G0 with 0 <= ?d < _ => set (b0 := d) in * end.
  match type of G1 with 0 <= ?d < _ => set (b1 := d) in * end.
  match type of G2 with 0 <= ?d < _ => set (b2 := d) in * end.
  match type of G3 with 0 <= ?d < _ => set (b3 := d) in * end.
  match type of G4 with 0 <= ?d < _ => set (b4 := d) in * end.
  rewrite (pad32 b0 b1 b2 b3 b4 _ _ _ _ G0 G1 G2 G3 G4 W0 W1 W2 W3). rewrite VS. f_equal. f_equal. f_equal. rewrite GV, <- VH, <- FV.
  rewrite Z.mod_add by exact p1305_nz. reflexivity.
Qed.
End W32.

Lemma mask_low x m n : 0 <= n -> 0 <= m < 2 ^ n -> Z.land x m = Z.land (x mod 2 ^ n) m.
Proof. intros Hn Hm. pose proof (land_split x m 0 n Hn Hm) as Q. rewrite Z.land_0_r, Z.mul_0_r, !Z.add_0_r in Q. exact Q. Qed.

Lemma init32 key : 32 <= zlen key -> bytes_ok key -> ok32 (poly_r key) (poly_s key) 0 (p32_init key).
Proof.
  intros Hl B. destruct (key_half key Hl B) as (L1 & B1 & L2 & B2). unfold p32_init, ok32, poly_r, poly_s. cbn [y_r0 y_r1 y_r2 y_r3 y_r4 y_h0 y_h1 y_h2 y_h3 y_h4 y_pad0 y_pad1 y_pad2 y_pad3].
  assert (U : forall i, 0 <= i <= 12 -> u8to 4 key i = u8to 4 (sub key 0 16) i) by (intros i Hi; apply (u8to_sub 4 key i 0); lia).
  assert (U' : forall i, 0 <= i <= 12 -> u8to 4 key (16 + i) = u8to 4 (sub key 16 16) i) by (intros i Hi; apply (u8to_sub 4 key i 16); lia).
  rewrite (U 0), (U 3), (U 6), (U 9), (U 12) by lia. pose proof (U' 0 ltac:(lia)) as U0. pose proof (U' 4 ltac:(lia)) as U4. pose proof (U' 8 ltac:(lia)) as U8. pose proof (U' 12 ltac:(lia)) as U12.
  change (16 + 0) with 16 in U0. change (16 + 4) with 20 in U4. change (16 + 8) with 24 in U8. change (16 + 12) with 28 in U12. rewrite U0, U4, U8, U12. clear U U' U0 U4 U8 U12.
  pose proof (le16_bound _ L1 B1) as K1. pose proof (le16_bound _ L2 B2) as K2. destruct (parts32 _ L1 B1) as (T0 & T1 & T2 & T3 & T4).
  set (K := le (sub key 0 16)) in *. set (J := le (sub key 16 16)) in *.
  assert (J4 : u8to 4 (sub key 16 16) 0 = J mod 2 ^ 32 /\ u8to 4 (sub key 16 16) 4 = (J / 2 ^ 32) mod 2 ^ 32 /\ u8to 4 (sub key 16 16) 8 = (J / 2 ^ 64) mod 2 ^ 32 /\ u8to 4 (sub key 16 16) 12 = (J / 2 ^ 96) mod 2 ^ 32).
  { rewrite !u8to_div by (try assumption; lia). fold J. change (256 ^ 0) with 1. change (256 ^ 4) with (2 ^ 32). change (256 ^ 8) with (2 ^ 64). change (256 ^ 12) with (2 ^ 96). rewrite Z.div_1_r. auto. }
  destruct J4 as (J0 & J4 & J8 & J12). rewrite J0, J4, J8, J12. rewrite T0.
  rewrite (mask_low (c_shr (u8to 4 (sub key 0 16) 3) 2) _ 26), <- (land26 (c_shr (u8to 4 (sub key 0 16) 3) 2)), T1 by lia.
  rewrite (mask_low (c_shr (u8to 4 (sub key 0 16) 6) 4) _ 26), <- (land26 (c_shr (u8to 4 (sub key 0 16) 6) 4)), T2 by lia.
  rewrite (mask_low (c_shr (u8to 4 (sub key 0 16) 9) 6) _ 26), <- (land26 (c_shr (u8to 4 (sub key 0 16) 9) 6)), T3 by lia.
  rewrite T4. clear T0 T1 T2 T3 T4 J0 J4 J8 J12.
  assert (WM : forall a m, 0 <= m < 2 ^ 26 -> word_ok 26 (Z.land (a mod 2 ^ 26) m)) by (intros a m0 Hm; apply word_ok_land; [lia|apply word_ok_mod; lia|exact Hm]).
  split; [apply word_ok_mod; lia|]. split; [apply WM; lia|]. split; [apply WM; lia|]. split; [apply WM; lia|].
  split; [apply (word_ok_land 26); [lia|unfold word_ok; clear - K1; lia|unfold word_ok; lia]|].
  split; [lia|]. split; [lia|]. split; [lia|]. split; [lia|]. split; [lia|].
  split; [|split; [reflexivity|]; split; [apply word_ok_mod; lia|]; split; [apply word_ok_mod; lia|]; split; [apply word_ok_mod; lia|]; split; [apply word_ok_mod; lia|clear - K2; lia]].
  change 0x0ffffffc0ffffffc0ffffffc0fffffff with (0x3ffffff + 2 ^ 26 * (0x3ffff03 + 2 ^ 26 * (0x3ffc0ff + 2 ^ 26 * (0x3f03fff + 2 ^ 26 * 0x00fffff)))).
  rewrite (land_split K), land26 by lia. rewrite (land_split (K / 2 ^ 26)) by lia. rewrite (land_split (K / 2 ^ 26 / 2 ^ 26)) by lia. rewrite (land_split (K / 2 ^ 26 / 2 ^ 26 / 2 ^ 26)) by lia.
  rewrite !Z.div_div by lia. change (2 ^ 26 * 2 ^ 26) with (2 ^ 52). change (2 ^ 52 * 2 ^ 26) with (2 ^ 78). change (2 ^ 78 * 2 ^ 26) with (2 ^ 104).
  replace ((K mod 2 ^ 26) mod 2 ^ 26) with (K mod 2 ^ 26) by (clear; lia). unfold val5. ring.
Qed.
