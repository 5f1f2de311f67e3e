(* Poly1305 as a polynomial over the integers modulo 2^130 - 5: how many keys give two tags. *)
From Coq Require Import Eqdep_dec Ring Ring_theory Znumtheory.
From Verif Require Import Prelude PreludeFacts BytesNum SpecBlock SpecPoly NumTheory Prime1305 Roots Gcm Poly.

(* ---- the field ---- *)
Definition inp (x : Z) : bool := (0 <=? x) && (x <? p1305).
Definition F : Type := {x : Z | inp x = true}.
Definition fval (a : F) : Z := proj1_sig a.
Lemma p_pos : 0 < p1305. Proof. reflexivity. Qed.
Lemma inp_mod x : inp (x mod p1305) = true.
Proof. pose proof (Z.mod_pos_bound x p1305 p_pos) as (A & B). unfold inp. apply andb_true_intro. split; [apply Z.leb_le, A|apply Z.ltb_lt, B]. Qed.
Definition fz (x : Z) : F := exist _ (x mod p1305) (inp_mod x).
Lemma fval_ok (a : F) : 0 <= fval a < p1305.
Proof. destruct a as (x & X). cbn [fval proj1_sig]. apply andb_prop in X. destruct X as (A & B). apply Z.leb_le in A. apply Z.ltb_lt in B. split; assumption. Qed.
Lemma fval_inj (a b : F) : fval a = fval b -> a = b.
Proof. destruct a as (x & X), b as (y & Y). cbn. intros ->. f_equal. apply UIP_dec, Bool.bool_dec. Qed.
Lemma fval_fz x : fval (fz x) = x mod p1305. Proof. reflexivity. Qed.
Lemma fz_fval a : fz (fval a) = a.
Proof. apply fval_inj. rewrite fval_fz. apply Z.mod_small, fval_ok. Qed.
Lemma fz_eq x y : fz x = fz y <-> x mod p1305 = y mod p1305.
Proof. split; [intros H; apply (f_equal fval) in H; exact H|intros H; apply fval_inj; exact H]. Qed.
Definition fadd (a b : F) : F := fz (fval a + fval b).
Definition fmul (a b : F) : F := fz (fval a * fval b).
Definition fsub (a b : F) : F := fz (fval a - fval b).
Definition fopp (a : F) : F := fz (- fval a).
Lemma fz_add x y : fz (x + y) = fadd (fz x) (fz y).
Proof. apply fz_eq. rewrite !fval_fz. apply Zplus_mod. Qed.
Lemma fz_mul x y : fz (x * y) = fmul (fz x) (fz y).
Proof. apply fz_eq. rewrite !fval_fz. apply Zmult_mod. Qed.
Lemma fz_sub x y : fz (x - y) = fsub (fz x) (fz y).
Proof. apply fz_eq. rewrite !fval_fz. apply Zminus_mod. Qed.
Lemma fz_opp x : fz (- x) = fopp (fz x).
Proof. apply fz_eq. rewrite fval_fz. rewrite <- (Z.sub_0_l x), <- (Z.sub_0_l (x mod p1305)). rewrite Zminus_mod_idemp_r. reflexivity. Qed.
Lemma F_ring : ring_theory (fz 0) (fz 1) fadd fmul fsub fopp eq.
Proof.
  constructor; intros; repeat match goal with a : F |- _ => rewrite <- (fz_fval a); generalize (fval a); clear a; intro end;
    rewrite <- ?fz_sub, <- ?fz_opp, <- ?fz_mul, <- ?fz_add, <- ?fz_mul, <- ?fz_add; f_equal; ring.
Qed.
Lemma F_domain a b : fmul a b = fz 0 -> a = fz 0 \/ b = fz 0.
Proof.
  intros H. apply fz_eq in H. rewrite Z.mod_0_l in H by (pose proof p_pos; lia). apply Z.mod_divide in H; [|pose proof p_pos; lia].
  apply (prime_mult p1305 prime_1305) in H. destruct H as [H|H]; [left|right]; apply fval_inj; apply Z.mod_divide in H; try (pose proof p_pos; lia); rewrite Z.mod_small in H by apply fval_ok; exact H.
Qed.
Add Ring FR : F_ring.

(* ---- the accumulator ---- *)
Definition coef (b : bytes) : F := fz (le (b ++ [1])).
Lemma acc_horner r bl : forall h acc, fz acc = fmul h (fz r) ->
  fz (fold_left (poly_step r) bl acc) = fmul (horner F fadd fmul h (map coef bl) (fz r)) (fz r).
Proof.
  induction bl as [|b bl IH]; intros h acc E; [exact E|]. cbn [fold_left map horner].
  fold (horner F fadd fmul (fadd (fmul h (fz r)) (coef b)) (map coef bl) (fz r)). apply IH. unfold poly_step.
  transitivity (fz ((acc + le (b ++ [1])) * r)); [apply fz_eq, Zmod_mod|]. rewrite fz_mul, fz_add, E. reflexivity.
Qed.
Lemma acc_range r bl : forall acc, 0 <= acc < p1305 -> 0 <= fold_left (poly_step r) bl acc < p1305.
Proof. induction bl as [|b bl IH]; intros acc H; [exact H|]. cbn. apply IH. apply Z.mod_pos_bound, p_pos. Qed.
(* the coefficients determine the message *)
Lemma coef_range b : zlen b <= 16 -> bytes_ok b -> 0 < le (b ++ [1]) < p1305.
Proof.
  intros L B. rewrite (le_one b _ eq_refl). pose proof (le_bound b B) as R. pose proof (zlen_nonneg b).
  assert (256 ^ zlen b <= 256 ^ 16) by (apply Z.pow_le_mono_r; lia). assert (256 ^ 16 + 256 ^ 16 < p1305) by reflexivity. lia.
Qed.
Lemma coef_nz b : zlen b <= 16 -> bytes_ok b -> coef b <> fz 0.
Proof. intros L B E. apply fz_eq in E. pose proof (coef_range b L B). rewrite !Z.mod_small in E by (pose proof p_pos; lia). lia. Qed.
Lemma coef_inj b b' : zlen b <= 16 -> zlen b' <= 16 -> bytes_ok b -> bytes_ok b' -> coef b = coef b' -> b = b'.
Proof.
  intros L L' B B' E. apply fz_eq in E. pose proof (coef_range b L B). pose proof (coef_range b' L' B'). rewrite !Z.mod_small in E by lia.
  rewrite (le_one b _ eq_refl), (le_one b' _ eq_refl) in E. pose proof (le_bound b B) as R. pose proof (le_bound b' B') as R'. pose proof (zlen_nonneg b). pose proof (zlen_nonneg b').
  assert (W : zlen b = zlen b').
  { destruct (Z.lt_trichotomy (zlen b) (zlen b')) as [T|[T|T]]; [exfalso|exact T|exfalso].
    - assert (256 ^ (zlen b + 1) <= 256 ^ zlen b') by (apply Z.pow_le_mono_r; lia). rewrite Z.pow_add_r in * by lia. lia.
    - assert (256 ^ (zlen b' + 1) <= 256 ^ zlen b) by (apply Z.pow_le_mono_r; lia). rewrite Z.pow_add_r in * by lia. lia. }
  rewrite W in E. apply le_inj; [unfold zlen in W; lia|exact B|exact B'|lia].
Qed.
Lemma coefs_inj l : forall l', Forall (fun b => 0 < zlen b <= 16) l -> Forall (fun b => 0 < zlen b <= 16) l' -> Forall bytes_ok l -> Forall bytes_ok l' ->
  map coef l = map coef l' -> l = l'.
Proof.
  induction l as [|b l IH]; intros [|b' l'] S S' B B' E; try discriminate E; [reflexivity|]. inversion S; inversion S'; inversion B; inversion B'; subst. pose proof (f_equal (fun l => hd (fz 0) l) E) as E1. pose proof (f_equal (@tl F) E) as E2. cbn [map hd tl] in E1, E2.
  f_equal; [apply coef_inj; try assumption; lia|apply IH; assumption].
Qed.
Lemma hd_nz l : Forall (fun b => 0 < zlen b <= 16) l -> Forall bytes_ok l -> hd_error (map coef l) <> Some (fz 0).
Proof. destruct l as [|b l]; intros S B E; [discriminate E|]. inversion S; inversion B; subst. cbn [map hd_error] in E. assert (E' : coef b = fz 0) by congruence. revert E'. apply coef_nz; [lia|assumption]. Qed.

(* For two different messages and two tags, few r are compatible with both *)
Definition tag_of (acc s : Z) : bytes := to_le 16 ((acc + s) mod 2 ^ 128).
Lemma tag_class acc acc' s t t' : 0 <= acc < p1305 -> 0 <= acc' < p1305 -> tag_of acc s = t -> tag_of acc' s = t' ->
  exists k, In k [-4; -3; -2; -1; 0; 1; 2; 3] /\ acc - acc' = (le t - le t') mod 2 ^ 128 + k * 2 ^ 128.
Proof.
  unfold tag_of. intros A A' <- <-. rewrite !le_to_le. change (256 ^ Z.of_nat 16) with (2 ^ 128). rewrite !Zmod_mod.
  rewrite <- Zminus_mod. replace (acc + s - (acc' + s)) with (acc - acc') by ring.
  exists ((acc - acc') / 2 ^ 128). pose proof (Z.div_mod (acc - acc') (2 ^ 128) ltac:(lia)). split; [|lia].
  assert (p1305 < 4 * 2 ^ 128) by reflexivity.
  assert (-4 <= (acc - acc') / 2 ^ 128) by (apply Z.div_le_lower_bound; lia).
  assert ((acc - acc') / 2 ^ 128 < 4) by (apply Z.div_lt_upper_bound; lia). cbn [In]. lia.
Qed.
Theorem poly_forge m1 m2 t1 t2 s (rs : list Z) : bytes_ok m1 -> bytes_ok m2 -> m1 <> m2 -> NoDup rs -> (forall r, In r rs -> 0 <= r < p1305 /\
    tag_of (fold_left (poly_step r) (chunks 16 m1) 0) s = t1 /\ tag_of (fold_left (poly_step r) (chunks 16 m2) 0) s = t2) ->
  (length rs <= 8 * max (length (chunks 16 m1)) (length (chunks 16 m2)))%nat.
Proof.
  intros B1 B2 D N H. set (acc := fun m r => fold_left (poly_step r) (chunks 16 m) 0).
  assert (AR : forall m r, 0 <= acc m r < p1305) by (intros m r; apply acc_range; pose proof p_pos; lia).
  change 8%nat with (length [-4; -3; -2; -1; 0; 1; 2; 3]).
  apply (count_cases rs _ (fun k r => acc m1 r - acc m2 r =? (le t1 - le t2) mod 2 ^ 128 + k * 2 ^ 128)); [exact N| |].
  - intros r R. destruct (H r R) as (_ & T1 & T2). destruct (tag_class _ _ s t1 t2 (AR m1 r) (AR m2 r) T1 T2) as (k & K & E). exists k. split; [exact K|]. apply Z.eqb_eq. exact E.
  - intros k ys _ Ny I Y. destruct (chunks_sizes m1) as (S1 & O1 & C1). destruct (chunks_sizes m2) as (S2 & O2 & C2). specialize (O1 B1). specialize (O2 B2).
    rewrite <- (map_length fz ys). rewrite <- (map_length coef (chunks 16 m1)), <- (map_length coef (chunks 16 m2)).
    apply (agree F (fz 0) (fz 1) fadd fmul fsub fopp F_ring F_domain _ _ _ (fz ((le t1 - le t2) mod 2 ^ 128 + k * 2 ^ 128))).
    + apply NoDup_map_in; [|exact Ny]. intros a b Ha Hb E. apply fz_eq in E. destruct (H a (I a Ha)) as (Ra & _). destruct (H b (I b Hb)) as (Rb & _). rewrite !Z.mod_small in E by assumption. exact E.
    + intros E. apply padl_inj in E; [|apply hd_nz; assumption|apply hd_nz; assumption]. apply coefs_inj in E; try assumption. apply D. rewrite <- C1, <- C2, E. reflexivity.
    + intros x X. apply in_map_iff in X. destruct X as (r & <- & Rr). specialize (Y r Rr). apply Z.eqb_eq in Y. rewrite <- Y, fz_sub. unfold acc.
      rewrite !(acc_horner r _ (fz 0)) by ring. reflexivity.
Qed.
