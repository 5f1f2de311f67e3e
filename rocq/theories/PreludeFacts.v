(* Lemmas about the vocabulary of Prelude.v *)
From Verif Require Import Prelude.

Ltac Zify.zify_post_hook ::= Z.div_mod_to_equations.

Lemma skipn_skipn {A} x y (l : list A) : skipn x (skipn y l) = skipn (x + y) l.
Proof.
  revert l; induction y as [|y IH]; intros l; [rewrite Nat.add_0_r; reflexivity|].
  rewrite Nat.add_succ_r. destruct l as [|a l]; [rewrite !skipn_nil; reflexivity|].
  cbn [skipn]. apply IH.
Qed.

Lemma zlen_nonneg {A} (l : list A) : 0 <= zlen l.
Proof. unfold zlen; lia. Qed.

Lemma zlen_nil {A} : zlen (@nil A) = 0.
Proof. reflexivity. Qed.

Lemma zlen_cons {A} (x : A) l : zlen (x :: l) = 1 + zlen l.
Proof. unfold zlen; cbn [length]; lia. Qed.

Lemma zlen_one {A} (x : A) : zlen [x] = 1.
Proof. reflexivity. Qed.

Lemma zlen_app {A} (a b : list A) : zlen (a ++ b) = zlen a + zlen b.
Proof. unfold zlen; rewrite app_length; lia. Qed.

Lemma zlen_0 {A} (l : list A) : zlen l = 0 -> l = [].
Proof. destruct l; [reflexivity | rewrite zlen_cons; pose proof (zlen_nonneg l); lia]. Qed.

Lemma zlen_map {A B} (f : A -> B) l : zlen (map f l) = zlen l.
Proof. unfold zlen; rewrite map_length; reflexivity. Qed.

Lemma zlen_repeat {A} (x : A) n : zlen (repeat x n) = Z.of_nat n.
Proof. unfold zlen; rewrite repeat_length; reflexivity. Qed.

Lemma zlen_zeros n : 0 <= n -> zlen (zeros n) = n.
Proof. intros; unfold zeros; rewrite zlen_repeat; lia. Qed.

Lemma zlen_rev {A} (l : list A) : zlen (rev l) = zlen l.
Proof. unfold zlen; rewrite rev_length; reflexivity. Qed.

Lemma length_zlen {A} (l : list A) : length l = Z.to_nat (zlen l).
Proof. unfold zlen; lia. Qed.

Lemma in_range_true {A} (l : list A) o n :
  in_range l o n = true <-> 0 <= n /\ 0 <= o /\ o + n <= zlen l.
Proof. unfold in_range; lia. Qed.

Lemma in_range_false {A} (l : list A) o n :
  in_range l o n = false <-> ~ (0 <= n /\ 0 <= o /\ o + n <= zlen l).
Proof. unfold in_range; lia. Qed.

Lemma zlen_sub {A} (l : list A) o n :
  0 <= n -> 0 <= o -> o + n <= zlen l -> zlen (sub l o n) = n.
Proof. unfold zlen, sub; intros; rewrite firstn_length, skipn_length; lia. Qed.

Lemma length_sub {A} (l : list A) o n :
  0 <= n -> 0 <= o -> o + n <= zlen l -> length (sub l o n) = Z.to_nat n.
Proof. unfold zlen, sub; intros; rewrite firstn_length, skipn_length; lia. Qed.

Lemma zlen_splice {A} (d : list A) o l :
  0 <= o -> o + zlen l <= zlen d -> zlen (splice d o l) = zlen d.
Proof.
  unfold zlen, splice; intros; rewrite !app_length, firstn_length, skipn_length; lia.
Qed.

Lemma sub_0_all {A} (l : list A) n : n = zlen l -> sub l 0 n = l.
Proof.
  intros ->; unfold sub; cbn [Z.to_nat skipn]; unfold zlen; rewrite Nat2Z.id.
  apply firstn_all.
Qed.

Lemma sub_0_len {A} (l : list A) o : sub l o 0 = [].
Proof. reflexivity. Qed.

Lemma sub_sub {A} (l : list A) o n o' n' :
  0 <= o -> 0 <= o' -> 0 <= n' -> o' + n' <= n ->
  sub (sub l o n) o' n' = sub l (o + o') n'.
Proof.
  intros; unfold sub.
  rewrite skipn_firstn_comm, firstn_firstn, skipn_skipn.
  f_equal; [lia | f_equal; lia].
Qed.

Lemma sub_app_split {A} (l : list A) o n m :
  0 <= o -> 0 <= n -> 0 <= m ->
  sub l o (n + m) = sub l o n ++ sub l (o + n) m.
Proof.
  intros Ho Hn Hm; unfold sub.
  replace (Z.to_nat (o + n)) with (Z.to_nat n + Z.to_nat o)%nat by lia.
  rewrite <- skipn_skipn.
  set (k := skipn (Z.to_nat o) l).
  replace (Z.to_nat (n + m)) with (Z.to_nat n + Z.to_nat m)%nat by lia.
  rewrite <- (firstn_skipn (Z.to_nat n) k) at 1.
  rewrite firstn_app.
  destruct (Nat.le_gt_cases (Z.to_nat n) (length k)).
  - rewrite firstn_all2 by (rewrite firstn_length; lia).
    rewrite firstn_length.
    replace (Z.to_nat n + Z.to_nat m - Nat.min (Z.to_nat n) (length k))%nat
      with (Z.to_nat m) by lia.
    reflexivity.
  - rewrite (skipn_all2 k) by lia.
    rewrite !firstn_nil, !app_nil_r, firstn_firstn.
    f_equal; lia.
Qed.

Lemma sub_app_l {A} (a b : list A) o n :
  0 <= o -> o + n <= zlen a -> sub (a ++ b) o n = sub a o n.
Proof.
  unfold zlen, sub; intros.
  rewrite skipn_app, firstn_app.
  replace (Z.to_nat n - length (skipn (Z.to_nat o) a))%nat with 0%nat
    by (rewrite skipn_length; lia).
  cbn [firstn]; apply app_nil_r.
Qed.

Lemma sub_app_r {A} (a b : list A) o n :
  zlen a <= o -> sub (a ++ b) o n = sub b (o - zlen a) n.
Proof.
  unfold zlen, sub; intros.
  rewrite skipn_app, (skipn_all2 a) by lia.
  cbn [app]; f_equal; f_equal; lia.
Qed.

Lemma sub_splice_same {A} (d : list A) o l n :
  0 <= o -> n = zlen l -> o + n <= zlen d -> sub (splice d o l) o n = l.
Proof.
  unfold splice; intros Ho -> Hle.
  assert (E : zlen (firstn (Z.to_nat o) d) = o).
  { unfold zlen in *; rewrite firstn_length; lia. }
  rewrite sub_app_r by lia. rewrite E, Z.sub_diag.
  rewrite sub_app_l by lia. apply sub_0_all; reflexivity.
Qed.

Lemma sub_splice_before {A} (d : list A) o l o' n :
  0 <= o' -> o' + n <= o -> o + zlen l <= zlen d ->
  sub (splice d o l) o' n = sub d o' n.
Proof.
  unfold splice; intros Ho' Hn Hle.
  destruct (Z.le_gt_cases n 0).
  { unfold sub. replace (Z.to_nat n) with 0%nat by lia. reflexivity. }
  assert (E : zlen (firstn (Z.to_nat o) d) = o).
  { unfold zlen in *; rewrite firstn_length; lia. }
  rewrite sub_app_l by lia.
  unfold sub.
  rewrite skipn_firstn_comm, firstn_firstn. f_equal; lia.
Qed.

Lemma skipn_splice_after {A} (d : list A) o l k :
  0 <= o -> o + zlen l <= zlen d -> o + zlen l <= k ->
  skipn (Z.to_nat k) (splice d o l) = skipn (Z.to_nat k) d.
Proof.
  unfold splice, zlen; intros Ho Hl Hk.
  rewrite !skipn_app, firstn_length.
  rewrite (skipn_all2 (firstn _ _)) by (rewrite firstn_length; lia).
  rewrite (skipn_all2 l) by lia.
  cbn [app]. rewrite skipn_skipn. f_equal. lia.
Qed.

Lemma sub_splice_after {A} (d : list A) o l o' n :
  0 <= o -> o + zlen l <= zlen d -> o + zlen l <= o' ->
  sub (splice d o l) o' n = sub d o' n.
Proof. intros; unfold sub; rewrite skipn_splice_after; auto. Qed.

Lemma splice_nil {A} (d : list A) o : splice d o [] = d.
Proof.
  unfold splice; cbn [app length]; rewrite Nat.add_0_r; apply firstn_skipn.
Qed.

Lemma splice_all {A} (d : list A) l : zlen l = zlen d -> splice d 0 l = l.
Proof.
  unfold splice, zlen; intros; cbn [Z.to_nat firstn app].
  rewrite skipn_all2 by lia. apply app_nil_r.
Qed.

(* joining two adjacent overwritten ranges *)
Lemma splice_splice_app {A} (d : list A) o a b :
  0 <= o -> o + zlen a + zlen b <= zlen d ->
  splice (splice d o a) (o + zlen a) b = splice d o (a ++ b).
Proof.
  intros Ho Hle. unfold splice at 1.
  assert (E : firstn (Z.to_nat (o + zlen a)) (splice d o a)
              = firstn (Z.to_nat o) d ++ a).
  { unfold splice, zlen in *. rewrite firstn_app, firstn_length.
    rewrite (firstn_all2 (firstn _ d)) by (rewrite firstn_length; lia).
    f_equal. rewrite firstn_app.
    rewrite (firstn_all2 a) by lia.
    match goal with |- context [firstn ?n (skipn _ _)] => replace n with 0%nat by lia end.
    cbn [firstn]; apply app_nil_r. }
  rewrite E.
  replace (Z.to_nat (o + zlen a) + length b)%nat
    with (Z.to_nat (o + zlen a + zlen b)) by (unfold zlen in *; lia).
  rewrite skipn_splice_after by (pose proof (zlen_nonneg b); lia).
  unfold splice. rewrite <- !app_assoc. do 3 f_equal.
  rewrite app_length; unfold zlen in *; f_equal; lia.
Qed.

Lemma xorb_length a b : length a = length b -> length (xorb a b) = length a.
Proof. unfold xorb; intros; rewrite map_length, combine_length; lia. Qed.

Lemma zlen_xorb a b : zlen a = zlen b -> zlen (xorb a b) = zlen a.
Proof. unfold zlen; intros; rewrite xorb_length; lia. Qed.

Lemma xorb_nil_l b : xorb [] b = [].
Proof. reflexivity. Qed.
Lemma xorb_nil_r a : xorb a [] = [].
Proof. destruct a; reflexivity. Qed.
Lemma xorb_cons x a y b : xorb (x :: a) (y :: b) = Z.lxor x y :: xorb a b.
Proof. reflexivity. Qed.

Lemma xorb_comm a : forall b, xorb a b = xorb b a.
Proof.
  induction a as [|x a IH]; intros [|y b]; try reflexivity.
  rewrite !xorb_cons, IH, Z.lxor_comm; reflexivity.
Qed.

Lemma xorb_cancel a : forall k, length a = length k -> xorb (xorb a k) k = a.
Proof.
  induction a as [|x a IH]; intros [|y k] H; try reflexivity; try discriminate.
  rewrite !xorb_cons, IH by (cbn [length] in H; lia).
  rewrite Z.lxor_assoc, Z.lxor_nilpotent, Z.lxor_0_r; reflexivity.
Qed.

Lemma xorb_cancel_l a k : length a = length k -> xorb k (xorb a k) = a.
Proof. intros; rewrite (xorb_comm k); apply xorb_cancel; assumption. Qed.

Lemma xorb_cancel_lr a k : length a = length k -> xorb k (xorb k a) = a.
Proof. intros; rewrite (xorb_comm k a); apply xorb_cancel_l; assumption. Qed.

Lemma xorb_app a b : forall a' b', length a = length a' ->
  xorb (a ++ b) (a' ++ b') = xorb a a' ++ xorb b b'.
Proof.
  induction a as [|x a IH]; intros [|y a'] b' H; try discriminate; [reflexivity|].
  cbn [app]. rewrite !xorb_cons, IH by (cbn [length] in H; lia). reflexivity.
Qed.

Lemma lxor_bound n x y : 0 <= n -> 0 <= x < 2 ^ n -> 0 <= y < 2 ^ n -> 0 <= Z.lxor x y < 2 ^ n.
Proof.
  intros Hn Hx Hy. split; [apply Z.lxor_nonneg; lia|].
  destruct (Z.eq_dec (Z.lxor x y) 0) as [E|E]; [rewrite E; lia|].
  assert (0 <= Z.lxor x y) by (apply Z.lxor_nonneg; lia).
  apply Z.log2_lt_pow2; [lia|].
  eapply Z.le_lt_trans; [apply Z.log2_lxor; lia|].
  destruct (Z.eq_dec x 0) as [->|Hx0]; destruct (Z.eq_dec y 0) as [->|Hy0].
  - rewrite Z.lxor_0_l in E; congruence.
  - cbn [Z.log2]. rewrite Z.max_r by apply Z.log2_nonneg. apply Z.log2_lt_pow2; lia.
  - cbn [Z.log2]. rewrite Z.max_l by apply Z.log2_nonneg. apply Z.log2_lt_pow2; lia.
  - apply Z.max_lub_lt; apply Z.log2_lt_pow2; lia.
Qed.

Lemma lxor_byte x y : byte_ok x -> byte_ok y -> byte_ok (Z.lxor x y).
Proof. unfold byte_ok; intros; apply (lxor_bound 8); lia. Qed.

Lemma bytes_ok_xorb a : forall b, bytes_ok a -> bytes_ok b -> bytes_ok (xorb a b).
Proof.
  induction a as [|x a IH]; intros [|y b] Ha Hb; try constructor.
  - inversion Ha; inversion Hb; subst; apply lxor_byte; assumption.
  - inversion Ha; inversion Hb; subst; apply IH; assumption.
Qed.

Lemma bytes_ok_app a b : bytes_ok (a ++ b) <-> bytes_ok a /\ bytes_ok b.
Proof. apply Forall_app. Qed.

Lemma Forall_firstn {A} (P : A -> Prop) n l : Forall P l -> Forall P (firstn n l).
Proof.
  intros H. rewrite <- (firstn_skipn n l) in H. apply Forall_app in H. tauto.
Qed.
Lemma Forall_skipn {A} (P : A -> Prop) n l : Forall P l -> Forall P (skipn n l).
Proof.
  intros H. rewrite <- (firstn_skipn n l) in H. apply Forall_app in H. tauto.
Qed.

Lemma bytes_ok_sub l o n : bytes_ok l -> bytes_ok (sub l o n).
Proof. intros H; apply Forall_firstn, Forall_skipn, H. Qed.

Lemma bytes_ok_splice d o l : bytes_ok d -> bytes_ok l -> bytes_ok (splice d o l).
Proof.
  intros Hd Hl. apply bytes_ok_app; split; [apply Forall_firstn, Hd|].
  apply bytes_ok_app; split; [exact Hl | apply Forall_skipn, Hd].
Qed.

Lemma bytes_ok_zeros n : bytes_ok (zeros n).
Proof.
  unfold zeros, bytes_ok. apply Forall_forall; intros x Hx.
  apply repeat_spec in Hx; subst; unfold byte_ok; lia.
Qed.

Lemma blit_ok src so dst d n :
  0 <= n -> 0 <= so -> so + n <= zlen src -> 0 <= d -> d + n <= zlen dst ->
  blit src so dst d n = Ret (splice dst d (sub src so n)).
Proof.
  intros. unfold blit.
  replace (in_range src so n) with true by (symmetry; apply in_range_true; lia).
  replace (in_range dst d n) with true by (symmetry; apply in_range_true; lia).
  reflexivity.
Qed.

Lemma wrap63_id x : is_int x -> wrap63 x = x.
Proof. unfold is_int, wrap63; intros. rewrite Z.mod_small; lia. Qed.

Lemma nth_firstn_lt {A} (l : list A) d : forall n i, (i < n)%nat -> nth i (firstn n l) d = nth i l d.
Proof.
  induction l as [|x l IH]; intros [|n] [|i] H; try reflexivity; try lia.
  cbn [firstn nth]. apply IH; lia.
Qed.

Lemma list_eq_nth {A} (d : A) l l' :
  length l = length l' -> (forall i, (i < length l)%nat -> nth i l d = nth i l' d) -> l = l'.
Proof. intros; apply (nth_ext _ _ d d); assumption. Qed.

Lemma firstn_S_nth {A} (l : list A) d n :
  (n < length l)%nat -> firstn (S n) l = firstn n l ++ [nth n l d].
Proof.
  revert n; induction l as [|x l IH]; intros [|n] H; cbn [length] in H; try lia; [reflexivity|].
  cbn [firstn nth app]. rewrite <- IH by lia. reflexivity.
Qed.

Lemma splice_1 (l : bytes) i x : 0 <= i -> i < zlen l ->
  sub (splice l i [x]) 0 (i + 1) = sub l 0 i ++ [x].
Proof.
  intros H1 H2. rewrite sub_app_split by lia.
  rewrite sub_splice_before by (rewrite ?zlen_one; lia).
  rewrite Z.add_0_l.
  rewrite sub_splice_same by (rewrite ?zlen_one; lia). reflexivity.
Qed.

Lemma bytes_set_ok l i c : 0 <= i < zlen l -> bytes_set l i c = Ret (splice l i [c]).
Proof.
  intros H. unfold bytes_set. replace ((0 <=? i) && (i <? zlen l)) with true by lia. reflexivity.
Qed.

