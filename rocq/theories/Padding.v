(* Padding schemes: model against specification. *)
From Verif Require Import Prelude PreludeFacts SpecPadding BlockModel.
Ltac Zify.zify_post_hook ::= Z.div_mod_to_equations.

Lemma length_unpad_spec blk v :
  length_unpad blk = Some v <->
  (exists data, length_padded blk data /\ v = zlen data).
Proof.
  unfold length_unpad, length_padded. split.
  - destruct ((0 <? last blk 0) && (last blk 0 <=? zlen blk) && _) eqn:E; [|discriminate].
    intros H. injection H as <-. apply andb_true_iff in E. destruct E as (E & Hall).
    set (n := last blk 0) in *.
    exists (sub blk 0 (zlen blk - n)). split.
    + exists (Z.to_nat n). split; [lia|].
      rewrite Z2Nat.id by lia.
      rewrite <- (sub_0_all blk (zlen blk) eq_refl) at 1.
      replace (zlen blk) with (zlen blk - n + n) at 1 by lia.
      rewrite sub_app_split by lia. f_equal.
      rewrite Z.add_0_l.
      assert (L : length (sub blk (zlen blk - n) n) = Z.to_nat n) by (apply length_sub; lia).
      rewrite <- L. clear L.
      induction (sub blk (zlen blk - n) n) as [|x l IH]; [reflexivity|].
      cbn [forallb] in Hall. apply andb_true_iff in Hall. destruct Hall as (H1 & H2).
      cbn [length repeat]. rewrite <- IH by assumption. f_equal. lia.
    + rewrite zlen_sub; lia.
  - intros (data & (n & Hn & ->) & ->).
    assert (L : last (data ++ repeat (Z.of_nat n) n) 0 = Z.of_nat n).
    { destruct n as [|n]; [lia|]. rewrite <- Nat.add_1_r at 2. rewrite repeat_app, app_assoc.
      cbn [repeat]. apply last_last. }
    rewrite L, zlen_app, zlen_repeat.
    pose proof (zlen_nonneg data).
    replace (zlen data + Z.of_nat n - Z.of_nat n) with (zlen data) by lia.
    rewrite sub_app_r by lia. rewrite Z.sub_diag.
    rewrite sub_0_all by (rewrite zlen_repeat; lia).
    replace ((0 <? Z.of_nat n) && (Z.of_nat n <=? zlen data + Z.of_nat n)) with true by lia.
    replace (forallb _ _) with true; [reflexivity|]. symmetry. apply forallb_forall.
    intros x Hx. apply repeat_spec in Hx. lia.
Qed.

Lemma zeros_unpad_rev_spec r v :
  zeros_unpad_rev r = Some v <-> (exists data n, r = repeat 0 n ++ 128 :: data /\ v = zlen data).
Proof.
  induction r as [|c r IH]; cbn [zeros_unpad_rev].
  - split; [discriminate|]. intros (d & [|n] & H & _); discriminate.
  - destruct (c =? 128) eqn:E.
    + split.
      * intros H; injection H as <-. exists r, O. split; [|reflexivity]. cbn. f_equal. lia.
      * intros (d & [|n] & H & ->); cbn in H; injection H as H1 H2; [subst; reflexivity|lia].
    + destruct (c =? 0) eqn:E0.
      * rewrite IH. split.
        -- intros (d & n & -> & ->). exists d, (S n). split; [|reflexivity]. cbn. f_equal. lia.
        -- intros (d & [|n] & H & ->); cbn in H; injection H as H1 H2; [lia|].
           exists d, n. split; [exact H2|reflexivity].
      * split; [discriminate|].
        intros (d & [|n] & H & ->); cbn in H; injection H as H1 H2; lia.
Qed.

Lemma rev_repeat {A} (x : A) n : rev (repeat x n) = repeat x n.
Proof.
  induction n as [|n IH]; [reflexivity|]. cbn [repeat rev]. rewrite IH.
  change [x] with (repeat x 1). rewrite <- repeat_app, Nat.add_1_r. reflexivity.
Qed.

Lemma zeros_unpad_spec blk v :
  zeros_unpad blk = Some v <-> (exists data, zeros_padded blk data /\ v = zlen data).
Proof.
  unfold zeros_unpad, zeros_padded. rewrite zeros_unpad_rev_spec. split.
  - intros (d & n & H & ->). exists (rev d). split; [|rewrite zlen_rev; reflexivity].
    exists n. rewrite <- (rev_involutive blk), H, rev_app_distr. cbn [rev].
    rewrite rev_repeat, <- app_assoc. reflexivity.
  - intros (d & (n & ->) & ->). exists (rev d), n. split; [|rewrite zlen_rev; reflexivity].
    rewrite rev_app_distr. cbn [rev]. rewrite rev_repeat, <- app_assoc. reflexivity.
Qed.

(* ---- the model ---- *)

Lemma splice_to_end (buf l : bytes) u : 0 <= u -> u + zlen l = zlen buf ->
  splice buf u l = sub buf 0 u ++ l.
Proof.
  intros H1 H2. unfold splice, sub. cbn [skipn Z.to_nat].
  rewrite skipn_all2 by (unfold zlen in *; lia). rewrite app_nil_r. reflexivity.
Qed.

Lemma length_pad_ok bs buf used : zlen buf = bs -> 0 <= used < bs ->
  match length_pad bs used with
  | Some l => pad padding_length buf used = Ret (sub buf 0 used ++ l) /\ used + zlen l = bs /\ bytes_ok l
  | None => pad padding_length buf used = Raise Assert_failure
  end.
Proof.
  intros Hl Hu. unfold length_pad. cbn [padding_length pad]. rewrite Hl.
  replace ((bs - used >? 0) && (bs - used <? 256)) with ((0 <? bs - used) && (bs - used <? 256)) by lia.
  destruct ((0 <? bs - used) && (bs - used <? 256)) eqn:E; [|reflexivity].
  unfold bytes_fill. replace (in_range buf used (bs - used)) with true
    by (symmetry; apply in_range_true; lia).
  assert (Hz : zlen (repeat (bs - used) (Z.to_nat (bs - used))) = bs - used)
    by (rewrite zlen_repeat; lia).
  split; [rewrite splice_to_end by lia; reflexivity|]. split; [lia|].
  apply Forall_forall. intros x Hx. apply repeat_spec in Hx. unfold byte_ok. lia.
Qed.

Lemma bytes_get_ok l i : 0 <= i < zlen l -> bytes_get l i = Ret (nthZ l i).
Proof.
  intros H. unfold bytes_get. replace ((0 <=? i) && (i <? zlen l)) with true by lia. reflexivity.
Qed.

Lemma sub_cons (l : bytes) i n : 0 <= i < zlen l -> 0 <= n ->
  sub l i (1 + n) = nthZ l i :: sub l (i + 1) n.
Proof.
  intros H Hn. rewrite sub_app_split by lia.
  assert (sub l i 1 = [nthZ l i]) as ->; [|reflexivity].
  unfold sub, nthZ, zlen in *. change (Z.to_nat 1) with 1%nat.
  rewrite <- (firstn_skipn (Z.to_nat i) l) at 2.
  rewrite app_nth2 by (rewrite firstn_length; lia).
  rewrite firstn_length, Nat.min_l, Nat.sub_diag by lia.
  destruct (skipn (Z.to_nat i) l) eqn:E; [|reflexivity].
  exfalso. assert (L : length (skipn (Z.to_nat i) l) = (length l - Z.to_nat i)%nat) by apply skipn_length.
  rewrite E in L. cbn in L. lia.
Qed.

Lemma length_check_ok cnt : forall buf i n, 0 <= i -> i + Z.of_nat cnt <= zlen buf ->
  length_check cnt buf i n =
  if forallb (fun x => x =? n) (sub buf i (Z.of_nat cnt)) then Ret tt else Raise (Error Bad_padding).
Proof.
  induction cnt as [|cnt IH]; intros buf i n Hi Hle; [reflexivity|].
  cbn [length_check]. rewrite bytes_get_ok by lia.
  replace (Z.of_nat (S cnt)) with (1 + Z.of_nat cnt) by lia.
  rewrite sub_cons by lia. cbn [forallb].
  destruct (nthZ buf i =? n); cbn [andb]; [|reflexivity].
  apply IH; lia.
Qed.

Lemma last_nth {A} (l : list A) d : last l d = nth (length l - 1) l d.
Proof.
  induction l as [|x l IH]; [reflexivity|]. destruct l as [|y l]; [reflexivity|].
  change (last (x :: y :: l) d) with (last (y :: l) d). rewrite IH. cbn [length].
  replace (S (S (length l)) - 1)%nat with (S (S (length l) - 1)) by lia. reflexivity.
Qed.

Lemma nthZ_last l : 0 < zlen l -> nthZ l (zlen l - 1) = last l 0.
Proof.
  intros H. rewrite last_nth. unfold nthZ, zlen in *. f_equal. lia.
Qed.

Lemma nthZ_byte l i : bytes_ok l -> byte_ok (nthZ l i).
Proof.
  intros H. unfold nthZ. destruct (lt_dec (Z.to_nat i) (length l)) as [L|L].
  - apply (proj1 (Forall_forall _ _) H). apply nth_In. exact L.
  - rewrite nth_overflow by lia. unfold byte_ok. lia.
Qed.

Lemma sub_snoc (l : bytes) i n : 0 <= i -> 0 <= n -> i + n < zlen l ->
  sub l i (n + 1) = sub l i n ++ [nthZ l (i + n)].
Proof.
  intros H Hn Hl. rewrite sub_app_split by lia. f_equal.
  change 1 with (1 + 0). rewrite sub_cons by lia. reflexivity.
Qed.

Lemma length_strip_ok buf : 0 < zlen buf -> bytes_ok buf ->
  match length_unpad buf with
  | Some v => strip padding_length buf = Ret v /\ 0 <= v <= zlen buf
  | None => strip padding_length buf = Raise (Error Bad_padding)
  end.
Proof.
  intros Hl Hok. unfold length_unpad. cbn [padding_length strip].
  rewrite bytes_get_ok by lia. cbn [obind].
  pose proof (nthZ_byte buf (zlen buf - 1) Hok) as Hb. unfold byte_ok in Hb.
  assert (Elast := nthZ_last buf Hl). rewrite <- Elast.
  set (n := nthZ buf (zlen buf - 1)) in *.
  destruct ((n =? 0) || (n >? zlen buf)) eqn:E.
  - replace ((0 <? n) && (n <=? zlen buf)) with false by lia. reflexivity.
  - rewrite length_check_ok by lia.
    replace ((0 <? n) && (n <=? zlen buf)) with true by lia. cbn [andb].
    rewrite Z2Nat.id by lia.
    assert (Esn : sub buf (zlen buf - n) n = sub buf (zlen buf - n) (n - 1) ++ [nthZ buf (zlen buf - n + (n - 1))]).
    { rewrite <- sub_snoc by lia. f_equal. lia. }
    rewrite Esn. rewrite forallb_app. cbn [forallb].
    replace (zlen buf - n + (n - 1)) with (zlen buf - 1) by lia.
    fold n. rewrite Z.eqb_refl. rewrite !andb_true_r.
    destruct (forallb _ (sub buf (zlen buf - n) (n - 1))); cbn [obind]; [|reflexivity].
    split; [reflexivity|lia].
Qed.

Lemma zero_loop_ok cnt : forall buf i, 0 <= i -> i + Z.of_nat cnt <= zlen buf ->
  zero_loop cnt buf i = Ret (splice buf i (repeat 0 cnt)).
Proof.
  induction cnt as [|cnt IH]; intros buf i Hi Hle; cbn [zero_loop repeat].
  - rewrite splice_nil. reflexivity.
  - unfold bytes_set. replace ((0 <=? i) && (i <? zlen buf)) with true by lia. cbn [obind].
    rewrite IH by (rewrite ?zlen_splice; rewrite ?zlen_one; lia).
    f_equal. rewrite <- (zlen_one 0) at 1.
    rewrite splice_splice_app; [reflexivity|lia|]. rewrite zlen_one, zlen_repeat. lia.
Qed.

Lemma zeros_pad_ok bs buf used : zlen buf = bs -> 0 <= used < bs ->
  match zeros_pad bs used with
  | Some l => pad padding_8000 buf used = Ret (sub buf 0 used ++ l) /\ used + zlen l = bs /\ bytes_ok l
  | None => pad padding_8000 buf used = Raise Assert_failure
  end.
Proof.
  intros Hl Hu. unfold zeros_pad. cbn [padding_8000 pad].
  unfold bytes_set. replace ((0 <=? used) && (used <? zlen buf)) with true by lia. cbn [obind].
  assert (Hs : zlen (splice buf used [128]) = bs) by (rewrite zlen_splice; rewrite ?zlen_one; lia).
  rewrite Hs. rewrite zero_loop_ok by lia.
  replace (used + 1) with (used + zlen [128]) by (rewrite zlen_one; lia).
  rewrite splice_splice_app; [|lia|rewrite zlen_one, zlen_repeat; lia].
  assert (E : [128] ++ repeat 0 (Z.to_nat (bs - (used + zlen [128]))) = 128 :: zeros (bs - used - 1)).
  { cbn [app]. unfold zeros. do 3 f_equal. rewrite zlen_one. lia. }
  rewrite E.
  assert (Hz : zlen (128 :: zeros (bs - used - 1)) = bs - used).
  { rewrite zlen_cons, zlen_zeros; lia. }
  split; [rewrite splice_to_end by lia; reflexivity|]. split; [lia|].
  constructor; [unfold byte_ok; lia|apply bytes_ok_zeros].
Qed.

Lemma zeros_unpad_rev_snoc fuel : forall buf pos, -1 <= pos < zlen buf -> (Z.to_nat (pos + 1) < fuel)%nat ->
  strip_loop fuel buf pos =
  match zeros_unpad_rev (rev (sub buf 0 (pos + 1))) with
  | Some v => Ret v | None => Raise (Error Bad_padding) end.
Proof.
  induction fuel as [|fuel IH]; intros buf pos Hp Hf; [lia|].
  cbn [strip_loop]. destruct (pos <? 0) eqn:E.
  { replace pos with (-1) by lia. reflexivity. }
  rewrite bytes_get_ok by lia. cbn [obind].
  rewrite sub_snoc by lia. rewrite rev_app_distr. cbn [rev app zeros_unpad_rev].
  rewrite Z.add_0_l.
  destruct (nthZ buf pos =? 128). { rewrite zlen_rev, zlen_sub by lia. reflexivity. }
  destruct (nthZ buf pos =? 0); [|reflexivity].
  rewrite IH by lia. replace (pos - 1 + 1) with pos by lia. reflexivity.
Qed.

Lemma zeros_strip_ok buf :
  match zeros_unpad buf with
  | Some v => strip padding_8000 buf = Ret v /\ 0 <= v <= zlen buf
  | None => strip padding_8000 buf = Raise (Error Bad_padding)
  end.
Proof.
  cbn [padding_8000 strip].
  pose proof (zlen_nonneg buf).
  rewrite zeros_unpad_rev_snoc by (unfold zlen in *; lia).
  rewrite sub_0_all by lia. fold (zeros_unpad buf).
  destruct (zeros_unpad buf) as [v|] eqn:E; [|reflexivity].
  apply zeros_unpad_spec in E. destruct E as (d & (n & ->) & ->).
  split; [reflexivity|]. rewrite zlen_app. pose proof (zlen_nonneg d).
  pose proof (zlen_nonneg (128 :: repeat 0 n)). lia.
Qed.

(* pad then strip *)
Lemma length_roundtrip bs data l : zlen data < bs -> length_pad bs (zlen data) = Some l ->
  length_unpad (data ++ l) = Some (zlen data).
Proof.
  intros H E. unfold length_pad in E.
  destruct ((0 <? bs - zlen data) && (bs - zlen data <? 256)) eqn:B; [|discriminate].
  injection E as <-. apply length_unpad_spec. exists data. split; [|reflexivity].
  exists (Z.to_nat (bs - zlen data)). split; [lia|]. rewrite Z2Nat.id by lia. reflexivity.
Qed.

Lemma zeros_roundtrip bs data l : zeros_pad bs (zlen data) = Some l ->
  zeros_unpad (data ++ l) = Some (zlen data).
Proof.
  unfold zeros_pad. intros E. injection E as <-. apply zeros_unpad_spec.
  exists data. split; [|reflexivity]. exists (Z.to_nat (bs - zlen data - 1)). reflexivity.
Qed.
