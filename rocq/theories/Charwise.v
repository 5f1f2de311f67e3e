(* The encodings and the stream cipher wrapper implement their transducers. *)
From Verif Require Import Prelude PreludeFacts BufOutModel BufOut SpecTransducer SpecEnc
  TransformModel Transform EncModel.
Ltac Zify.zify_post_hook ::= Z.div_mod_to_equations.

Section Charwise.
Variables (X : Type)
  (put_char put_byte : X * bo -> Z -> (X * bo) * out unit)
  (flush finish : X * bo -> (X * bo) * out unit)
  (wipe : X -> X) (M : mealy) (rel : X -> m_st M -> Prop).

Definition cwR (s : X * bo) (sg : m_st M) (q : bytes) : Prop :=
  rel (fst s) sg /\ bo_inv (snd s) /\ bo_contents (snd s) = q /\ bytes_ok q.

Definition room (q : bytes) (r : m_st M * bytes * option exn) : Prop :=
  zlen q + zlen (r_out r) <= max_string_length.

Hypothesis Hput : forall s sg q c, cwR s sg q -> byte_ok c -> room q (m_byte M sg c) ->
  matches true cwR q (m_byte M sg c) (put_char s c).
Hypothesis Hputb : forall s sg q c, cwR s sg q -> byte_ok c -> room q (m_byte M sg c) ->
  matches true cwR q (m_byte M sg c) (put_byte s c).
Hypothesis Hflush : forall s sg q, cwR s sg q -> room q (m_flush M sg) ->
  matches true cwR q (m_flush M sg) (flush s).
Hypothesis Hfinish : forall s sg q, cwR s sg q -> room q (m_finish M sg) ->
  matches true cwR q (m_finish M sg) (finish s).

Lemma put_iter_ok l : forall s sg q, cwR s sg q -> bytes_ok l -> room q (m_run M sg l) ->
  matches true cwR q (m_run M sg l) (put_iter X put_char s l).
Proof.
  induction l as [|c l IH]; intros s sg q HR Hl Hf.
  - unfold matches, r_exn, r_st, r_out. cbn [m_run put_iter fst snd]. rewrite app_nil_r. auto.
  - apply Forall_cons_iff in Hl. destruct Hl as (Hc & Hl). cbn [put_iter]. unfold room in *.
    pose proof (Hput s sg q c HR Hc) as H. cbn [m_run] in *. unfold room in H.
    destruct (m_byte M sg c) as [[sg1 o1] [e1|]].
    + specialize (H Hf). unfold matches, r_exn in *. cbn [snd] in *. destruct H as (e' & H1 & H2).
      destruct (put_char s c) as [s1 x]. cbn [snd] in H1. subst x. cbn [bind snd]. eauto.
    + specialize (IH (fst (put_char s c)) sg1 (q ++ o1)).
      destruct (m_run M sg1 l) as [[sg2 o2] e2] eqn:E2. unfold matches, r_exn, r_st, r_out in *. cbn [fst snd] in *.
      rewrite zlen_app in Hf. pose proof (zlen_nonneg o2).
      destruct (H ltac:(lia)) as (H1 & H2). destruct (put_char s c) as [s1 x]. cbn [fst snd] in *. subst x. cbn [bind].
      specialize (IH H2 Hl). rewrite zlen_app in IH. specialize (IH ltac:(lia)).
      destruct e2; [exact IH|]. rewrite app_assoc. exact IH.
Qed.

Lemma put_loop_iter n : forall s str i, 0 <= i -> i + Z.of_nat n <= zlen str ->
  put_loop X put_char n s str i = put_iter X put_char s (sub str i (Z.of_nat n)).
Proof.
  induction n as [|n IH]; intros s str i Hi Hn.
  - rewrite sub_0_len. reflexivity.
  - cbn [put_loop]. unfold bytes_get. replace ((0 <=? i) && (i <? zlen str)) with true by lia. cbn [bind].
    replace (Z.of_nat (S n)) with (1 + Z.of_nat n) by lia. rewrite sub_app_split by lia.
    assert (Hs : sub str i 1 = [nthZ str i]).
    { unfold sub, nthZ. replace (Z.to_nat 1) with 1%nat by lia.
      assert (Hn' : (Z.to_nat i < length str)%nat) by (unfold zlen in *; lia).
      clear -Hn'. revert Hn'. generalize (Z.to_nat i) as k, str as l.
      induction k as [|k IHk]; intros [|x l] H; cbn [length] in H; try lia; [reflexivity|].
      cbn [skipn nth]. apply IHk; lia. }
    rewrite Hs. cbn [app put_iter]. destruct (put_char s (nthZ str i)) as [s1 [u|e| |]]; cbn [bind]; try reflexivity.
    apply IH; lia.
Qed.

Theorem charwise_implements :
  implements true (charwise X put_char put_byte flush finish wipe) M (std_fits M 0) cwR.
Proof.
  assert (F1 : forall sg l q, f_put (std_fits M 0) sg l q -> room q (m_run M sg l)).
  { unfold room. cbn [std_fits f_put]. intros; lia. }
  constructor; cbn [charwise t_st t_put_substring t_put_string t_put_char
    t_put_byte t_flush t_finish t_available t_get_string t_get_substring t_get_char t_get_byte t_wipe].
  - intros s sg q b o n HR Hir Hb Hl Hf. apply in_range_true in Hir.
    assert (HM : max_string_length < 2 ^ 57) by (unfold max_string_length; lia).
    rewrite wrap63_id by (unfold is_int; lia).
    rewrite put_loop_iter by lia. replace (Z.of_nat (Z.to_nat (o + n - 1 - o + 1))) with n by lia.
    apply put_iter_ok; auto.
  - intros. apply put_iter_ok; auto.
  - intros s sg q c HR Hc Hf. apply F1 in Hf. rewrite m_run_one in *. auto.
  - intros s sg q c HR Hc Hf. apply F1 in Hf. rewrite m_run_one in *. auto.
  - intros s sg q HR Hf. apply Hflush; [exact HR|]. unfold room. cbn [std_fits f_flush] in Hf. lia.
  - intros s sg q HR Hf. apply Hfinish; [exact HR|]. unfold room. cbn [std_fits f_finish] in Hf. lia.
  - intros s sg q (H1 & H2 & H3 & H4). unfold bo_available. rewrite <- H3, bo_contents_len by exact H2. reflexivity.
  - intros s sg q (H1 & H2 & H3 & H4). destruct (bo_get_string_ok _ H2) as (b' & -> & I1 & I2). rewrite H3.
    eexists; split; [reflexivity|]. repeat split; try assumption; try constructor; apply I1.
  - intros s sg q (H1 & H2 & H3 & H4).
    destruct (bo_get_substring_ok _ H2) as (b' & -> & P1 & P2 & I1 & I2). rewrite H3 in *.
    do 3 eexists; split; [reflexivity|]. split; [exact P1|]. split; [exact P2|]. split; [apply H2|].
    repeat split; try assumption; try constructor; apply I1.
  - intros s sg q (H1 & H2 & H3 & H4). pose proof (bo_get_char_ok _ H2) as Hg. rewrite H3 in Hg. destruct q as [|c q'].
    + rewrite Hg. unfold on_bo. cbn [fst snd]. destruct s; reflexivity.
    + destruct Hg as (b' & -> & I1 & I2). apply Forall_cons_iff in H4. destruct H4.
      eexists; split; [reflexivity|]. repeat split; try assumption; apply I1.
  - intros s sg q (H1 & H2 & H3 & H4). pose proof (bo_get_char_ok _ H2) as Hg. rewrite H3 in Hg. destruct q as [|c q'].
    + rewrite Hg. unfold on_bo. cbn [fst snd]. destruct s; reflexivity.
    + destruct Hg as (b' & -> & I1 & I2). apply Forall_cons_iff in H4. destruct H4.
      eexists; split; [reflexivity|]. repeat split; try assumption; apply I1.
  - intros. eexists; reflexivity.
  - intros s sg q H. apply H.
Qed.
End Charwise.

(* ---- emission of constants ---- *)
Section Emit.
Variable fresh : Z -> bytes.
Hypothesis fresh_len : forall n, 0 <= n -> zlen (fresh n) = n.

Lemma c_sets_ok {X} (x : X) l : forall b k, 0 <= obeg b <= oend b -> 0 <= k ->
  oend b + k + zlen l <= zlen (obuf b) ->
  c_sets (x, b) k (map Ret l) = ((x, BO (splice (obuf b) (oend b + k) l) (obeg b) (oend b)), Ret tt).
Proof.
  induction l as [|c l IH]; intros b k H1 H2 H3.
  - cbn [map c_sets]. rewrite splice_nil. destruct b; reflexivity.
  - rewrite zlen_cons in H3. pose proof (zlen_nonneg l). cbn [map c_sets bind]. unfold c_set. cbn [fst snd].
    rewrite bytes_set_ok by lia. cbn [bind].
    rewrite IH; cbn [obuf obeg oend]; try lia.
    + replace (oend b + (k + 1)) with (oend b + k + zlen [c]) by (rewrite zlen_one; lia).
      rewrite splice_splice_app by (rewrite ?zlen_one; lia). reflexivity.
    + rewrite zlen_splice; rewrite ?zlen_one; lia.
Qed.

(* ensure_capacity n, n bytes written at oend, oend advanced *)
Lemma c_emit {X} b q l : bo_inv b -> bo_contents b = q -> zlen q + zlen l <= max_string_length ->
  exists b1 b2, (forall x : X, c_ensure fresh (x, b) (zlen l) = ((x, b1), Ret tt)) /\
    (forall x : X, c_sets (x, b1) 0 (map Ret l) = ((x, b2), Ret tt)) /\
    (forall x : X, c_adv (x, b2) (zlen l) = (x, BO (obuf b2) (obeg b2) (oend b2 + zlen l))) /\
    bo_inv (BO (obuf b2) (obeg b2) (oend b2 + zlen l)) /\
    bo_contents (BO (obuf b2) (obeg b2) (oend b2 + zlen l)) = q ++ l.
Proof.
  intros Hi <- Hq. pose proof (zlen_nonneg l).
  destruct (ensure_capacity_ok fresh fresh_len b (zlen l) Hi ltac:(lia) Hq) as (b1 & E1 & E2 & E3 & E4).
  exists b1, (BO (splice (obuf b1) (oend b1) l) (obeg b1) (oend b1)).
  pose proof E2 as (P1 & P2 & P3).
  split; [|split; [|split]].
  - intros x. unfold c_ensure, on_bo. cbn [fst snd]. rewrite E1. reflexivity.
  - intros x. rewrite c_sets_ok by lia. rewrite Z.add_0_r. reflexivity.
  - intros x. reflexivity.
  - cbn [obuf obeg oend]. rewrite <- E3. apply bo_append; [exact E2|exact E4|reflexivity].
Qed.
End Emit.
