(* Whole-message behaviour of the block transducers: running the block
   function over the message cut in blocks. *)
From Verif Require Import Prelude PreludeFacts SpecTransducer SpecBlock Transform BlockCipher.
Ltac Zify.zify_post_hook ::= Z.div_mod_to_equations.

(* ---- chunks ---- *)
Lemma chunks_fuel_enough n l : (0 < n)%nat -> forall f1 f2, (length l <= f1)%nat -> (length l <= f2)%nat ->
  chunks_fuel f1 n l = chunks_fuel f2 n l.
Proof.
  intros Hn. intros f1. revert l. induction f1 as [|f1 IH]; intros l f2 H1 H2.
  - destruct l; [|cbn in H1; lia]. destruct f2; reflexivity.
  - destruct l as [|x l]; [destruct f2; reflexivity|].
    destruct f2 as [|f2]; [cbn in H2; lia|]. cbn [chunks_fuel]. f_equal.
    apply IH; rewrite skipn_length; cbn [length] in *; lia.
Qed.

Lemma chunks_nil n : chunks n [] = [].
Proof. reflexivity. Qed.

Lemma chunks_cons n b l : 0 < n -> zlen b = n -> chunks n (b ++ l) = b :: chunks n l.
Proof.
  intros Hn Hb. unfold chunks. destruct b as [|x b]; [change (zlen (@nil Z)) with 0 in Hb; lia|].
  cbn [app length chunks_fuel]. unfold zlen in Hb. cbn [length] in Hb.
  change (x :: b ++ l) with ((x :: b) ++ l).
  rewrite firstn_app, skipn_app.
  replace (Z.to_nat n - length (x :: b))%nat with O by (cbn [length]; lia).
  rewrite firstn_all2 by (cbn [length]; lia). rewrite skipn_all2 by (cbn [length]; lia).
  cbn [firstn skipn app]. rewrite app_nil_r. f_equal.
  apply chunks_fuel_enough; rewrite ?app_length; lia.
Qed.

Lemma chunks_concat n blks tail : 0 < n -> Forall (fun b => zlen b = n) blks ->
  chunks n (concat blks ++ tail) = blks ++ chunks n tail.
Proof.
  intros Hn. induction 1 as [|b blks Hb Hbl IH]; [reflexivity|].
  cbn [concat app]. rewrite <- app_assoc, chunks_cons by assumption. rewrite IH. reflexivity.
Qed.

Lemma chunks_concat0 n blks : 0 < n -> Forall (fun b => zlen b = n) blks ->
  chunks n (concat blks) = blks.
Proof.
  intros Hn H. rewrite <- (app_nil_r (concat blks)), chunks_concat by assumption.
  rewrite chunks_nil, app_nil_r. reflexivity.
Qed.

Lemma chunks_short n l : 0 < zlen l <= n -> chunks n l = [l].
Proof.
  intros H. unfold chunks. destruct l as [|x l]; [change (zlen (@nil Z)) with 0 in H; lia|].
  unfold zlen in H. cbn [length] in *. cbn [chunks_fuel].
  rewrite firstn_all2 by (cbn [length]; lia). rewrite skipn_all2 by (cbn [length]; lia).
  destruct (length l); reflexivity.
Qed.

(* every message is full blocks and a shorter tail *)
Lemma split_blocks n l : 0 < n -> exists blks tail,
  l = concat blks ++ tail /\ Forall (fun b => zlen b = n) blks /\ zlen tail < n /\
  zlen tail = zlen l mod n /\ (bytes_ok l -> Forall bytes_ok blks /\ bytes_ok tail).
Proof.
  intros Hn.
  assert (H : forall k l, (length l <= k)%nat -> exists blks tail,
    l = concat blks ++ tail /\ Forall (fun b => zlen b = n) blks /\ zlen tail < n /\
    zlen tail = zlen l mod n /\ (bytes_ok l -> Forall bytes_ok blks /\ bytes_ok tail)).
  2:{ apply (H (length l)). lia. }
  induction k as [|k IH]; intros l' Hl.
  - exists [], []. destruct l'; [|cbn in Hl; lia]. change (zlen (@nil Z)) with 0.
    repeat split; try constructor; try lia.
  - destruct (Z_lt_le_dec (zlen l') n) as [Hlt|Hge].
    + exists [], l'. pose proof (zlen_nonneg l'). repeat split; try constructor; try assumption.
      symmetry. apply Z.mod_small. lia.
    + destruct (IH (skipn (Z.to_nat n) l')) as (blks & tail & E & Hb & Ht & Hm & Hok).
      { rewrite skipn_length. unfold zlen in *. lia. }
      exists (firstn (Z.to_nat n) l' :: blks), tail. cbn [concat].
      split; [rewrite <- app_assoc, <- E; symmetry; apply firstn_skipn|].
      split. { constructor; [|exact Hb]. unfold zlen in *. rewrite firstn_length. lia. }
      split; [exact Ht|]. split.
      * rewrite Hm. replace (zlen (skipn (Z.to_nat n) l')) with (zlen l' + (-1) * n).
        { apply Z_mod_plus_full. }
        unfold zlen in *. rewrite skipn_length. lia.
      * intros Hl'. destruct (Hok ltac:(apply Forall_skipn; exact Hl')) as (O1 & O2).
        split; [constructor; [apply Forall_firstn; exact Hl'|exact O1]|exact O2].
Qed.

Lemma zlen_concat n (blks : list bytes) : Forall (fun b => zlen b = n) blks ->
  zlen (concat blks) = n * zlen blks.
Proof.
  induction 1 as [|b blks Hb H IH]; [unfold zlen; cbn; lia|].
  cbn [concat]. rewrite zlen_app, zlen_cons. lia.
Qed.

Section Total.
Variables (bs : Z) (f : blockfn).
Hypothesis bs_pos : 0 < bs.

Lemma bf_run_app a b : forall sg,
  bf_run f sg (a ++ b) =
  match bf_run f sg a with
  | (sg', Some os) => match bf_run f sg' b with
                      | (sg'', Some os') => (sg'', Some (os ++ os'))
                      | (sg'', None) => (sg'', None) end
  | (sg', None) => (sg', None)
  end.
Proof.
  induction a as [|x a IH]; intros sg; cbn [app bf_run].
  - destruct (bf_run f sg b) as [s [o|]]; reflexivity.
  - destruct (bf_step f sg x) as [s [o|]]; [|reflexivity]. rewrite IH.
    destruct (bf_run f s a) as [s1 [o1|]]; [|reflexivity].
    destruct (bf_run f s1 b) as [s2 [o2|]]; reflexivity.
Qed.

Lemma run_blocks fin blks : forall sg tail, Forall (fun b => zlen b = bs) blks ->
  (blks = [] \/ 0 < zlen tail) -> zlen tail <= bs ->
  match bf_run f sg blks with
  | (sg', Some os) => m_run (block_mealy bs f fin) (sg, []) (concat blks ++ tail)
                      = ((sg', tail), concat os, None)
  | (_, None) => r_exn (m_run (block_mealy bs f fin) (sg, []) (concat blks ++ tail))
                 = Some (Error Message_too_long)
  end.
Proof.
  induction blks as [|b blks IH]; intros sg tail Hb Hne Ht; cbn [bf_run concat].
  - cbn [app]. rewrite bm_run_acc by (change (zlen (@nil Z)) with 0; lia). reflexivity.
  - apply Forall_cons_iff in Hb. destruct Hb as (Hb1 & Hb2). destruct Hne as [|Hne]; [discriminate|].
    rewrite <- app_assoc, m_run_app. rewrite bm_run_acc by (change (zlen (@nil Z)) with 0; lia).
    cbn [m_then app].
    destruct (concat blks ++ tail) as [|c l] eqn:El.
    { exfalso. apply app_eq_nil in El. destruct El as (_ & ->). change (zlen (@nil Z)) with 0 in Hne. lia. }
    rewrite bm_run_full by (exact bs_pos || exact Hb1).
    specialize (fun sg => IH sg tail Hb2 (or_intror Hne) Ht). rewrite El in IH.
    destruct (bf_step f sg b) as [sg' [o|]]; [|reflexivity].
    specialize (IH sg').
    destruct (bf_run f sg' blks) as [sg'' [os|]].
    + rewrite IH. reflexivity.
    + destruct (m_run (block_mealy bs f fin) (sg', []) (c :: l)) as [[x y] z]. exact IH.
Qed.

(* a list of full blocks is empty or ends with a full block *)
Lemma last_block (blks : list bytes) : Forall (fun b => zlen b = bs) blks ->
  blks = [] \/ exists bl b, blks = bl ++ [b] /\ Forall (fun b => zlen b = bs) bl /\ zlen b = bs.
Proof.
  intros H.
  destruct blks as [|x l]; [left; reflexivity|right].
  destruct (@exists_last _ (x :: l)) as (bl & b & E); [discriminate|].
  rewrite E in H. apply Forall_app in H. destruct H as (H1 & H2). apply Forall_cons_iff in H2. destruct H2 as (H2 & _).
  exists bl, b. auto.
Qed.

(* no padding, whole number of blocks *)
Lemma plain_total sg blks : Forall (fun b => zlen b = bs) blks ->
  match bf_run f sg blks with
  | (sg', Some os) => m_total (plain_mealy bs f) (sg, []) (concat blks) = ((sg', []), concat os, None)
  | (_, None) => r_exn (m_total (plain_mealy bs f) (sg, []) (concat blks)) = Some (Error Message_too_long)
  end.
Proof.
  intros H. destruct (last_block blks H) as [->|(bl & b & -> & H1 & H2)]; [reflexivity|].
  rewrite bf_run_app. pose proof (run_blocks (block_flush bs f) bl sg b H1 ltac:(right; lia) ltac:(lia)) as R.
  rewrite concat_app. cbn [concat]. rewrite app_nil_r. unfold m_total, plain_mealy.
  destruct (bf_run f sg bl) as [sg' [os|]].
  - rewrite R. cbn [m_then block_mealy m_finish bf_run]. unfold block_flush, emit_block.
    replace (zlen b =? 0) with false by lia. replace (zlen b =? bs) with true by lia.
    destruct (bf_step f sg' b) as [sg'' [o|]]; [|reflexivity].
    cbn [m_then]. rewrite concat_app. cbn [concat]. rewrite app_nil_r. reflexivity.
  - destruct (m_run (block_mealy bs f (block_flush bs f)) (sg, []) (concat bl ++ b)) as [[x y] [z|]];
      unfold r_exn in *; cbn [snd] in R; [injection R as ->; reflexivity|discriminate].
Qed.

(* no padding, incomplete last block *)
Lemma plain_total_bad sg blks tail : Forall (fun b => zlen b = bs) blks -> 0 < zlen tail < bs ->
  r_exn (m_total (plain_mealy bs f) (sg, []) (concat blks ++ tail))
  = Some (Error (match snd (bf_run f sg blks) with Some _ => Wrong_data_length | None => Message_too_long end)).
Proof.
  intros H Ht. pose proof (run_blocks (block_flush bs f) blks sg tail H ltac:(right; lia) ltac:(lia)) as R.
  unfold m_total, plain_mealy. destruct (bf_run f sg blks) as [sg' [os|]]; cbn [snd].
  - rewrite R. cbn [m_then block_mealy m_finish]. unfold block_flush.
    replace (zlen tail =? 0) with false by lia. replace (zlen tail =? bs) with false by lia. reflexivity.
  - destruct (m_run (block_mealy bs f (block_flush bs f)) (sg, []) (concat blks ++ tail)) as [[x y] [z|]];
      unfold r_exn in *; cbn [snd] in R; [injection R as ->; reflexivity|discriminate].
Qed.

(* padding on encryption *)
Lemma padenc_total padfn sg blks tail l : Forall (fun b => zlen b = bs) blks -> zlen tail < bs ->
  padfn (zlen tail) = Some l ->
  match bf_run f sg (blks ++ [tail ++ l]) with
  | (sg', Some os) =>
      r_exn (m_total (block_mealy bs f (padenc_fin bs padfn f)) (sg, []) (concat blks ++ tail)) = None /\
      r_out (m_total (block_mealy bs f (padenc_fin bs padfn f)) (sg, []) (concat blks ++ tail)) = concat os
  | (_, None) => r_exn (m_total (block_mealy bs f (padenc_fin bs padfn f)) (sg, []) (concat blks ++ tail))
                 = Some (Error Message_too_long)
  end.
Proof.
  intros H Ht Hp. unfold m_total.
  assert (Fin : forall sg0 sg1 pend o, m_run (block_mealy bs f (padenc_fin bs padfn f)) (sg0, []) (concat blks ++ tail) = ((sg1, pend), o, None) ->
    forall r, m_finish (block_mealy bs f (padenc_fin bs padfn f)) (sg1, pend) = r ->
    m_then (m_run (block_mealy bs f (padenc_fin bs padfn f)) (sg0, []) (concat blks ++ tail))
      (m_finish (block_mealy bs f (padenc_fin bs padfn f))) (fun s => s)
     = (r_st r, o ++ r_out r, r_exn r)).
  { intros sg0 sg1 pend o E r <-. rewrite E. unfold m_then.
    destruct (m_finish (block_mealy bs f (padenc_fin bs padfn f)) (sg1, pend)) as [[a b] c]. reflexivity. }
  rewrite bf_run_app. cbn [bf_run].
  destruct (Z.eq_dec (zlen tail) 0) as [E0|E0].
  - apply zlen_0 in E0. subst tail. rewrite app_nil_r in *. cbn [app].
    change (zlen (@nil Z)) with 0 in *.
    destruct (last_block blks H) as [->|(bl & b & -> & H1 & H2)].
    + cbn [bf_run concat m_run m_then block_mealy m_finish]. unfold padenc_fin.
      change (zlen (@nil Z)) with 0. replace (0 >=? bs) with false by lia.
      change (zlen (@nil Z)) with 0. rewrite Hp. unfold emit_block. cbn [app].
      destruct (bf_step f sg l) as [sg'' [o|]]; [|reflexivity].
      unfold r_exn, r_out. cbn. split; [reflexivity|]. rewrite app_nil_r. reflexivity.
    + rewrite bf_run_app. cbn [bf_run].
      pose proof (run_blocks (padenc_fin bs padfn f) bl sg b H1 ltac:(right; lia) ltac:(lia)) as R.
      rewrite concat_app in *. cbn [concat] in *. rewrite app_nil_r in *.
      destruct (bf_run f sg bl) as [sg' [os|]].
      * rewrite (Fin _ _ _ _ R _ eq_refl). cbn [block_mealy m_finish]. unfold padenc_fin.
        replace (zlen b >=? bs) with true by lia. unfold emit_block.
        destruct (bf_step f sg' b) as [sg1 [o1|]]; [|reflexivity].
        change (zlen (@nil Z)) with 0. rewrite Hp. cbn [app].
        destruct (bf_step f sg1 l) as [sg2 [o2|]]; [|reflexivity].
        unfold r_exn, r_out. cbn [fst snd]. split; [reflexivity|].
        rewrite !concat_app. cbn [concat]. rewrite !app_nil_r, <- app_assoc. reflexivity.
      * clear Fin.
        destruct (m_run (block_mealy bs f (padenc_fin bs padfn f)) (sg, []) (concat bl ++ b)) as [[x y] [z|]];
          unfold r_exn in *; cbn [snd] in R; [injection R as ->; reflexivity|discriminate].
  - pose proof (zlen_nonneg tail).
    pose proof (run_blocks (padenc_fin bs padfn f) blks sg tail H ltac:(right; lia) ltac:(lia)) as R.
    destruct (bf_run f sg blks) as [sg' [os|]].
    + rewrite (Fin _ _ _ _ R _ eq_refl). cbn [block_mealy m_finish]. unfold padenc_fin.
      replace (zlen tail >=? bs) with false by lia. rewrite Hp. unfold emit_block.
      destruct (bf_step f sg' (tail ++ l)) as [sg2 [o2|]]; [|reflexivity].
      unfold r_exn, r_out. cbn [fst snd]. split; [reflexivity|].
      rewrite concat_app. cbn [concat app]. rewrite !app_nil_r. reflexivity.
    + clear Fin.
      destruct (m_run (block_mealy bs f (padenc_fin bs padfn f)) (sg, []) (concat blks ++ tail)) as [[x y] [z|]];
          unfold r_exn in *; cbn [snd] in R; [injection R as ->; reflexivity|discriminate].
Qed.

(* padding on decryption *)
Lemma paddec_total unpadfn sg sg' bl b os o : Forall (fun b => zlen b = bs) bl -> zlen b = bs ->
  bf_run f sg (bl ++ [b]) = (sg', Some (os ++ [o])) ->
  let M := block_mealy bs f (paddec_fin bs unpadfn f) in
  match unpadfn o with
  | Some v => r_exn (m_total M (sg, []) (concat (bl ++ [b]))) = None /\
              r_out (m_total M (sg, []) (concat (bl ++ [b]))) = concat os ++ sub o 0 v
  | None => r_exn (m_total M (sg, []) (concat (bl ++ [b]))) = Some (Error Bad_padding)
  end.
Proof.
  intros H1 H2 Hr M. unfold m_total. rewrite bf_run_app in Hr. cbn [bf_run] in Hr.
  pose proof (run_blocks (paddec_fin bs unpadfn f) bl sg b H1 ltac:(right; lia) ltac:(lia)) as R.
  fold M in R. rewrite concat_app. cbn [concat]. rewrite app_nil_r.
  destruct (bf_run f sg bl) as [sg1 [os1|]]; [|discriminate].
  destruct (bf_step f sg1 b) as [sg2 [o2|]] eqn:E; [|discriminate].
  injection Hr as <- Hr. apply app_inj_tail in Hr. destruct Hr as (-> & ->).
  rewrite R. unfold m_then. cbn [M block_mealy m_finish]. unfold paddec_fin, emit_block.
  replace (zlen b =? bs) with true by lia. cbn [negb]. rewrite E.
  destruct (unpadfn o); [|reflexivity]. split; reflexivity.
Qed.

Lemma paddec_total_bad unpadfn sg blks tail : Forall (fun b => zlen b = bs) blks ->
  zlen tail < bs -> (0 < zlen tail \/ blks = []) ->
  r_exn (m_total (block_mealy bs f (paddec_fin bs unpadfn f)) (sg, []) (concat blks ++ tail))
  = Some (Error (match snd (bf_run f sg blks) with Some _ => Wrong_data_length | None => Message_too_long end)).
Proof.
  intros H Ht Hne.
  pose proof (run_blocks (paddec_fin bs unpadfn f) blks sg tail H ltac:(tauto) ltac:(lia)) as R.
  unfold m_total. destruct (bf_run f sg blks) as [sg' [os|]]; cbn [snd].
  - rewrite R. cbn [m_then block_mealy m_finish]. unfold paddec_fin.
    replace (zlen tail =? bs) with false by lia. reflexivity.
  - destruct (m_run (block_mealy bs f (paddec_fin bs unpadfn f)) (sg, []) (concat blks ++ tail)) as [[x y] [z|]];
      unfold r_exn in *; cbn [snd] in R; [injection R as ->; reflexivity|discriminate].
Qed.

(* sizes, for the capacity conditions *)
Lemma bf_run_sizes sg blks os :
  (forall s b o s', zlen b = bs -> bf_step f s b = (s', Some o) -> zlen o = bs) ->
  Forall (fun b => zlen b = bs) blks -> snd (bf_run f sg blks) = Some os ->
  Forall (fun b => zlen b = bs) os /\ length os = length blks.
Proof.
  intros Hs. revert sg os. induction blks as [|b blks IH]; intros sg os H E; cbn [bf_run] in E.
  - injection E as <-. split; constructor.
  - apply Forall_cons_iff in H. destruct H as (Hb1 & Hb2). destruct (bf_step f sg b) as [s' [o|]] eqn:Es; [|discriminate].
    destruct (bf_run f s' blks) as [s'' [os'|]] eqn:Er; [|discriminate].
    injection E as <-. destruct (IH s' os') as (I1 & I2); [assumption|rewrite Er; reflexivity|].
    split; [constructor; [eapply Hs; eassumption|exact I1]|cbn [length]; lia].
Qed.
End Total.

(* a run of the inverse block function gives back the blocks *)
Lemma bf_run_inverse f g (Rel : bf_st f -> bf_st g -> Prop) (ok : bytes -> Prop) :
  (forall s s' b c t, Rel s t -> ok b -> bf_step f s b = (s', Some c) ->
     exists t', bf_step g t c = (t', Some b) /\ Rel s' t') ->
  forall blks s t s' cs, Rel s t -> Forall ok blks -> bf_run f s blks = (s', Some cs) ->
  exists t', bf_run g t cs = (t', Some blks) /\ Rel s' t'.
Proof.
  intros Hstep. induction blks as [|b blks IH]; intros s t s' cs HR Hok E; cbn [bf_run] in E.
  - injection E as <- <-. exists t. split; [reflexivity|exact HR].
  - inversion Hok; subst. destruct (bf_step f s b) as [s1 [c|]] eqn:Es; [|discriminate].
    destruct (bf_run f s1 blks) as [s2 [cs'|]] eqn:Er; [|discriminate].
    injection E as <- <-. destruct (Hstep _ _ _ _ _ HR H1 Es) as (t1 & Ht & HR1).
    destruct (IH _ _ _ _ HR1 H2 Er) as (t2 & Ht2 & HR2).
    exists t2. cbn [bf_run]. rewrite Ht, Ht2. split; [reflexivity|exact HR2].
Qed.
