(* Method flush of the block ciphers. *)
From Verif Require Import Prelude PreludeFacts BytesNum SpecTransducer SpecBlock SpecModes
  SpecModesFacts SpecPadding Padding TransformModel Transform TransformTotal BlockModel BlockCipher BlockTotal BlockFits
  Modes CipherModel CipherSpec CipherFacts CipherApi History SizeFacts WipeHash.
Ltac Zify.zify_post_hook ::= Z.div_mod_to_equations.

(* a call other than finish *)
Definition not_finish (o : op) : bool := match o with Finish => false | _ => true end.
Definition ev_byte (e : event) : bytes := match e with EByte c => [c] | _ => [] end.

Lemma not_finish_events ops : forallb not_finish ops = true -> ~ In EFinish (events ops) /\ flat_map ev_byte (events ops) = fed ops.
Proof.
  induction ops as [|o ops IH]; intros H; [split; [intros []|reflexivity]|]. cbn [forallb] in H. apply andb_true_iff in H. destruct H as (H1 & H2).
  destruct (IH H2) as (I1 & I2). unfold events, fed in *. cbn [flat_map]. rewrite flat_map_app, I2.
  assert (P : forall l, ~ In EFinish (map EByte l) /\ flat_map ev_byte (map EByte l) = l).
  { induction l as [|x l (L1 & L2)]; [split; [intros []|reflexivity]|]. cbn [map In flat_map ev_byte app]. rewrite L2. split; [intros [K|K]; [discriminate|tauto]|reflexivity]. }
  split.
  - intros K. apply in_app_or in K. destruct K as [K|K]; [|tauto]. destruct o; try discriminate H1; try (apply (proj1 (P _)) in K; exact K).
    cbn in K. destruct K as [K|[]]. discriminate.
  - f_equal. destruct o; try discriminate H1; try apply (proj2 (P _)). reflexivity.
Qed.

Section F.
Variables (bs : Z) (f : blockfn) (fin : bf_st f * bytes -> (bf_st f * bytes) * bytes * option exn).
Hypothesis bs_pos : 0 < bs.
Let M := block_mealy bs f fin.

(* state and output with flushes, against state and output without *)
Definition flushed (s1 s2 : bf_st f * bytes) (d : bytes) : Prop :=
  (s1 = s2 /\ d = []) \/
  (exists sg pend sg', s2 = (sg, pend) /\ zlen pend = bs /\ bf_step f sg pend = (sg', Some d) /\ s1 = (sg', [])).

Lemma flushed_run es : ~ In EFinish es -> forall s1 s2 d t1 o1, flushed s1 s2 d -> zlen (snd s2) <= bs -> m_events M s1 es = (t1, o1, None) ->
  exists t2 o2 d', m_run M s2 (flat_map ev_byte es) = (t2, o2, None) /\ flushed t1 t2 d' /\ d ++ o1 = o2 ++ d' /\ zlen (snd t2) <= bs.
Proof.
  induction es as [|e es IH]; intros Hn s1 s2 d t1 o1 HR Hl He.
  - cbn [m_events] in He. injection He as <- <-. exists s2, [], d. cbn [flat_map m_run]. rewrite app_nil_r. auto.
  - cbn [m_events] in He. destruct (m_event M s1 e) as [[u1 q1] [x|]] eqn:E1; [discriminate|].
    destruct (m_events M u1 es) as [[v1 q2] x2] eqn:E2. injection He as <- <- ->.
    assert (Hn' : ~ In EFinish es) by (intros K; apply Hn; right; exact K).
    destruct e as [c| |]; [| |exfalso; apply Hn; left; reflexivity].
    + cbn [m_event M block_mealy m_byte] in E1. cbn [flat_map ev_byte app m_run].
      assert (G : exists u2 p2 d2, m_byte M s2 c = (u2, p2, None) /\ flushed u1 u2 d2 /\ d ++ q1 = p2 ++ d2 /\ zlen (snd u2) <= bs).
      { destruct HR as [(-> & ->)|(sg & pend & sg' & -> & Hp & Hs & ->)].
        - exists u1, q1, []. rewrite app_nil_r. split; [exact E1|]. split; [left; auto|]. split; [reflexivity|].
          destruct s2 as [sg pend]. cbn [block_byte snd] in *. unfold emit_block in E1. destruct (zlen pend =? bs) eqn:Eb.
          + destruct (bf_step f sg pend) as [sg' [o|]]; [|discriminate]. injection E1 as <- <-. cbn [snd]. change (zlen [c]) with 1. lia.
          + injection E1 as <- <-. cbn [snd]. rewrite zlen_app. change (zlen [c]) with 1. lia.
        - cbn [block_byte] in E1. replace (zlen (@nil Z) =? bs) with false in E1 by (change (zlen (@nil Z)) with 0; lia). injection E1 as <- <-.
          exists (sg', [c]), d, []. cbn [M block_mealy m_byte block_byte]. unfold emit_block. rewrite Hp, Z.eqb_refl, Hs.
          split; [reflexivity|]. split; [left; auto|]. split; [reflexivity|]. cbn [snd]. change (zlen [c]) with 1. lia. }
      destruct G as (u2 & p2 & d2 & G1 & G2 & G3 & G4).
      destruct (IH Hn' u1 u2 d2 v1 q2 G2 G4 E2) as (t2 & o2 & d' & R1 & R2 & R3 & R4).
      exists t2, (p2 ++ o2), d'. fold M. rewrite G1, R1. split; [reflexivity|]. split; [exact R2|]. split; [|exact R4].
      rewrite app_assoc, G3, <- app_assoc, R3, app_assoc. reflexivity.
    + cbn [flat_map ev_byte app].
      assert (G : exists d2, flushed u1 s2 d2 /\ d ++ q1 = d2).
      { cbn [m_event M block_mealy m_flush] in E1. destruct HR as [(-> & ->)|(sg & pend & sg' & -> & Hp & Hs & ->)].
        - destruct s2 as [sg pend]. cbn [block_flush] in E1. destruct (zlen pend =? 0) eqn:E0; [injection E1 as <- <-; exists []; split; [left; auto|reflexivity]|].
          destruct (zlen pend =? bs) eqn:Eb; [|discriminate]. unfold emit_block in E1. destruct (bf_step f sg pend) as [sg' [o|]] eqn:Es; [|discriminate].
          injection E1 as <- <-. exists o. split; [|reflexivity]. right. exists sg, pend, sg'. repeat split; [lia|exact Es].
        - cbn [block_flush] in E1. change (zlen (@nil Z) =? 0) with true in E1. cbn iota in E1. injection E1 as <- <-.
          exists d. rewrite app_nil_r. split; [|reflexivity]. right. exists sg, pend, sg'. auto. }
      destruct G as (d2 & G1 & G2).
      destruct (IH Hn' u1 s2 d2 v1 q2 G1 Hl E2) as (t2 & o2 & d' & R1 & R2 & R3 & R4).
      exists t2, o2, d'. split; [exact R1|]. split; [exact R2|]. split; [|exact R4]. rewrite app_assoc, G2. exact R3.
Qed.
End F.

(* the finish methods agree on flushed states, when they succeed *)
Lemma flushed_fin bs f p d s1 s2 q t1 o1 : 0 < bs -> flushed bs f s1 s2 q -> zlen (snd s2) <= bs -> fin_of bs f p d s1 = (t1, o1, None) ->
  exists t2, fin_of bs f p d s2 = (t2, q ++ o1, None).
Proof.
  intros Hbs [(-> & ->)|(sg & pend & sg' & -> & Hp & Hs & ->)] Hl H; [eauto|].
  assert (Hplain : block_flush bs f (sg', []) = (t1, o1, None) -> exists t2, block_flush bs f (sg, pend) = (t2, q ++ o1, None)).
  { cbn [block_flush]. change (zlen (@nil Z) =? 0) with true. cbn iota. intros K. injection K as <- <-.
    replace (zlen pend =? 0) with false by lia. rewrite Hp, Z.eqb_refl. unfold emit_block. rewrite Hs, app_nil_r. eauto. }
  destruct p as [p|]; cbn [fin_of] in *; destruct d; try (apply Hplain, H).
  - unfold padenc_fin in *. replace (zlen (@nil Z) >=? bs) with false in H by (change (zlen (@nil Z)) with 0; lia).
    replace (zlen pend >=? bs) with true by lia. unfold emit_block in *. rewrite Hs.
    destruct (pad_fn p bs (zlen (@nil Z))) as [l|]; [|discriminate]. destruct (bf_step f sg' ([] ++ l)) as [sg2 [o2|]]; [|discriminate].
    injection H as <- <-. cbn [app]. eauto.
  - unfold paddec_fin in H. replace (zlen (@nil Z) =? bs) with false in H by (change (zlen (@nil Z)) with 0; lia). discriminate.
Qed.

Section A.
Variable fresh : Z -> bytes.
Hypothesis fresh_len : forall n, 0 <= n -> zlen (fresh n) = n.
Variables (nb : dir -> bytes -> out bobj) (key : bytes) (bs : Z) (E D : bytes -> bytes) (m : option chaining_mode) (iv : option bytes).
Hypothesis HF : block_family nb key bs E D.
Hypothesis Hm : mode_ok bs (dmode m).
Hypothesis Hiv : iv_ok bs (dmode m) iv.
Let bm := mode_bs bs (dmode m).

Lemma finishes_not ops : forallb not_finish ops = true -> finishes ops = 0.
Proof using.
  clear. intros H. induction ops as [|o ops IH]; [reflexivity|]. cbn [forallb] in H. apply andb_true_iff in H. destruct H as (H1 & H2).
  destruct o; try discriminate H1; exact (IH H2).
Qed.
Lemma fed_bytes ops : Forall op_valid ops -> bytes_ok (fed ops).
Proof using.
  clear. induction 1 as [|o ops Hv _ IH]; [constructor|]. unfold fed in *. cbn [flat_map]. apply bytes_ok_app. split; [|exact IH].
  destruct o; cbn [op_valid op_data] in *; try constructor; try tauto; try apply Hv; try constructor.
  apply bytes_ok_sub. apply Hv.
Qed.
Lemma fed_app a b : fed (a ++ b) = fed a ++ fed b.
Proof using. apply flat_map_app. Qed.
Lemma finishes_app a b : finishes (a ++ b) = finishes a + finishes b.
Proof using. clear. induction a as [|o a IH]; [reflexivity|]. cbn [app]. destruct o; cbn [finishes]; lia. Qed.

(* flushing does not change the result *)
Lemma flush_transparent p d ops o : make_cipher fresh nb m (option_map scheme_of p) iv key d = Ret o -> Forall op_valid ops ->
  forallb not_finish ops = true -> zlen (fed ops) + 3 * bm <= max_string_length ->
  failure (ops ++ [Finish; GetString]) (run_ops o (ops ++ [Finish; GetString])) = None ->
  run_string o (fed ops) = Ret (out_of o ops).
Proof.
  intros Ho Hv Hnf Hsz Hfail. pose proof (bm_pos nb key bs E D m HF Hm) as Hbm. fold bm in Hbm.
  destruct (make_cipher_ok fresh fresh_len nb key bs E D m p iv d HF Hm Hiv) as (o' & Ho' & B). rewrite Ho in Ho'. apply ret_inj in Ho'. subst o'. fold bm in B.
  set (f := mode_fn bs (mode_fun E D (dmode m) d) (dmode m) d) in *. set (sg := mode_st0 bs (mode_fun E D (dmode m) d) (dmode m) d (iv_val bs iv)) in *.
  assert (Hops : run_ops o (ops ++ [Finish; GetString]) = spec_run (block_mealy bm f (fin_of bm f p d)) (sg, []) [] (ops ++ [Finish; GetString])).
  { apply (bh_ops _ _ _ _ _ B); [apply Forall_app; split; [exact Hv|repeat constructor]|]. rewrite fed_app, finishes_app, (finishes_not ops Hnf). cbn [fed flat_map op_data app finishes]. rewrite app_nil_r. lia. }
  rewrite Hops, spec_run_failure in Hfail. unfold events in Hfail. rewrite flat_map_app in Hfail. fold (events ops) in Hfail. cbn [flat_map op_events op_data map app] in Hfail.
  unfold out_of. rewrite Hops. replace (ops ++ [Finish; GetString]) with ((ops ++ [Finish]) ++ [GetString]) by (rewrite <- app_assoc; reflexivity).
  rewrite spec_run_total; unfold events; rewrite flat_map_app; fold (events ops); cbn [flat_map op_events app];
    [|destruct (r_exn _); [discriminate|reflexivity]].
  rewrite m_events_app in Hfail |- *. destruct (not_finish_events ops Hnf) as (Hne & Hfed).
  destruct (m_events _ _ (events ops)) as [[s1 o1] [x|]] eqn:E1; [discriminate|].
  destruct (flushed_run bm f (fin_of bm f p d) Hbm (events ops) Hne (sg, []) (sg, []) [] s1 o1) as (s2 & o2 & q & R1 & R2 & R3 & R4);
    [left; auto|cbn; change (zlen (@nil Z)) with 0; lia|exact E1|]. rewrite Hfed in R1.
  cbn [m_then] in *. rewrite m_events_one in Hfail |- *. cbn [m_event block_mealy m_finish] in Hfail |- *.
  destruct (fin_of bm f p d s1) as [[t1 p1] [x|]] eqn:Ef; [discriminate|].
  destruct (flushed_fin bm f p d s1 s2 q t1 p1 Hbm R2 R4 Ef) as (t2 & Ef2).
  assert (Hfeb : bytes_ok (fed ops)) by (apply fed_bytes; exact Hv).
  assert (T : m_total (block_mealy bm f (fin_of bm f p d)) (sg, []) (fed ops) = (t2, o2 ++ q ++ p1, None)).
  { pose proof (f_equal (fun r => m_then r (fin_of bm f p d) (fun s => s)) R1) as T. cbn [m_then] in T. rewrite Ef2 in T. exact T. }
  destruct (behaves_result _ _ _ _ _ (fed ops) (o2 ++ q ++ p1) B Hbm Hfeb ltac:(lia)) as (P1 & _).
  { exact (f_equal r_exn T). }
  { exact (f_equal r_out T). }
  rewrite P1. f_equal. cbn [r_out fst snd app]. cbn [app] in R3. rewrite R3, <- app_assoc. reflexivity.
Qed.

(* the state after calls that do not raise *)
Lemma flush_state f fin (sg : bf_st f) bsz es s1 o1 X tail : 0 < bsz -> ~ In EFinish es -> m_events (block_mealy bsz f fin) (sg, []) es = (s1, o1, None) ->
  flat_map ev_byte es = concat X ++ tail -> Forall (fun b => zlen b = bsz) X -> zlen tail < bsz ->
  (exists sg' os, bf_run f sg X = (sg', Some os) /\ s1 = (sg', tail) /\ o1 = concat os) \/
  (exists bl b sg' os, tail = [] /\ X = bl ++ [b] /\ bf_run f sg bl = (sg', Some os) /\ s1 = (sg', b) /\ o1 = concat os).
Proof using.
  clear. intros Hb Hn He Hf HX Ht.
  destruct (flushed_run bsz f fin Hb es Hn (sg, []) (sg, []) [] s1 o1) as (s2 & o2 & q & R1 & R2 & R3 & R4); [left; auto|cbn; change (zlen (@nil Z)) with 0; lia|exact He|].
  rewrite Hf in R1. cbn [app] in R3. pose proof (zlen_nonneg tail).
  destruct (Z.eq_dec (zlen tail) 0) as [Hz|Hz].
  - apply zlen_0 in Hz. subst tail. rewrite app_nil_r in R1. destruct (last_block bsz X HX) as [->|(bl & b & -> & H1 & H2)].
    + cbn [concat m_run] in R1. injection R1 as <- <-. left. exists sg, []. cbn [bf_run]. split; [reflexivity|].
      destruct R2 as [(-> & ->)|(sg0 & pend & sg' & Hq & Hp & _)]; [auto|]. injection Hq as <- <-. change (zlen (@nil Z)) with 0 in Hp. lia.
    + rewrite concat_app in R1. cbn [concat] in R1. rewrite app_nil_r in R1.
      pose proof (run_blocks bsz f Hb fin bl sg b H1 ltac:(right; lia) ltac:(lia)) as R. 
      destruct (bf_run f sg bl) as [sgb [os|]] eqn:Er.
      * pose proof (eq_trans (eq_sym R1) R) as K. injection K as -> ->.
        destruct R2 as [(-> & ->)|(sg0 & pend & sg' & Hq & Hp & Hs & ->)].
        -- right. exists bl, b, sgb, os. rewrite R3, app_nil_r. auto.
        -- injection Hq as <- <-. left. exists sg', (os ++ [q]). rewrite bf_run_app, Er. cbn [bf_run]. rewrite Hs, R3, concat_app. cbn [concat]. rewrite app_nil_r. auto.
      * pose proof (f_equal r_exn R1) as K. pose proof (eq_trans (eq_sym R) K). discriminate.
  - pose proof (run_blocks bsz f Hb fin X sg tail HX ltac:(right; lia) ltac:(lia)) as R.
    destruct (bf_run f sg X) as [sgb [os|]] eqn:Er.
    + pose proof (eq_trans (eq_sym R1) R) as K. injection K as -> ->. left. exists sgb, os. split; [reflexivity|].
      destruct R2 as [(-> & ->)|(sg0 & pend & sg' & Hq & Hp & Hs & ->)]; [rewrite R3, app_nil_r; auto|].
      injection Hq as <- <-. lia.
    + pose proof (f_equal r_exn R1) as K. pose proof (eq_trans (eq_sym R) K). discriminate.
Qed.

(* what flush does *)
Lemma flush_result p d ops o : make_cipher fresh nb m (option_map scheme_of p) iv key d = Ret o -> Forall op_valid ops ->
  forallb not_finish ops = true -> zlen (fed ops) + 3 * bm <= max_string_length -> failure ops (run_ops o ops) = None ->
  let r := failure (ops ++ [Flush]) (run_ops o (ops ++ [Flush])) in
  (zlen (fed ops) mod bm <> 0 -> r = Some (OExn (Error Wrong_data_length))) /\
  (zlen (fed ops) mod bm = 0 -> ~ within_limit bs (dmode m) (zlen (fed ops) / bm) -> r = Some (OExn (Error Message_too_long))) /\
  (zlen (fed ops) mod bm = 0 -> within_limit bs (dmode m) (zlen (fed ops) / bm) -> r = None /\
     exists X Y, blocks_ok bm X /\ fed ops = concat X /\ mode_spec bs (mode_fun E D (dmode m) d) (dmode m) d (iv_val bs iv) X Y /\
       all_got (ops ++ [Flush; GetString]) (run_ops o (ops ++ [Flush; GetString])) = concat Y).
Proof.
  intros Ho Hv Hnf Hsz Hfail. pose proof (bm_pos nb key bs E D m HF Hm) as Hbm. fold bm in Hbm. pose proof (fam_bs _ _ _ _ _ HF) as Hbs.
  destruct (make_cipher_ok fresh fresh_len nb key bs E D m p iv d HF Hm Hiv) as (o' & Ho' & B). rewrite Ho in Ho'. apply ret_inj in Ho'. subst o'. fold bm in B.
  set (F := mode_fun E D (dmode m) d) in *.
  set (f := mode_fn bs F (dmode m) d) in *. set (sg := mode_st0 bs F (dmode m) d (iv_val bs iv)) in *.
  set (M := block_mealy bm f (fin_of bm f p d)).
  assert (Hops : forall tl, Forall op_valid tl -> forallb not_finish tl = true -> fed tl = [] -> run_ops o (ops ++ tl) = spec_run M (sg, []) [] (ops ++ tl)).
  { intros tl T1 T2 T3. apply (bh_ops _ _ _ _ _ B); [apply Forall_app; auto|]. rewrite fed_app, finishes_app, (finishes_not ops Hnf), (finishes_not tl T2), T3, app_nil_r. lia. }
  pose proof (Hops [] (Forall_nil _) eq_refl eq_refl) as H0. rewrite app_nil_r in H0. rewrite H0, spec_run_failure in Hfail.
  destruct (not_finish_events ops Hnf) as (Hne & Hfed).
  destruct (m_events M (sg, []) (events ops)) as [[s1 o1] [x|]] eqn:E1; [discriminate|]. clear Hfail.
  destruct (as_blocks fresh fresh_len bm (fed ops) Hbm (fed_bytes ops Hv)) as (X & tail & Em & HX & Hto & Htl & HXl & Htb).
  destruct (mode_run bs ltac:(lia) F (dmode m) d (iv_val bs iv) X Hm (fun Hne => iv_val_len bs ltac:(lia) _ iv Hiv Hne)) as (W1 & W2). fold f sg in W1, W2. rewrite HXl in W1, W2.
  pose proof (flush_state f (fin_of bm f p d) sg bm (events ops) s1 o1 X tail Hbm Hne E1 ltac:(rewrite Hfed; exact Em) (blocks_ok_len _ _ HX) Htb) as HS.
  assert (Hev : m_events M (sg, []) (events (ops ++ [Flush])) = m_then (s1, o1, None) (block_flush bm f) (fun s => s)).
  { unfold events. rewrite flat_map_app. fold (events ops). cbn [flat_map op_events app]. rewrite m_events_app, E1. cbn [m_then]. rewrite m_events_one. reflexivity. }
  assert (Hr : failure (ops ++ [Flush]) (run_ops o (ops ++ [Flush])) = option_map OExn (r_exn (m_then (s1, o1, None) (block_flush bm f) (fun s => s)))).
  { rewrite (Hops [Flush]) by (try reflexivity; repeat constructor). rewrite spec_run_failure, Hev. reflexivity. }
  cbn zeta. rewrite Hr. pose proof (zlen_nonneg tail) as Htn. split; [|split].
  - intros Hz. rewrite <- Htl in Hz. destruct HS as [(sg' & os & S1 & -> & S3)|(bl & b & sg' & os & -> & _)]; [|exfalso; apply Hz; reflexivity].
    cbn [m_then block_flush]. replace (zlen tail =? 0) with false by lia. replace (zlen tail =? bm) with false by lia. reflexivity.
  - intros Hz Hw. rewrite <- Htl in Hz. apply zlen_0 in Hz. subst tail. specialize (W2 Hw).
    destruct HS as [(sg' & os & S1 & -> & S3)|(bl & b & sg' & os & _ & S2 & S3 & -> & S5)]; [rewrite S1 in W2; discriminate|].
    rewrite S2, bf_run_app, S3 in W2. cbn [bf_run] in W2. cbn [m_then block_flush].
    pose proof HX as HX'. rewrite S2 in HX'. apply Forall_app in HX'. destruct HX' as (_ & HX2). apply Forall_cons_iff in HX2. destruct HX2 as ((Hb1 & _) & _).
    replace (zlen b =? 0) with false by lia. rewrite Hb1, Z.eqb_refl. unfold emit_block. destruct (bf_step f sg' b) as [sg2 [o2|]]; [discriminate|reflexivity].
  - intros Hz Hw. rewrite <- Htl in Hz. apply zlen_0 in Hz. subst tail. destruct (W1 Hw) as (s & Y & HY1 & HY2).
    assert (G : exists s2, m_then (s1, o1, None) (block_flush bm f) (fun s => s) = (s2, concat Y, None)).
    { destruct HS as [(sg' & os & S1 & -> & ->)|(bl & b & sg' & os & _ & S2 & S3 & -> & ->)]; cbn [m_then block_flush].
      - rewrite S1 in HY1. injection HY1 as <- <-. change (zlen (@nil Z) =? 0) with true. cbn iota. rewrite app_nil_r. eauto.
      - rewrite S2, bf_run_app, S3 in HY1. cbn [bf_run] in HY1.
        pose proof HX as HX'. rewrite S2 in HX'. apply Forall_app in HX'. destruct HX' as (_ & HX2). apply Forall_cons_iff in HX2. destruct HX2 as ((Hb1 & _) & _).
        replace (zlen b =? 0) with false by lia. rewrite Hb1, Z.eqb_refl. unfold emit_block. destruct (bf_step f sg' b) as [sg2 [o2|]]; [|discriminate].
        injection HY1 as <- <-. rewrite concat_app. cbn [concat]. rewrite app_nil_r. eauto. }
    destruct G as (s2 & G). rewrite G. split; [reflexivity|]. exists X, Y. split; [exact HX|]. split; [rewrite Em, app_nil_r; reflexivity|]. split; [exact HY2|].
    rewrite (Hops [Flush; GetString]) by (try reflexivity; repeat constructor).
    replace (ops ++ [Flush; GetString]) with ((ops ++ [Flush]) ++ [GetString]) by (rewrite <- app_assoc; reflexivity).
    rewrite spec_run_total by (rewrite Hev, G; reflexivity). rewrite Hev, G. reflexivity.
Qed.
End A.
