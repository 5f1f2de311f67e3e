(* Authenticated transforms that behave as a transducer followed by a final
   step giving the rest of the text and the tag. *)
From Verif Require Import Prelude PreludeFacts SpecTransducer TransformModel Transform TransformTotal
  BlockFits CipherModel CipherSpec CipherFacts CipherApi History Lawful EncApi HashModel MiscModel Misc AuthModel.

(* the calls flush and finish do not exist *)
Definition data_fits {M} (F : fits M) : fits M := Fits _ (f_put F) (fun _ _ => False) (fun _ _ => False).

(* [x] is the outcome [res]; which exception is raised is determined only if [strict] *)
Definition agrees {A} (strict : bool) (x res : out A) : Prop :=
  match res with
  | Raise e => exists e', x = Raise e' /\ (strict = true -> e' = e)
  | _ => x = res
  end.
Lemma agrees_strict {A} (x res : out A) : agrees true x res -> x = res.
Proof. destruct res; cbn; try exact (fun H => H). intros (e' & -> & H). rewrite H; reflexivity. Qed.
Lemma agrees_refl {A} strict (x : out A) : agrees strict x x.
Proof. destruct x; cbn; try reflexivity. eexists; auto. Qed.

(* [A sg]: the text emitted by finish_and_get_tag in state sg, and the tag *)
Record auth_implements (strict : bool) (a : auth) (M : mealy) (F : fits M) (A : m_st M -> out (bytes * bytes))
    (R : a_st a -> m_st M -> bytes -> Prop) : Prop := {
  ai_data : implements strict (data_view a) M (data_fits F) R;
  ai_fin : forall s sg q, R s sg q -> f_finish F sg q ->
    match A sg with
    | Ret (o, tag) => exists s1 s2 s3 s4, a_finish a s = (s1, Ret tag) /\ a_get_string a s1 = (s2, Ret (q ++ o)) /\
        a_wipe a s2 = (s3, Ret tt) /\ a_wipe a s1 = (s4, Ret tt)
    | Raise e => exists e', snd (a_finish a s) = Raise e' /\ (strict = true -> e' = e)
    | _ => False
    end }.

Definition auth_result (M : mealy) (A : m_st M -> out (bytes * bytes)) (sg : m_st M) (msg : bytes) : out (bytes * bytes) :=
  match m_run M sg msg with
  | (_, _, Some e) => Raise e
  | (sg', o, None) => olet r := A sg' in Ret (o ++ fst r, snd r)
  end.

Definition auth_lawful (strict : bool) (o : aobj) (M : mealy) (A : m_st M -> out (bytes * bytes)) (sg : m_st M) (K B : Z) : Prop :=
  exists F R OK, auth_implements strict (ao_class o) M F A R /\ growth M F OK K B /\ R (ao_st o) sg [] /\ OK sg.

(* the two directions of a user: whole strings, and any history of data calls *)
Definition auth_whole (o : aobj) (msg : bytes) (res : out (bytes * bytes)) : Prop :=
  auth_detached o msg = res /\
  auth_string o msg = (olet r := res in Ret (fst r ++ snd r)) /\
  (forall ops, history_of msg ops -> auth_run o ops = res).

Definition auth_whole_upto (strict : bool) (o : aobj) (msg : bytes) (res : out (bytes * bytes)) : Prop :=
  agrees strict (auth_detached o msg) res /\
  agrees strict (auth_string o msg) (olet r := res in Ret (fst r ++ snd r)) /\
  (forall ops, history_of msg ops -> agrees strict (auth_run o ops) res).
Definition auth_checks_upto (strict : bool) (o : aobj) (size : Z) (res : bytes -> out (bytes * bytes)) (str : bytes) : Prop :=
  (zlen str < size -> auth_check o str = Raise (Error Wrong_data_length)) /\
  (size <= zlen str ->
   match res (sub str 0 (zlen str - size)) with
   | Ret (txt, tag) =>
       (tag = sub str (zlen str - size) size -> auth_check o str = Ret (Some txt)) /\
       (tag <> sub str (zlen str - size) size -> auth_check o str = Ret None)
   | Raise e => exists e', auth_check o str = Raise e' /\ (strict = true -> e' = e)
   | _ => False
   end).

Definition auth_checks (o : aobj) (size : Z) (res : bytes -> out (bytes * bytes)) (str : bytes) : Prop :=
  (zlen str < size -> auth_check o str = Raise (Error Wrong_data_length)) /\
  (size <= zlen str ->
   match res (sub str 0 (zlen str - size)) with
   | Ret (txt, tag) =>
       (tag = sub str (zlen str - size) size -> auth_check o str = Ret (Some txt)) /\
       (tag <> sub str (zlen str - size) size -> auth_check o str = Ret None)
   | Raise e => auth_check o str = Raise e
   | _ => False
   end).

Lemma upto_whole o msg res : auth_whole_upto true o msg res -> auth_whole o msg res.
Proof.
  intros (H1 & H2 & H3). split; [exact (agrees_strict _ _ H1)|]. split; [exact (agrees_strict _ _ H2)|].
  intros ops Ho. exact (agrees_strict _ _ (H3 ops Ho)).
Qed.
Lemma upto_checks o size res str : auth_checks_upto true o size res str -> auth_checks o size res str.
Proof.
  intros (H1 & H2). split; [exact H1|]. intros Hl. specialize (H2 Hl). destruct (res _) as [[x y]|e| |]; try exact H2.
  destruct H2 as (e' & -> & ->); reflexivity.
Qed.
(* a call that raises in the specified run raises *)
Lemma t_step_raises strict T M F R (I : implements strict T M F R) s sg q o e :
  R s sg q -> op_valid o -> op_fits F sg q o -> data_op o = true -> snd (spec_step M sg q o) = OExn e ->
  r_exn (m_run M sg (op_data o)) = Some e ->
  exists e', snd (t_step T s o) = OExn e' /\ (strict = true -> e' = e).
Proof.
  assert (U : forall r x, matches strict R q r x -> r_exn r = Some e -> exists e', snd (unit_obs x) = OExn e' /\ (strict = true -> e' = e)).
  { intros r x Hm Hr. unfold matches in Hm. rewrite Hr in Hm. destruct Hm as (e' & E & H). exists e'. split; [|exact H].
    unfold unit_obs. cbn [snd]. rewrite E. reflexivity. }
  intros HR Hv Hf Hd _ He. destruct o; try discriminate; cbn [t_step op_data op_fits op_valid] in *; try discriminate.
  - eapply U; [|exact He]. apply (im_put_substring _ _ _ _ _ I); try assumption; try tauto. apply bytes_ok_sub; tauto.
  - eapply U; [|exact He]. apply (im_put_string _ _ _ _ _ I); tauto.
  - eapply U; [|exact He]. apply (im_put_char _ _ _ _ _ I); assumption.
  - eapply U; [|exact He]. apply (im_put_byte _ _ _ _ _ I); assumption.
Qed.

Section Auth.
Variables (strict : bool) (a : auth) (M : mealy) (F : fits M) (A : m_st M -> out (bytes * bytes)) (R : a_st a -> m_st M -> bytes -> Prop).
Hypothesis I : auth_implements strict a M F A R.

Lemma auth_history_ok ops : forall s sg q acc, R s sg q -> Forall op_valid ops -> forallb data_op ops = true ->
  run_fits F sg q (ops ++ [Finish; GetString]) ->
  agrees strict (auth_history a s ops acc)
  match m_run M sg (fed ops) with
  | (_, _, Some e) => Raise e
  | (sg', o, None) => olet r := A sg' in Ret (acc ++ q ++ o ++ fst r, snd r)
  end.
Proof.
  induction ops as [|o ops IH]; intros s sg q acc HR Hv Hd Hf.
  - cbn [app run_fits] in Hf. destruct Hf as (Hf & _). cbn [op_fits] in Hf.
    cbn [auth_history fed flat_map m_run]. pose proof (ai_fin _ _ _ _ _ _ I s sg q HR Hf) as H.
    destruct (A sg) as [[o tag]|e| |]; cbn [obind fst snd app agrees] in *.
    + destruct H as (s1 & s2 & s3 & s4 & -> & H2 & _). cbn [bind]. rewrite H2. reflexivity.
    + destruct H as (e' & H & Hs). destruct (a_finish a s) as [s1 r]. cbn [snd] in H. subst r. exists e'. split; [reflexivity|exact Hs].
    + contradiction.
    + contradiction.
  - apply Forall_cons_iff in Hv. destruct Hv as (Hv1 & Hv2). cbn [forallb] in Hd. apply andb_true_iff in Hd. destruct Hd as (Hd1 & Hd2).
    cbn [app run_fits] in Hf. destruct Hf as (Hf1 & Hf2).
    assert (Hf1' : op_fits (data_fits F) sg q o) by (destruct o; try discriminate; exact Hf1).
    pose proof (t_step_ok_ns _ _ _ _ _ (ai_data _ _ _ _ _ _ I) s sg q o HR Hv1 Hf1') as S.
    pose proof (fun e => t_step_raises _ _ _ _ _ (ai_data _ _ _ _ _ _ I) s sg q o e HR Hv1 Hf1' Hd1) as X.
    cbn [auth_history]. destruct (t_step (data_view a) s o) as [s' oba]. cbn [fst snd] in *.
    change (fed (o :: ops)) with (op_data o ++ fed ops). rewrite m_run_app.
    destruct (spec_step M sg q o) as [[sg' q'] ob] eqn:Es. cbn [fst snd] in *.
    assert (P : spec_step M sg q o = emit_obs q (m_run M sg (op_data o)) -> got o ob = [] ->
       (forall ob, ends o ob = match ob with OExn _ | OUndef | OHang => true | _ => false end) ->
       agrees strict (if ends o oba then match oba with OExn e => Raise e | OHang => Hang | _ => Undef end
        else auth_history a s' ops (acc ++ got o oba))
       match m_then (m_run M sg (op_data o)) (fun sg' => m_run M sg' (fed ops)) (fun s => s) with
       | (_, _, Some e) => Raise e
       | (sg', o, None) => olet r := A sg' in Ret (acc ++ q ++ o ++ fst r, snd r)
       end).
    { intros Hs Hg He. rewrite Es in Hs. unfold emit_obs in Hs. destruct (m_run M sg (op_data o)) as [[s1 o1] [e1|]];
        unfold r_exn, r_st, r_out in *; cbn [fst snd] in Hs, X; injection Hs as -> -> ->; cbn [m_then].
      - destruct (X e1 eq_refl eq_refl) as (e' & -> & Hst). rewrite He. cbn [agrees]. exists e'. split; [reflexivity|exact Hst].
      - destruct (S (He _)) as (-> & S2). rewrite He in Hf2 |- *. rewrite Hg, app_nil_r.
        pose proof (IH s' s1 (q ++ o1) acc S2 Hv2 Hd2 Hf2) as G.
        destruct (m_run M s1 (fed ops)) as [[s2 o2] [e2|]]; [exact G|]. destruct (A s2) as [r|e| |]; cbn [obind] in *; [rewrite <- !app_assoc in *|..]; exact G. }
    assert (Q : op_data o = [] -> sg' = sg -> ends o ob = false -> got o ob ++ q' = q ->
       agrees strict (if ends o oba then match oba with OExn e => Raise e | OHang => Hang | _ => Undef end
        else auth_history a s' ops (acc ++ got o oba))
       match m_then (m_run M sg (op_data o)) (fun sg' => m_run M sg' (fed ops)) (fun s => s) with
       | (_, _, Some e) => Raise e
       | (sg', o, None) => olet r := A sg' in Ret (acc ++ q ++ o ++ fst r, snd r)
       end).
    { intros -> -> He Hq. destruct (S He) as (-> & S2). rewrite He in Hf2 |- *. pose proof (IH s' sg q' (acc ++ got o ob) S2 Hv2 Hd2 Hf2) as G. cbn [m_run m_then].
      destruct (m_run M sg (fed ops)) as [[s2 o2] [e2|]]; [exact G|]. cbn [app]. destruct (A s2) as [r|e| |]; cbn [obind] in *; [rewrite <- Hq, <- !app_assoc in *|..]; exact G. }
    destruct o; try discriminate; cbn [spec_step op_data] in *;
      try (apply P; [reflexivity|injection Es as <- <- <-; unfold emit_obs; destruct (r_exn _); reflexivity|intros []; reflexivity]).
    + injection Es as <- <- <-. apply Q; reflexivity.
    + injection Es as <- <- <-. apply Q; try reflexivity. apply app_nil_r.
    + injection Es as <- <- <-. apply Q; try reflexivity. apply app_nil_r.
    + destruct q as [|c q]; injection Es as <- <- <-; apply Q; reflexivity.
    + destruct q as [|c q]; injection Es as <- <- <-; apply Q; reflexivity.
Qed.

Lemma auth_string_ok s sg str : R s sg [] -> bytes_ok str -> zlen str <= max_string_length -> f_put F sg str [] ->
  (r_exn (m_run M sg str) = None -> f_finish F (r_st (m_run M sg str)) (r_out (m_run M sg str))) ->
  agrees strict (snd (auth_transform_string_detached a s str)) (auth_result M A sg str) /\
  match auth_result M A sg str with
  | Ret (txt, tag) => exists s0 s1 s2 s3 s4, a_put_string a s str = (s0, Ret tt) /\ a_finish a s0 = (s1, Ret tag) /\
       a_get_string a s1 = (s2, Ret txt) /\ a_wipe a s2 = (s3, Ret tt) /\ a_wipe a s1 = (s4, Ret tt)
  | Raise e => exists e', (strict = true -> e' = e) /\
       ((exists s', a_put_string a s str = (s', Raise e')) \/ (exists s0 s1, a_put_string a s str = (s0, Ret tt) /\ a_finish a s0 = (s1, Raise e')))
  | _ => False
  end.
Proof.
  intros HR Hb Hl Hf1 Hf2. unfold auth_transform_string_detached, auth_result.
  pose proof (im_put_string _ _ _ _ _ (ai_data _ _ _ _ _ _ I) s sg [] str HR Hb Hl Hf1) as Hp. unfold matches in Hp. cbn [data_view t_put_string] in Hp.
  destruct (m_run M sg str) as [[sg1 o1] [e1|]]; unfold r_exn, r_st, r_out in *; cbn [fst snd app] in *.
  - destruct Hp as (e' & H1 & H2). destruct (a_put_string a s str) as [s' r]. cbn [snd] in H1. subst r.
    cbn [bind snd]. split; [exists e'; split; [reflexivity|exact H2]|]. exists e'. split; [exact H2|]. left. eexists. reflexivity.
  - destruct Hp as (H1 & H2). destruct (a_put_string a s str) as [s' r]. cbn [fst snd] in *. subst r. cbn [bind].
    pose proof (ai_fin _ _ _ _ _ _ I s' sg1 o1 H2 (Hf2 eq_refl)) as H. destruct (A sg1) as [[o tag]|e| |]; cbn [obind fst snd agrees] in *; try contradiction.
    + destruct H as (s1 & s2 & s3 & s4 & E1 & E2 & E3 & E4). rewrite E1. cbn [bind]. rewrite E2. cbn [bind]. rewrite E3. cbn [bind snd].
      split; [reflexivity|]. exists s', s1, s2, s3, s4. repeat split; assumption.
    + destruct H as (e' & H & Hst). destruct (a_finish a s') as [s1 r] eqn:E. cbn [snd] in H. subst r. cbn [bind snd].
      split; [exists e'; split; [reflexivity|exact Hst]|]. exists e'. split; [exact Hst|]. right. exists s', s1. split; [reflexivity|exact E].
Qed.
End Auth.

Lemma auth_lawful_upto strict o M A sg K B msg : auth_lawful strict o M A sg K B -> bytes_ok msg -> K * zlen msg + 2 * B <= max_string_length ->
  auth_whole_upto strict o msg (auth_result M A sg msg).
Proof.
  intros (F & R & OK & I & G & HR & HO) Hb Hsz. pose proof (g_KA _ _ _ _ _ G) as (HK & HB). pose proof (zlen_nonneg msg).
  assert (HKm : zlen msg <= K * zlen msg) by nia.
  assert (D : agrees strict (auth_detached o msg) (auth_result M A sg msg)).
  { apply (auth_string_ok _ _ _ _ _ _ I _ _ _ HR Hb).
    - lia.
    - apply (g_put_fits _ _ _ _ _ G); [exact HO|exact Hb|change (zlen (@nil Z)) with 0; lia].
    - intros He. destruct (g_run _ _ _ _ _ G sg msg HO Hb He) as (H1 & H2 & H3). apply (g_finish_fits _ _ _ _ _ G); [exact H1|lia]. }
  split; [exact D|]. split.
  - unfold auth_string, auth_transform_string. unfold auth_detached in D.
    destruct (auth_transform_string_detached _ _ _) as [s r]. cbn [snd] in D.
    destruct (auth_result M A sg msg) as [[x y]|e| |]; cbn [agrees obind] in *; try (subst r; reflexivity).
    destruct D as (e' & -> & D). exists e'. split; [reflexivity|exact D].
  - intros ops (Hv & Hd & Hfed). unfold auth_run.
    pose proof (auth_history_ok _ _ _ _ _ _ I ops (ao_st o) sg [] [] HR Hv Hd) as Hh. rewrite Hfed in Hh.
    unfold auth_result. cbn [app] in Hh. destruct (m_run M sg msg) as [[s' o'] [e|]]; apply Hh; apply (growth_data_fits M F OK K B sg G HO ops [] []); try assumption; try constructor; try reflexivity; try (cbn; lia); rewrite Hfed; exact Hsz.
Qed.

Lemma auth_lawful_checks_upto strict o M A sg K B str : auth_lawful strict o M A sg K B -> bytes_ok str -> 0 <= a_tag_size (ao_class o) ->
  K * zlen str + 2 * B <= max_string_length ->
  auth_checks_upto strict o (a_tag_size (ao_class o)) (auth_result M A sg) str.
Proof.
  intros (F & R & OK & I & G & HR & HO) Hb Hts Hsz. pose proof (g_KA _ _ _ _ _ G) as (HK & HB). pose proof (zlen_nonneg str).
  unfold auth_checks_upto, auth_check, auth_check_transform_string. set (ts := a_tag_size (ao_class o)) in *. split; intros Hl.
  - replace (zlen str <? ts) with true by lia. reflexivity.
  - replace (zlen str <? ts) with false by lia.
    assert (B1 : forall n m, 0 <= n -> 0 <= m -> n + m <= zlen str -> bytes_sub str n m = Ret (sub str n m)).
    { intros n m H1 H2 H3. unfold bytes_sub. replace (in_range str n m) with true; [reflexivity|]. symmetry. apply in_range_true. lia. }
    rewrite B1 by lia. cbn [bind]. set (body := sub str 0 (zlen str - ts)).
    assert (Hbl : zlen body = zlen str - ts) by (unfold body; apply zlen_sub; lia).
    assert (Hbb : bytes_ok body) by (apply bytes_ok_sub; exact Hb).
    assert (HKm : zlen body <= K * zlen body /\ K * zlen body <= K * zlen str) by nia.
    destruct (auth_string_ok _ _ _ _ _ _ I (ao_st o) sg body HR Hbb) as (_ & H1).
    + lia.
    + apply (g_put_fits _ _ _ _ _ G); [exact HO|exact Hbb|change (zlen (@nil Z)) with 0; lia].
    + intros He. destruct (g_run _ _ _ _ _ G sg body HO Hbb He) as (H1 & H2 & H3). apply (g_finish_fits _ _ _ _ _ G); [exact H1|lia].
    + destruct (auth_result M A sg body) as [[txt tag]|e| |]; try contradiction.
      * destruct H1 as (s0 & s1 & s2 & s3 & s4 & E0 & E1 & E2 & E3 & E4). rewrite E0. cbn [bind]. rewrite E1. cbn [bind].
        rewrite B1 by lia. cbn [bind]. destruct (seq_equal_ok tag (sub str (zlen str - ts) ts)) as (b & Eb & Hbq). rewrite Eb. cbn [bind].
        split; intros Ht; destruct b.
        -- rewrite E2. cbn [bind]. rewrite E3. reflexivity.
        -- apply Hbq in Ht. discriminate.
        -- exfalso. apply Ht, Hbq. reflexivity.
        -- cbn [bind]. rewrite E4. reflexivity.
      * destruct H1 as (e' & Hst & H1). exists e'. split; [|exact Hst]. destruct H1 as [(s' & E)|(s0 & s1 & E0 & E1)].
        -- rewrite E. reflexivity.
        -- rewrite E0. cbn [bind]. rewrite E1. reflexivity.
Qed.

Lemma auth_lawful_whole o M A sg K B msg : auth_lawful true o M A sg K B -> bytes_ok msg -> K * zlen msg + 2 * B <= max_string_length ->
  auth_whole o msg (auth_result M A sg msg).
Proof. intros L Hb Hs. apply upto_whole. exact (auth_lawful_upto _ _ _ _ _ _ _ _ L Hb Hs). Qed.
Lemma auth_lawful_checks o M A sg K B str : auth_lawful true o M A sg K B -> bytes_ok str -> 0 <= a_tag_size (ao_class o) ->
  K * zlen str + 2 * B <= max_string_length ->
  auth_checks o (a_tag_size (ao_class o)) (auth_result M A sg) str.
Proof. intros L Hb Ht Hs. apply upto_checks. exact (auth_lawful_checks_upto _ _ _ _ _ _ _ _ L Hb Ht Hs). Qed.

(* a transform class with an added finish_and_get_tag *)
Lemma auth_of_implements T size fin M F F' A R : implements true T M F R -> f_put F' = f_put F ->
  (forall s sg q, R s sg q -> f_finish F' sg q ->
    match A sg with
    | Ret (o, tag) => exists s1 sg1, fin s = (s1, Ret tag) /\ R s1 sg1 (q ++ o)
    | Raise e => snd (fin s) = Raise e
    | _ => False
    end) ->
  auth_implements true (auth_of T size fin) M F' A R.
Proof.
  intros I EF Hfin. constructor.
  - destruct I. constructor; cbn [data_fits f_put f_flush f_finish]; try rewrite EF; try assumption; intros; try contradiction. eexists; reflexivity.
  - intros s sg q HR Hf. specialize (Hfin s sg q HR Hf). destruct (A sg) as [[o tag]|e| |]; try contradiction; [|eexists; split; [exact Hfin|reflexivity]].
    destruct Hfin as (s1 & sg1 & E & HR1). destruct (im_get_string _ _ _ _ _ I _ _ _ HR1) as (s2 & E2 & HR2).
    destruct (im_wipe _ _ _ _ _ I _ _ _ HR2) as (s3 & E3). destruct (im_wipe _ _ _ _ _ I _ _ _ HR1) as (s4 & E4).
    exists s1, s2, s3, s4. repeat split; assumption.
Qed.
