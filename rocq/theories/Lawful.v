(* Transform objects whose behaviour is a transducer of bounded growth:
   what transform_string, transform_channel, histories of calls and compose
   do with them. *)
From Verif Require Import Prelude PreludeFacts SpecTransducer SpecBlock SpecModes TransformModel Transform TransformTotal
  BlockModel BlockCipher BlockFits CipherModel CipherSpec CipherFacts CipherApi History.

(* Growth of a transducer in the states OK: every step emits at most K bytes
   per input byte, plus A bytes; under the same bound nothing overflows. *)
Record growth (M : mealy) (F : fits M) (OK : m_st M -> Prop) (K A : Z) : Prop := {
  g_KA : 1 <= K /\ 0 <= A;
  g_run : forall sg l, OK sg -> bytes_ok l -> r_exn (m_run M sg l) = None ->
    OK (r_st (m_run M sg l)) /\ zlen (r_out (m_run M sg l)) <= K * zlen l + A /\ bytes_ok (r_out (m_run M sg l));
  g_flush : forall sg, OK sg -> r_exn (m_flush M sg) = None ->
    OK (r_st (m_flush M sg)) /\ zlen (r_out (m_flush M sg)) <= A /\ bytes_ok (r_out (m_flush M sg));
  g_finish : forall sg, OK sg -> r_exn (m_finish M sg) = None ->
    OK (r_st (m_finish M sg)) /\ zlen (r_out (m_finish M sg)) <= A /\ bytes_ok (r_out (m_finish M sg));
  g_put_fits : forall sg l q, OK sg -> bytes_ok l -> zlen q + K * zlen l + A <= max_string_length -> f_put F sg l q;
  g_flush_fits : forall sg q, OK sg -> zlen q + A <= max_string_length -> f_flush F sg q;
  g_finish_fits : forall sg q, OK sg -> zlen q + A <= max_string_length -> f_finish F sg q }.

Definition lawful (strict : bool) (o : tobj) (M : mealy) (sg : m_st M) (K A : Z) : Prop :=
  exists F R OK, implements strict (o_tr o) M F R /\ growth M F OK K A /\ R (o_st o) sg [] /\ OK sg.

Section Lawful.
Variables (strict : bool) (o : tobj) (M : mealy) (sg : m_st M) (K A : Z).
Hypothesis L : lawful strict o M sg K A.

(* transform_string *)
Lemma lawful_string str : bytes_ok str -> K * zlen str + 2 * A <= max_string_length ->
  match r_exn (m_total M sg str) with
  | None => run_string o str = Ret (r_out (m_total M sg str))
  | Some e => exists e', run_string o str = Raise e' /\ (strict = true -> e' = e)
  end.
Proof.
  destruct L as (F & R & OK & HI & G & HR & HO). intros Hs Hl.
  pose proof (g_KA _ _ _ _ _ G). pose proof (zlen_nonneg str).
  apply (transform_string_ok (o_tr o) M F R strict HI (o_st o) sg str HR Hs).
  - unfold max_string_length in *. nia.
  - apply (g_put_fits _ _ _ _ _ G); try assumption. change (zlen (@nil Z)) with 0. lia.
  - intros He. destruct (g_run _ _ _ _ _ G sg str HO Hs He) as (H1 & H2 & H3).
    apply (g_finish_fits _ _ _ _ _ G); [exact H1|]. lia.
Qed.

Lemma lawful_total_bound str : bytes_ok str -> r_exn (m_total M sg str) = None ->
  zlen (r_out (m_total M sg str)) <= K * zlen str + 2 * A /\ bytes_ok (r_out (m_total M sg str)).
Proof.
  destruct L as (F & R & OK & HI & G & HR & HO). intros Hs. unfold m_total, m_then.
  pose proof (g_run _ _ _ _ _ G sg str HO Hs) as H1.
  destruct (m_run M sg str) as [[s1 o1] [e1|]]; unfold r_exn, r_st, r_out in *; cbn [fst snd] in *; [discriminate|].
  destruct (H1 eq_refl) as (H2 & H3 & H4). pose proof (g_finish _ _ _ _ _ G s1 H2) as H5.
  destruct (m_finish M s1) as [[s2 o2] e2]; unfold r_exn, r_st, r_out in *; cbn [fst snd] in *. intros ->.
  destruct (H5 eq_refl) as (H6 & H7 & H8). rewrite zlen_app. split; [lia|]. apply bytes_ok_app; auto.
Qed.

(* transform_channel *)
Section Chan.
Variable fresh : Z -> bytes.
Hypothesis fresh_len : forall n, 0 <= n -> zlen (fresh n) = n.
Variable sched : nat -> Z.

Lemma lawful_channel len ic : bytes_ok ic -> K * 256 + 2 * A <= max_string_length ->
  let res := transform_channel fresh sched (o_tr o) (o_st o) len ic in
  match r_exn (m_run M sg (requested len ic)) with
  | Some e => exists e', snd res = Raise e' /\ (strict = true -> e' = e)
  | None =>
    if long_enough len ic then
      match r_exn (m_total M sg (requested len ic)) with
      | Some e => exists e', snd res = Raise e' /\ (strict = true -> e' = e)
      | None => snd res = Ret tt /\
           tc_out (fst res) = r_out (m_total M sg (requested len ic)) /\
           ch_data (tc_ch (fst res)) = skipn (length (requested len ic)) ic
      end
    else snd res = Raise End_of_file
  end.
Proof.
  destruct L as (F & R & OK & HI & G & HR & HO). intros Hb Hm. pose proof (g_KA _ _ _ _ _ G).
  apply (transform_channel_ok (o_tr o) M F R strict HI fresh fresh_len sched OK); try assumption.
  - intros s l H1 H2 H3. apply (g_run _ _ _ _ _ G); assumption.
  - intros s l H1 H2 H3. apply (g_put_fits _ _ _ _ _ G); try assumption. change (zlen (@nil Z)) with 0.
    pose proof (zlen_nonneg l). nia.
  - intros s H1. apply (g_finish_fits _ _ _ _ _ G); try assumption. change (zlen (@nil Z)) with 0. lia.
Qed.
End Chan.
End Lawful.

(* ---- histories ---- *)

(* no exception at all in the specified run: no need for strictness *)
Lemma t_step_ok_ns strict T M F R (I : implements strict T M F R) s sg q o :
  R s sg q -> op_valid o -> op_fits F sg q o ->
  ends o (snd (spec_step M sg q o)) = false ->
  snd (t_step T s o) = snd (spec_step M sg q o) /\
  R (fst (t_step T s o)) (fst (fst (spec_step M sg q o))) (snd (fst (spec_step M sg q o))).
Proof.
  assert (U : forall r x, matches strict R q r x ->
    (match snd (emit_obs q r) with OExn _ | OUndef | OHang => true | _ => false end) = false ->
    snd (unit_obs x) = snd (emit_obs q r) /\
      R (fst (unit_obs x)) (fst (fst (emit_obs q r))) (snd (fst (emit_obs q r)))).
  { intros r x Hm. unfold matches in Hm. unfold unit_obs, emit_obs. cbn [fst snd].
    destruct (r_exn r) as [e|]; [discriminate|].
    destruct Hm as (-> & HR). split; [reflexivity|exact HR]. }
  intros HR Hv Hf He. destruct o; cbn [t_step spec_step op_data op_fits op_valid ends] in *.
  - apply U; [|exact He]. apply (im_put_substring _ _ _ _ _ I); try assumption; try tauto.
    apply bytes_ok_sub; tauto.
  - apply U; [|exact He]. apply (im_put_string _ _ _ _ _ I); tauto.
  - apply U; [|exact He]. apply (im_put_char _ _ _ _ _ I); assumption.
  - apply U; [|exact He]. apply (im_put_byte _ _ _ _ _ I); assumption.
  - apply U; [|exact He]. apply (im_flush _ _ _ _ _ I); assumption.
  - apply U; [|exact He]. apply (im_finish _ _ _ _ _ I); assumption.
  - rewrite (im_available _ _ _ _ _ I _ _ _ HR). split; [reflexivity|exact HR].
  - destruct (im_get_string _ _ _ _ _ I _ _ _ HR) as (s' & -> & HR').
    split; [reflexivity|exact HR'].
  - destruct (im_get_substring _ _ _ _ _ I _ _ _ HR) as (s' & b & o & -> & H1 & H2 & H3 & HR').
    unfold substring_obs. cbn [fst snd]. rewrite H1, H2.
    split; [reflexivity|exact HR'].
  - pose proof (im_get_char _ _ _ _ _ I _ _ _ HR) as H. destruct q as [|c q'].
    + rewrite H. split; [reflexivity|exact HR].
    + destruct H as (s' & -> & HR'). split; [reflexivity|exact HR'].
  - pose proof (im_get_byte _ _ _ _ _ I _ _ _ HR) as H. destruct q as [|c q'].
    + rewrite H. split; [reflexivity|exact HR].
    + destruct H as (s' & -> & HR'). split; [reflexivity|exact HR'].
Qed.

(* a failing step raises *)
Lemma t_step_fails strict T M F R (I : implements strict T M F R) s sg q o :
  R s sg q -> op_valid o -> op_fits F sg q o ->
  ends o (snd (spec_step M sg q o)) = true ->
  exists e e', snd (spec_step M sg q o) = OExn e /\ snd (t_step T s o) = OExn e' /\ (strict = true -> e' = e) /\
    ends o (OExn e') = true.
Proof.
  assert (U : forall r x, matches strict R q r x ->
    (match snd (emit_obs q r) with OExn _ | OUndef | OHang => true | _ => false end) = true ->
    exists e e', snd (emit_obs q r) = OExn e /\ snd (unit_obs x) = OExn e' /\ (strict = true -> e' = e)).
  { intros r x Hm. unfold matches in Hm. unfold unit_obs, emit_obs. cbn [fst snd].
    destruct (r_exn r) as [e|]; [|discriminate].
    destruct Hm as (e' & -> & Hs). intros _. exists e, e'. auto. }
  assert (V : forall r x, matches strict R q r x ->
    (match snd (emit_obs q r) with OExn _ | OUndef | OHang => true | _ => false end) = true ->
    (forall e, ends o (OExn e) = true) ->
    exists e e', snd (emit_obs q r) = OExn e /\ snd (unit_obs x) = OExn e' /\ (strict = true -> e' = e) /\ ends o (OExn e') = true).
  { intros r x H1 H2 H3. destruct (U r x H1 H2) as (e & e' & P1 & P2 & P3). exists e, e'. auto. }
  intros HR Hv Hf He. destruct o; cbn [t_step spec_step op_data op_fits op_valid ends] in *; try discriminate.
  - apply V; [|exact He|reflexivity]. apply (im_put_substring _ _ _ _ _ I); try assumption; try tauto.
    apply bytes_ok_sub; tauto.
  - apply V; [|exact He|reflexivity]. apply (im_put_string _ _ _ _ _ I); tauto.
  - apply V; [|exact He|reflexivity]. apply (im_put_char _ _ _ _ _ I); assumption.
  - apply V; [|exact He|reflexivity]. apply (im_put_byte _ _ _ _ _ I); assumption.
  - apply V; [|exact He|reflexivity]. apply (im_flush _ _ _ _ _ I); assumption.
  - apply V; [|exact He|reflexivity]. apply (im_finish _ _ _ _ _ I); assumption.
  - destruct q; discriminate.
  - destruct q; discriminate.
Qed.

(* same observations, except possibly which exception ends the history *)
Definition agree (strict : bool) (a b : list obs) : Prop :=
  a = b \/ (strict = false /\ exists pre e e', a = pre ++ [OExn e] /\ b = pre ++ [OExn e']).

Lemma agree_cons strict x a b : agree strict a b -> agree strict (x :: a) (x :: b).
Proof.
  intros [->|(H & pre & e & e' & -> & ->)]; [left; reflexivity|].
  right. split; [exact H|]. exists (x :: pre), e, e'. split; reflexivity.
Qed.

Lemma t_run_agree strict T M F R (I : implements strict T M F R) ops : forall s sg q,
  R s sg q -> Forall op_valid ops -> run_fits F sg q ops ->
  agree strict (t_run T s ops) (spec_run M sg q ops) /\
  (failure ops (spec_run M sg q ops) = None -> t_run T s ops = spec_run M sg q ops).
Proof.
  induction ops as [|o ops IH]; intros s sg q HR Hv Hf; [split; [left|]; reflexivity|].
  apply Forall_cons_iff in Hv. destruct Hv as (Hv1 & Hv2). destruct Hf as (Hf1 & Hf2).
  cbn [t_run spec_run].
  destruct (ends o (snd (spec_step M sg q o))) eqn:Ee.
  - destruct (t_step_fails strict T M F R I s sg q o HR Hv1 Hf1 Ee) as (e & e' & H1 & H2 & H3 & H4).
    destruct (t_step T s o) as [s' ob]. destruct (spec_step M sg q o) as [[sg' q'] ob'].
    cbn [fst snd] in *. subst ob ob'. rewrite Ee, H4. split.
    + destruct strict; [left; rewrite H3 by reflexivity; reflexivity|right].
      split; [reflexivity|]. exists [], e', e. split; reflexivity.
    + unfold failure. cbn [combine find fst snd]. rewrite Ee. discriminate.
  - destruct (t_step_ok_ns strict T M F R I s sg q o HR Hv1 Hf1 Ee) as (H1 & H2).
    destruct (t_step T s o) as [s' ob]. destruct (spec_step M sg q o) as [[sg' q'] ob'].
    cbn [fst snd] in *. subst ob. rewrite Ee in *. destruct (IH s' sg' q' H2 Hv2 Hf2) as (I1 & I2).
    split; [apply agree_cons; exact I1|]. unfold failure in *. cbn [combine find fst snd]. rewrite Ee. intros Hn. rewrite I2 by exact Hn. reflexivity.
Qed.

Lemma growth_run_fits M F OK K A : growth M F OK K A -> forall ops sg q, OK sg ->
  Forall op_valid ops -> zlen q + K * zlen (fed ops) + A * (zlen ops + 1) <= max_string_length ->
  run_fits F sg q ops.
Proof.
  intros G. pose proof (g_KA _ _ _ _ _ G) as (HK & HA).
  induction ops as [|o ops IH]; intros sg q HO Hv Hsz; [exact I|].
  apply Forall_cons_iff in Hv. destruct Hv as (Hv1 & Hv2).
  cbn [fed flat_map] in Hsz. fold (fed ops) in Hsz. rewrite zlen_app, zlen_cons in Hsz.
  pose proof (zlen_nonneg ops). pose proof (zlen_nonneg (fed ops)). pose proof (zlen_nonneg (op_data o)).
  pose proof (zlen_nonneg q).
  assert (N : forall r, (r_exn r = None -> OK (r_st r) /\ zlen (r_out r) <= K * zlen (op_data o) + A /\ bytes_ok (r_out r)) ->
     (let '(sg', q', ob) := emit_obs q r in
      if match ob with OExn _ | OUndef | OHang => true | _ => false end then True else run_fits F sg' q' ops)).
  { intros r Hr. unfold emit_obs. destruct (r_exn r) as [e|] eqn:Ee; [exact I|].
    destruct (Hr eq_refl) as (R1 & R2 & R3). apply IH; try assumption. rewrite zlen_app. nia. }
  assert (Z0 : forall r : m_st M * bytes * option exn, zlen (op_data o) = 0 ->
    (r_exn r = None -> OK (r_st r) /\ zlen (r_out r) <= A /\ bytes_ok (r_out r)) ->
    (r_exn r = None -> OK (r_st r) /\ zlen (r_out r) <= K * zlen (op_data o) + A /\ bytes_ok (r_out r))).
  { intros r Hz Hr He. rewrite Hz. destruct (Hr He) as (? & ? & ?). repeat split; try assumption. lia. }
  destruct o; cbn [run_fits op_fits spec_step op_data ends] in *.
  - split; [apply (g_put_fits _ _ _ _ _ G); try assumption; [apply bytes_ok_sub; apply Hv1|nia]|].
    apply N. intros He. apply (g_run _ _ _ _ _ G); try assumption. apply bytes_ok_sub; apply Hv1.
  - split; [apply (g_put_fits _ _ _ _ _ G); try assumption; [apply Hv1|nia]|].
    apply N. intros He. apply (g_run _ _ _ _ _ G); try assumption. apply Hv1.
  - assert (bytes_ok [c]) by (constructor; [exact Hv1|constructor]).
    split; [apply (g_put_fits _ _ _ _ _ G); try assumption; nia|].
    apply N. intros He. apply (g_run _ _ _ _ _ G); assumption.
  - assert (bytes_ok [n]) by (constructor; [exact Hv1|constructor]).
    split; [apply (g_put_fits _ _ _ _ _ G); try assumption; nia|].
    apply N. intros He. apply (g_run _ _ _ _ _ G); assumption.
  - split; [apply (g_flush_fits _ _ _ _ _ G); try assumption; nia|].
    apply N. apply Z0; [reflexivity|]. intros He. apply (g_flush _ _ _ _ _ G); assumption.
  - split; [apply (g_finish_fits _ _ _ _ _ G); try assumption; nia|].
    apply N. apply Z0; [reflexivity|]. intros He. apply (g_finish _ _ _ _ _ G); assumption.
  - split; [exact I|]. apply IH; try assumption. nia.
  - split; [exact I|]. apply IH; try assumption. change (zlen (@nil Z)) with 0. nia.
  - split; [exact I|]. apply IH; try assumption. change (zlen (@nil Z)) with 0. nia.
  - split; [exact I|]. destruct q as [|c q']; apply IH; try assumption; rewrite ?zlen_cons in *; nia.
  - split; [exact I|]. destruct q as [|c q']; apply IH; try assumption; rewrite ?zlen_cons in *; nia.
Qed.

Lemma lawful_history strict o M sg K A ops : lawful strict o M sg K A -> Forall op_valid ops ->
  K * zlen (fed ops) + A * (zlen ops + 1) <= max_string_length ->
  agree strict (run_ops o ops) (spec_run M sg [] ops) /\
  (failure ops (spec_run M sg [] ops) = None -> run_ops o ops = spec_run M sg [] ops).
Proof.
  intros (F & R & OK & HI & G & HR & HO) Hv Hsz. unfold run_ops.
  apply (t_run_agree strict _ _ F R HI); try assumption.
  apply (growth_run_fits M F OK K A G); assumption.
Qed.

(* ---- compose ---- *)
Lemma m_then_none {X Y} (r : X * bytes * option exn) (k : X -> Y * bytes * option exn) d :
  r_exn (m_then r k d) = None -> r_exn r = None.
Proof. destruct r as [[a b] [e|]]; cbn; [discriminate|reflexivity]. Qed.

Lemma compose_growth M1 F1 OK1 K1 A1 M2 F2 OK2 K2 A2 :
  growth M1 F1 OK1 K1 A1 -> growth M2 F2 OK2 K2 A2 ->
  growth (m_compose M1 M2) (comp_fits M1 M2 F1 F2) (fun s => OK1 (fst s) /\ OK2 (snd s)) (K1 * K2) (K2 * A1 + 2 * A2).
Proof.
  intros G1 G2. pose proof (g_KA _ _ _ _ _ G1) as (HK1 & HA1). pose proof (g_KA _ _ _ _ _ G2) as (HK2 & HA2).
  assert (P : 0 <= K2 * A1) by nia.
  assert (ST : forall (r1 : m_st M1 * bytes * option exn) (s2 : m_st M2) B, 0 <= B ->
    (r_exn r1 = None -> OK1 (r_st r1) /\ zlen (r_out r1) <= B /\ bytes_ok (r_out r1)) -> OK2 s2 ->
    r_exn (m_compose_step M1 M2 r1 s2) = None ->
    (OK1 (fst (r_st (m_compose_step M1 M2 r1 s2))) /\ OK2 (snd (r_st (m_compose_step M1 M2 r1 s2)))) /\
    zlen (r_out (m_compose_step M1 M2 r1 s2)) <= K2 * B + A2 /\
    bytes_ok (r_out (m_compose_step M1 M2 r1 s2)) /\ r_exn r1 = None /\ r_exn (m_run M2 s2 (r_out r1)) = None).
  { intros r1 s2 B HB H1 H2. unfold m_compose_step.
    pose proof (g_run _ _ _ _ _ G2 s2 (r_out r1) H2) as H3.
    destruct (m_run M2 s2 (r_out r1)) as [[s2' o2] [e2|]]; unfold r_st, r_out, r_exn in *; cbn [fst snd] in *; [discriminate|].
    intros He. destruct (H1 He) as (P1 & P2 & P3). destruct (H3 P3 eq_refl) as (Q1 & Q2 & Q3).
    repeat split; try assumption. nia. }
  assert (FN : forall fin1 fin2 s, OK1 (fst s) -> OK2 (snd s) ->
    (forall s1, OK1 s1 -> r_exn (fin1 s1) = None -> OK1 (r_st (fin1 s1)) /\ zlen (r_out (fin1 s1)) <= A1 /\ bytes_ok (r_out (fin1 s1))) ->
    (forall s2, OK2 s2 -> r_exn (fin2 s2) = None -> OK2 (r_st (fin2 s2)) /\ zlen (r_out (fin2 s2)) <= A2 /\ bytes_ok (r_out (fin2 s2))) ->
    let r := m_compose_fin M1 M2 fin1 fin2 s in
    r_exn r = None -> (OK1 (fst (r_st r)) /\ OK2 (snd (r_st r))) /\ zlen (r_out r) <= K2 * A1 + 2 * A2 /\ bytes_ok (r_out r)).
  { intros fin1 fin2 s H1 H2 Hf1 Hf2. cbn zeta. unfold m_compose_fin.
    pose proof (ST (fin1 (fst s)) (snd s) A1 HA1 (Hf1 _ H1) H2) as HS.
    destruct (m_compose_step M1 M2 (fin1 (fst s)) (snd s)) as [[[s1 s2] o1] [e|]]; unfold r_st, r_out, r_exn in *; cbn [fst snd] in *; [discriminate|].
    destruct (HS eq_refl) as ((O1 & O2) & L1 & B1 & _). specialize (Hf2 s2 O2).
    destruct (fin2 s2) as [[s2' o2] e2]. cbn [fst snd] in *. intros He. destruct (Hf2 He) as (Q1 & Q2 & Q3).
    rewrite zlen_app. repeat split; try assumption; [lia|apply bytes_ok_app; auto]. }
  constructor.
  - split; nia.
  - intros (s1, s2) l (H1 & H2) Hl. cbn [fst snd] in *. pose proof (zlen_nonneg l).
    destruct (m_compose_run M1 M2 l s1 s2) as [->|(e & e' & -> & _)]; [|discriminate].
    intros He.
    destruct (ST (m_run M1 s1 l) s2 (K1 * zlen l + A1) ltac:(nia) (g_run _ _ _ _ _ G1 s1 l H1 Hl) H2 He) as (Q1 & Q2 & Q3 & _).
    split; [exact Q1|]. split; [|exact Q3]. change (m_st (m_compose M1 M2)) with (m_st M1 * m_st M2)%type in *. nia.
  - intros s (H1 & H2). apply FN; try assumption; [apply (g_flush _ _ _ _ _ G1)|apply (g_flush _ _ _ _ _ G2)].
  - intros s (H1 & H2). apply FN; try assumption; [apply (g_finish _ _ _ _ _ G1)|apply (g_finish _ _ _ _ _ G2)].
  - intros s l q (H1 & H2) Hl Hq. pose proof (zlen_nonneg l). pose proof (zlen_nonneg q). split.
    + apply (g_put_fits _ _ _ _ _ G1); try assumption. change (zlen (@nil Z)) with 0. nia.
    + intros He. destruct (g_run _ _ _ _ _ G1 _ _ H1 Hl He) as (P1 & P2 & P3).
      apply (g_put_fits _ _ _ _ _ G2); try assumption. nia.
  - intros s q (H1 & H2) Hq. pose proof (zlen_nonneg q). cbn [comp_fits f_flush].
    split; [|split].
    + apply (g_flush_fits _ _ _ _ _ G1); try assumption. change (zlen (@nil Z)) with 0. nia.
    + intros He. destruct (g_flush _ _ _ _ _ G1 _ H1 He) as (P1 & P2 & P3).
      apply (g_put_fits _ _ _ _ _ G2); try assumption. nia.
    + intros He He2. destruct (g_flush _ _ _ _ _ G1 _ H1 He) as (P1 & P2 & P3).
      destruct (g_run _ _ _ _ _ G2 _ _ H2 P3 He2) as (Q1 & Q2 & Q3).
      apply (g_flush_fits _ _ _ _ _ G2); try assumption. rewrite zlen_app. nia.
  - intros s q (H1 & H2) Hq. pose proof (zlen_nonneg q). cbn [comp_fits f_finish].
    split; [|split].
    + apply (g_finish_fits _ _ _ _ _ G1); try assumption. change (zlen (@nil Z)) with 0. nia.
    + intros He. destruct (g_finish _ _ _ _ _ G1 _ H1 He) as (P1 & P2 & P3).
      apply (g_put_fits _ _ _ _ _ G2); try assumption. nia.
    + intros He He2. destruct (g_finish _ _ _ _ _ G1 _ H1 He) as (P1 & P2 & P3).
      destruct (g_run _ _ _ _ _ G2 _ _ H2 P3 He2) as (Q1 & Q2 & Q3).
      apply (g_finish_fits _ _ _ _ _ G2); try assumption. rewrite zlen_app. nia.
Qed.

Lemma compose_lawful st1 o1 M1 sg1 K1 A1 st2 o2 M2 sg2 K2 A2 :
  lawful st1 o1 M1 sg1 K1 A1 -> lawful st2 o2 M2 sg2 K2 A2 ->
  lawful false (TObj (compose (o_tr o1) (o_tr o2)) (o_st o1, o_st o2)) (m_compose M1 M2) (sg1, sg2)
    (K1 * K2) (K2 * A1 + 2 * A2).
Proof.
  intros (F1 & R1 & OK1 & I1 & G1 & H1 & P1) (F2 & R2 & OK2 & I2 & G2 & H2 & P2).
  eexists _, _, _. split; [eapply compose_implements; eassumption|].
  split; [eapply compose_growth; eassumption|]. split; [split; assumption|]. split; assumption.
Qed.

(* C05: a composed transform is the two transforms run one after the other *)
Lemma compose_string st1 o1 M1 sg1 K1 A1 st2 o2 M2 sg2 K2 A2 msg :
  lawful st1 o1 M1 sg1 K1 A1 -> lawful st2 o2 M2 sg2 K2 A2 -> bytes_ok msg ->
  K1 * K2 * zlen msg + 2 * (K2 * A1 + 2 * A2) <= max_string_length ->
  let c := TObj (compose (o_tr o1) (o_tr o2)) (o_st o1, o_st o2) in
  (forall r, run_string c msg = Ret r <-> exists r1, run_string o1 msg = Ret r1 /\ run_string o2 r1 = Ret r) /\
  ((exists r, run_string c msg = Ret r) \/ (exists e, run_string c msg = Raise e)).
Proof.
  intros L1 L2 Hm Hsz c.
  pose proof (compose_lawful _ _ _ _ _ _ _ _ _ _ _ _ L1 L2) as L.
  assert (KA : 1 <= K1 /\ 0 <= A1 /\ 1 <= K2 /\ 0 <= A2).
  { destruct L1 as (? & ? & ? & _ & G1 & _). destruct L2 as (? & ? & ? & _ & G2 & _).
    pose proof (g_KA _ _ _ _ _ G1). pose proof (g_KA _ _ _ _ _ G2). lia. }
  pose proof (zlen_nonneg msg).
  pose proof (lawful_string _ _ _ _ _ _ L msg Hm ltac:(lia)) as Hc.
  pose proof (lawful_string _ _ _ _ _ _ L1 msg Hm ltac:(nia)) as H1.
  pose proof (lawful_total_bound _ _ _ _ _ _ L1 msg Hm) as B1.
  destruct (r_exn (m_total (m_compose M1 M2) (sg1, sg2) msg)) as [e|] eqn:Ec.
  - destruct Hc as (e' & Hc & _). split; [|right; exists e'; exact Hc].
    intros r. unfold c in *. rewrite Hc. split; [discriminate|]. intros (r1 & P1 & P2). exfalso.
    destruct (r_exn (m_total M1 sg1 msg)) as [e1|] eqn:E1.
    { destruct H1 as (? & H1 & _). rewrite H1 in P1. discriminate. }
    rewrite H1 in P1. injection P1 as <-. destruct (B1 eq_refl) as (B2 & B3).
    pose proof (lawful_string _ _ _ _ _ _ L2 _ B3 ltac:(nia)) as H2.
    destruct (r_exn (m_total M2 sg2 (r_out (m_total M1 sg1 msg)))) as [e2|] eqn:E2.
    { destruct H2 as (? & H2 & _). rewrite H2 in P2. discriminate. }
    destruct (m_compose_total M1 M2 sg1 sg2 msg E1 E2) as (Q & _).
    rewrite Q in Ec. discriminate.
  - destruct (m_compose_total_conv M1 M2 sg1 sg2 msg Ec) as (E1 & E2). rewrite E1 in *.
    destruct (B1 eq_refl) as (B2 & B3).
    pose proof (lawful_string _ _ _ _ _ _ L2 _ B3 ltac:(nia)) as H2. rewrite E2 in H2.
    destruct (m_compose_total M1 M2 sg1 sg2 msg E1 E2) as (_ & Q).
    rewrite Q in Hc. split; [|left; eexists; exact Hc].
    intros r. unfold c in *. rewrite Hc. split.
    + intros E. injection E as <-. eauto.
    + intros (r1 & P1 & P2). rewrite H1 in P1. injection P1 as <-. rewrite H2 in P2. exact P2.
Qed.

(* ---- block cipher objects ---- *)
Section BlockLawful.
Variables (C : block_cipher) (f : blockfn) (rel : bc_st C -> bf_st f -> Prop).
Let bs := bc_blocksize C.
Hypothesis bs_pos : 0 < bs.
Hypothesis HC : bc_implements C f rel.

Lemma emit_outok sg b : good C f rel sg -> zlen b = bs -> bytes_ok b -> bytes_ok (r_out (emit_block f sg b)).
Proof.
  intros Hg Hl Hok. destruct (step_good C f rel bs_pos HC sg b Hg Hl Hok) as (_ & Ho). unfold emit_block.
  destruct (bf_step f sg b) as [sg' [o|]]; unfold r_out; cbn [fst snd] in *; [apply Ho; reflexivity|constructor].
Qed.

Lemma byte_outok s c : okst C f rel s -> byte_ok c -> bytes_ok (r_out (block_byte bs f s c)).
Proof.
  intros (Hg & Hl & Hok) Hc. destruct s as [sg pend]. cbn [fst snd] in *. unfold block_byte.
  destruct (zlen pend =? bs) eqn:E; [|constructor].
  pose proof (emit_outok sg pend Hg ltac:(lia) Hok). destruct (emit_block f sg pend) as [[a b] d]. assumption.
Qed.

Lemma run_outok fin l : forall s, okst C f rel s -> bytes_ok l -> bytes_ok (r_out (m_run (block_mealy bs f fin) s l)).
Proof.
  induction l as [|c l IH]; intros s Hs Hl; [constructor|]. apply Forall_cons_iff in Hl. destruct Hl as (Hc & Hl).
  cbn [m_run]. cbn [block_mealy m_byte].
  pose proof (byte_outok s c Hs Hc) as B. pose proof (byte_bounded C f rel bs_pos HC s c Hs Hc) as (B1 & _).
  fold bs in B1. destruct (block_byte bs f s c) as [[s1 o1] [e|]]; unfold r_exn, r_st, r_out in *; cbn [fst snd] in *; [exact B|].
  destruct (B1 eq_refl) as (Hs1 & _). specialize (IH s1 Hs1 Hl).
  change {| m_st := _; m_byte := _; m_flush := _; m_finish := _ |} with (block_mealy bs f fin).
  destruct (m_run (block_mealy bs f fin) s1 l) as [[s2 o2] e2]. cbn [fst snd] in *. apply bytes_ok_app. auto.
Qed.

Lemma flush_outok s : okst C f rel s -> bytes_ok (r_out (block_flush bs f s)).
Proof.
  intros (Hg & Hl & Hok). destruct s as [sg pend]. cbn [fst snd] in *. unfold block_flush.
  destruct (zlen pend =? 0); [constructor|]. destruct (zlen pend =? bs) eqn:E; [|constructor].
  pose proof (emit_outok sg pend Hg ltac:(lia) Hok). destruct (emit_block f sg pend) as [[a b] d]. assumption.
Qed.

Lemma padenc_outok padfn s :
  (forall u l, 0 <= u < bs -> padfn u = Some l -> u + zlen l = bs /\ bytes_ok l) ->
  okst C f rel s -> bytes_ok (r_out (padenc_fin bs padfn f s)).
Proof.
  intros Hp (Hg & Hl & Hok). destruct s as [sg pend]. cbn [fst snd] in *. pose proof (zlen_nonneg pend). unfold padenc_fin.
  assert (Q : forall sg1 pend1 o1, good C f rel sg1 -> zlen pend1 < bs -> bytes_ok pend1 -> bytes_ok o1 ->
    bytes_ok (r_out match padfn (zlen pend1) with
      | Some p => let '(sg2, o2, e2) := emit_block f sg1 (pend1 ++ p) in (sg2, pend1, o1 ++ o2, e2)
      | None => (sg1, pend1, o1, Some Assert_failure)
      end)).
  { intros sg1 pend1 o1 Hg1 Hl1 Hok1 Ho1. pose proof (zlen_nonneg pend1).
    destruct (padfn (zlen pend1)) as [p|] eqn:Ep; [|exact Ho1].
    destruct (Hp (zlen pend1) p ltac:(lia) Ep) as (P1 & P2).
    pose proof (emit_outok sg1 (pend1 ++ p) Hg1 ltac:(rewrite zlen_app; lia) ltac:(apply bytes_ok_app; auto)) as H1.
    destruct (emit_block f sg1 (pend1 ++ p)) as [[a b] d]. apply bytes_ok_app. split; assumption. }
  destruct (zlen pend >=? bs) eqn:E.
  - pose proof (emit_outok sg pend Hg ltac:(fold bs in Hl; lia) Hok) as H1.
    destruct (step_good C f rel bs_pos HC sg pend Hg ltac:(fold bs in Hl |- *; lia) Hok) as (Hg' & _).
    unfold emit_block at 1. unfold emit_block in H1.
    destruct (bf_step f sg pend) as [sg' [o|]]; cbn [fst snd] in *; [|constructor].
    apply (Q sg' [] o); try assumption; constructor.
  - apply (Q sg pend []); try assumption; [lia|constructor].
Qed.

Lemma paddec_outok unpadfn s : okst C f rel s -> bytes_ok (r_out (paddec_fin bs unpadfn f s)).
Proof.
  intros (Hg & Hl & Hok). destruct s as [sg pend]. cbn [fst snd] in *. unfold paddec_fin.
  destruct (zlen pend =? bs) eqn:E; cbn [negb]; [|constructor].
  pose proof (emit_outok sg pend Hg ltac:(lia) Hok) as H1.
  destruct (emit_block f sg pend) as [[sg' o] [e|]]; [constructor|].
  destruct (unpadfn o) as [v|]; [|constructor]. apply bytes_ok_sub. exact H1.
Qed.

Lemma block_growth fin :
  (forall s, okst C f rel s -> bounded C f rel s (2 * bs) (fin s)) ->
  (forall s, okst C f rel s -> bytes_ok (r_out (fin s))) ->
  growth (block_mealy bs f fin) (cfits C f fin) (okst C f rel) 1 (4 * bs).
Proof.
  intros Hf Ho. constructor.
  - lia.
  - intros s l Hs Hl He. destruct (run_bounded C f rel bs_pos HC fin l s Hs Hl) as (B1 & B2). fold bs in B1, B2.
    destruct (B1 He) as (B3 & B4). split; [exact B3|]. split; [|apply run_outok; assumption].
    destruct Hs as (_ & Hs & _). change (m_st (block_mealy bs f fin)) with (bf_st f * bytes)%type. lia.
  - intros s Hs He. destruct (flush_bounded C f rel bs_pos HC s Hs) as (B1 & B2). fold bs in B1, B2.
    cbn [block_mealy m_flush m_st] in *.
    destruct (B1 He) as (B3 & B4). split; [exact B3|]. split; [|apply flush_outok; assumption].
    destruct Hs as (_ & Hs & _). lia.
  - intros s Hs He. destruct (Hf s Hs) as (B1 & B2).
    cbn [block_mealy m_finish m_st] in *.
    destruct (B1 He) as (B3 & B4). split; [exact B3|]. split; [|apply Ho; assumption].
    destruct Hs as (_ & Hs & _). lia.
  - intros s l q Hs Hl Hq. destruct (run_bounded C f rel bs_pos HC fin l s Hs Hl) as (B1 & B2). fold bs in B1, B2.
    cbn [cfits std_fits f_put]. fold bs. destruct Hs as (_ & Hs & _). fold bs in Hs.
    change (m_st (block_mealy bs f fin)) with (bf_st f * bytes)%type. lia.
  - intros s q Hs Hq. destruct (flush_bounded C f rel bs_pos HC s Hs) as (B1 & B2). fold bs in B1, B2.
    cbn [cfits std_fits f_flush]. fold bs. destruct Hs as (_ & Hs & _). fold bs in Hs.
    cbn [block_mealy m_flush m_st]. lia.
  - intros s q Hs Hq. destruct (Hf s Hs) as (B1 & B2).
    cbn [cfits std_fits f_finish]. fold bs. destruct Hs as (_ & Hs & _). fold bs in Hs.
    cbn [block_mealy m_finish m_st]. lia.
Qed.
End BlockLawful.

Section CipherLawful.
Variable fresh : Z -> bytes.
Hypothesis fresh_len : forall n, 0 <= n -> zlen (fresh n) = n.

(* the transform made, its representation relation, and its growth *)
Lemma make_block_cipher_shape m p iv d c E gd :
  let bs := bc_blocksize (b_bc c) in
  let m' := match m with Some m => m | None => CBC end in
  0 < bs < 2 ^ 50 -> bc_implements (b_bc c) (ecb_fn E) (fun s _ => gd s) -> gd (b_st c) ->
  mode_ok bs m' -> iv_ok bs m' iv ->
  let M := block_mealy (mode_bs bs m') (mode_fn bs E m' d) (fin_of (mode_bs bs m') (mode_fn bs E m' d) p d) in
  exists C rel fin (s : cs C) F OK,
    make_block_cipher fresh m (option_map scheme_of p) iv d c = Ret (TObj (cipher_with_finish fresh C fin) s) /\
    bc_blocksize C = mode_bs bs m' /\ 0 < bc_blocksize C < 2 ^ 50 /\
    bc_implements C (mode_fn bs E m' d) rel /\
    implements true (cipher_with_finish fresh C fin) M F (cR C (mode_fn bs E m' d) rel) /\
    growth M F OK 1 (4 * mode_bs bs m') /\
    cR C (mode_fn bs E m' d) rel s (mode_st0 bs E m' d (iv_val bs iv), []) [] /\
    OK (mode_st0 bs E m' d (iv_val bs iv), []).
Proof.
  intros bs m' Hbs HC Hg Hm Hiv. cbv zeta.
  destruct (chain_ok fresh fresh_len m' d iv c E gd) as (cc & rel & Hc & Hcbs & HCC & Hr); try assumption; [fold bs; lia|].
  fold bs in Hcbs, HCC, Hr.
  unfold make_block_cipher. fold m'. rewrite Hc. cbn [obind].
  assert (Hbs' : 0 < mode_bs bs m' < 2 ^ 50).
  { unfold mode_bs, mode_ok in *. destruct m'; lia. }
  unfold bs in *. clear bs. revert rel HCC Hr.
  generalize (mode_st0 (bc_blocksize (b_bc c)) E m' d (iv_val (bc_blocksize (b_bc c)) iv)).
  generalize (mode_fn (bc_blocksize (b_bc c)) E m' d).
  intros f sg rel HCC Hr. clearbody m'. rewrite <- Hcbs in *. clear Hcbs.
  set (C := b_bc cc) in *. set (bs' := bc_blocksize C) in *.
  assert (HR0 := cipher_new_R fresh fresh_len C f rel Hbs' (b_st cc) _ Hr).
  assert (Hok0 : okst C f rel (sg, [])).
  { split; [exists (b_st cc); exact Hr|]. cbn [snd]. split; [change (zlen (@nil Z)) with 0; fold bs'; lia|constructor]. }
  destruct p as [p|]; cbn [option_map]; [destruct d|].
  - eexists C, rel, _, (cipher_new fresh C (b_st cc)), _, (okst C f rel). split; [reflexivity|]. cbn [fin_of].
    assert (HP : forall u l, 0 <= u < bs' -> pad_fn p bs' u = Some l -> u + zlen l = bs' /\ bytes_ok l).
    { intros u l Hu Hl. pose proof (pad_fn_ok p bs' (zeros bs') u ltac:(apply zlen_zeros; lia) Hu) as Hp.
      rewrite Hl in Hp. tauto. }
    split; [reflexivity|]. split; [exact Hbs'|]. split; [exact HCC|]. split; [|split; [|split; [exact HR0|exact Hok0]]].
    + apply cipher_padded_encrypt_implements; try assumption.
      intros buf used Hb Hu. apply pad_fn_ok; assumption.
    + apply block_growth; try assumption; [apply Hbs'| |].
      * intros s Hs. apply (padenc_bounded C f rel); try assumption; apply Hbs'.
      * intros s Hs. apply (padenc_outok C f rel); try assumption; apply Hbs'.
  - eexists C, rel, _, (cipher_new fresh C (b_st cc)), _, (okst C f rel). split; [reflexivity|]. cbn [fin_of].
    split; [reflexivity|]. split; [exact Hbs'|]. split; [exact HCC|]. split; [|split; [|split; [exact HR0|exact Hok0]]].
    + apply cipher_padded_decrypt_implements; try assumption. fold bs'.
      intros buf Hb Hok.
      pose proof (unpad_fn_ok p buf ltac:(lia) Hok) as Hp.
      destruct (unpad_fn p buf); [|exact Hp]. rewrite Hb in Hp. exact Hp.
    + apply block_growth; try assumption; [apply Hbs'| |].
      * intros s Hs. apply (paddec_bounded C f rel); try assumption; [apply Hbs'|]. fold bs'.
        intros b v Hb Hok Hv.
        pose proof (unpad_fn_ok p b ltac:(lia) Hok) as Hp. rewrite Hv in Hp. lia.
      * intros s Hs. apply (paddec_outok C f rel); try assumption; apply Hbs'.
  - eexists C, rel, _, (cipher_new fresh C (b_st cc)), _, (okst C f rel). split; [reflexivity|]. replace (fin_of bs' f None d) with (block_flush bs' f) by (destruct d; reflexivity).
    split; [reflexivity|]. split; [exact Hbs'|]. split; [exact HCC|]. split; [|split; [|split; [exact HR0|exact Hok0]]].
    + apply cipher_implements; assumption.
    + apply block_growth; try assumption; [apply Hbs'| |].
      * intros s Hs. eapply bounded_weaken; [apply flush_bounded; try assumption; apply Hbs'|fold bs'; lia].
      * intros s Hs. apply (flush_outok C f rel); try assumption; apply Hbs'.
Qed.

Lemma make_block_cipher_lawful m p iv d c E gd :
  let bs := bc_blocksize (b_bc c) in
  let m' := match m with Some m => m | None => CBC end in
  0 < bs < 2 ^ 50 -> bc_implements (b_bc c) (ecb_fn E) (fun s _ => gd s) -> gd (b_st c) ->
  mode_ok bs m' -> iv_ok bs m' iv ->
  exists o, make_block_cipher fresh m (option_map scheme_of p) iv d c = Ret o /\
    lawful true o (block_mealy (mode_bs bs m') (mode_fn bs E m' d) (fin_of (mode_bs bs m') (mode_fn bs E m' d) p d))
      (mode_st0 bs E m' d (iv_val bs iv), []) 1 (4 * mode_bs bs m').
Proof.
  intros bs m' Hbs HC Hg Hm Hiv.
  destruct (make_block_cipher_shape m p iv d c E gd Hbs HC Hg Hm Hiv) as (C & rel & fin & s & F & OK & H1 & _ & _ & _ & H2 & H3 & H4 & H5).
  eexists. split; [exact H1|]. eexists _, _, _. split; [exact H2|]. split; [exact H3|]. split; [exact H4|exact H5].
Qed.

Lemma make_cipher_lawful nb key bs E D m p iv d : block_family nb key bs E D ->
  mode_ok bs (dmode m) -> iv_ok bs (dmode m) iv ->
  exists o f sg fin, make_cipher fresh nb m (option_map scheme_of p) iv key d = Ret o /\
    lawful true o (block_mealy (mode_bs bs (dmode m)) f fin) (sg, []) 1 (4 * mode_bs bs (dmode m)).
Proof.
  intros [Hbs Hnew HE HD] Hm Hiv. unfold make_cipher.
  destruct (Hnew (normalize_dir m d)) as (c & gd & Hc & Hcb & HC & Hg). rewrite Hc. cbn [obind].
  rewrite <- Hcb in *.
  destruct (make_block_cipher_lawful m p iv d c _ gd Hbs HC Hg Hm Hiv) as (o & H1 & H2).
  exists o. eexists _, _, _. split; [exact H1|exact H2].
Qed.
End CipherLawful.
