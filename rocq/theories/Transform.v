(* Generic facts about transforms that implement a transducer. *)
From Verif Require Import Prelude PreludeFacts SpecTransducer TransformModel.
Ltac Zify.zify_post_hook ::= Z.div_mod_to_equations.

(* ------------------------------------------------------------------ *)
(* Transducers                                                          *)

Lemma m_run_app M l1 : forall sg l2,
  m_run M sg (l1 ++ l2) =
  m_then (m_run M sg l1) (fun sg' => m_run M sg' l2) (fun s => s).
Proof.
  induction l1 as [|c l1 IH]; intros sg l2; cbn [m_run app m_then].
  - destruct (m_run M sg l2) as [[s o] e]. reflexivity.
  - destruct (m_byte M sg c) as [[s1 o1] [e|]]; [reflexivity|].
    rewrite IH. unfold m_then.
    destruct (m_run M s1 l1) as [[s2 o2] [e2|]]; [reflexivity|].
    destruct (m_run M s2 l2) as [[s3 o3] e3]. rewrite app_assoc. reflexivity.
Qed.

Lemma m_run_one M sg c : m_run M sg [c] = m_byte M sg c.
Proof.
  cbn [m_run]. destruct (m_byte M sg c) as [[s o] [e|]]; [reflexivity|].
  rewrite app_nil_r. reflexivity.
Qed.

Lemma m_events_app M l1 : forall sg l2,
  m_events M sg (l1 ++ l2) =
  m_then (m_events M sg l1) (fun sg' => m_events M sg' l2) (fun s => s).
Proof.
  induction l1 as [|c l1 IH]; intros sg l2; cbn [m_events app m_then].
  - destruct (m_events M sg l2) as [[s o] e]. reflexivity.
  - destruct (m_event M sg c) as [[s1 o1] [e|]]; [reflexivity|].
    rewrite IH. unfold m_then.
    destruct (m_events M s1 l1) as [[s2 o2] [e2|]]; [reflexivity|].
    destruct (m_events M s2 l2) as [[s3 o3] e3]. rewrite app_assoc. reflexivity.
Qed.

Lemma m_events_bytes M l : forall sg, m_events M sg (map EByte l) = m_run M sg l.
Proof.
  induction l as [|c l IH]; intros sg; [reflexivity|].
  cbn [map m_events m_event m_run].
  destruct (m_byte M sg c) as [[s o] [e|]]; [reflexivity|]. rewrite IH. reflexivity.
Qed.

Lemma m_events_one M sg e : m_events M sg [e] = m_event M sg e.
Proof.
  cbn [m_events]. destruct (m_event M sg e) as [[s o] [x|]]; [reflexivity|].
  rewrite app_nil_r. reflexivity.
Qed.

(* ------------------------------------------------------------------ *)
(* Simulation of a transducer by a transform object                     *)

(* size conditions under which no buffer overflows *)
Record fits (M : mealy) := Fits {
  f_put : m_st M -> bytes -> bytes -> Prop;
  f_flush : m_st M -> bytes -> Prop;
  f_finish : m_st M -> bytes -> Prop }.
Arguments f_put {M}. Arguments f_flush {M}. Arguments f_finish {M}.

(* pending output plus emission plus a constant fits in a string *)
Definition std_fits (M : mealy) (slack : Z) : fits M :=
  let ok q r := zlen q + zlen (@r_out (m_st M) r) + slack <= max_string_length in
  {| f_put := fun sg l q => ok q (m_run M sg l);
     f_flush := fun sg q => ok q (m_flush M sg);
     f_finish := fun sg q => ok q (m_finish M sg) |}.

(* [strict]: which exception is raised is determined too *)
Definition matches {S Sg} (strict : bool) (R : S -> Sg -> bytes -> Prop) (q : bytes)
    (r : Sg * bytes * option exn) (x : S * out unit) : Prop :=
  match r_exn r with
  | None => snd x = Ret tt /\ R (fst x) (r_st r) (q ++ r_out r)
  | Some e => exists e', snd x = Raise e' /\ (strict = true -> e' = e)
  end.

Record implements (strict : bool) (T : transform) (M : mealy) (F : fits M)
    (R : t_st T -> m_st M -> bytes -> Prop) : Prop := {
  im_put_substring : forall s sg q b o n,
    R s sg q -> in_range b o n = true -> bytes_ok (sub b o n) -> zlen b <= max_string_length ->
    f_put F sg (sub b o n) q ->
    matches strict R q (m_run M sg (sub b o n)) (t_put_substring T s b o n);
  im_put_string : forall s sg q str,
    R s sg q -> bytes_ok str -> zlen str <= max_string_length -> f_put F sg str q ->
    matches strict R q (m_run M sg str) (t_put_string T s str);
  im_put_char : forall s sg q c,
    R s sg q -> byte_ok c -> f_put F sg [c] q ->
    matches strict R q (m_run M sg [c]) (t_put_char T s c);
  im_put_byte : forall s sg q c,
    R s sg q -> byte_ok c -> f_put F sg [c] q ->
    matches strict R q (m_run M sg [c]) (t_put_byte T s c);
  im_flush : forall s sg q,
    R s sg q -> f_flush F sg q -> matches strict R q (m_flush M sg) (t_flush T s);
  im_finish : forall s sg q,
    R s sg q -> f_finish F sg q -> matches strict R q (m_finish M sg) (t_finish T s);
  im_available : forall s sg q, R s sg q -> t_available T s = zlen q;
  im_get_string : forall s sg q, R s sg q ->
    exists s', t_get_string T s = (s', Ret q) /\ R s' sg [];
  im_get_substring : forall s sg q, R s sg q ->
    exists s' b o, t_get_substring T s = (s', Ret (b, o, zlen q)) /\
      in_range b o (zlen q) = true /\ sub b o (zlen q) = q /\ zlen b <= max_string_length /\ R s' sg [];
  im_get_char : forall s sg q, R s sg q ->
    match q with
    | [] => t_get_char T s = (s, Raise End_of_file)
    | c :: q' => exists s', t_get_char T s = (s', Ret c) /\ R s' sg q'
    end;
  im_get_byte : forall s sg q, R s sg q ->
    match q with
    | [] => t_get_byte T s = (s, Raise End_of_file)
    | c :: q' => exists s', t_get_byte T s = (s', Ret c) /\ R s' sg q'
    end;
  im_wipe : forall s sg q, R s sg q -> exists s', t_wipe T s = (s', Ret tt);
  im_bytes : forall s sg q, R s sg q -> bytes_ok q }.

Definition op_fits {M} (F : fits M) (sg : m_st M) (q : bytes) (o : op) : Prop :=
  match o with
  | PutSubstring _ _ _ | PutString _ | PutChar _ | PutByte _ => f_put F sg (op_data o) q
  | Flush => f_flush F sg q
  | Finish => f_finish F sg q
  | _ => True
  end.

Fixpoint run_fits {M} (F : fits M) (sg : m_st M) (q : bytes) (ops : list op) : Prop :=
  match ops with
  | [] => True
  | o :: ops' =>
      op_fits F sg q o /\
      let '(sg', q', ob) := spec_step M sg q o in
      if ends o ob then True else run_fits F sg' q' ops'
  end.

Section Generic.
Variables (T : transform) (M : mealy) (F : fits M) (R : t_st T -> m_st M -> bytes -> Prop).

Section Strict.
Hypothesis I : implements true T M F R.

Lemma t_step_ok s sg q o : R s sg q -> op_valid o -> op_fits F sg q o ->
  snd (t_step T s o) = snd (spec_step M sg q o) /\
  (ends o (snd (t_step T s o)) = false ->
   R (fst (t_step T s o)) (fst (fst (spec_step M sg q o))) (snd (fst (spec_step M sg q o)))).
Proof.
  assert (U : forall r x, matches true R q r x ->
    snd (unit_obs x) = snd (emit_obs q r) /\
    ((match snd (unit_obs x) with OExn _ | OUndef | OHang => true | _ => false end) = false ->
      R (fst (unit_obs x)) (fst (fst (emit_obs q r))) (snd (fst (emit_obs q r))))).
  { intros r x Hm. unfold matches in Hm. unfold unit_obs, emit_obs. cbn [fst snd].
    destruct (r_exn r) as [e|].
    - destruct Hm as (e' & -> & He). rewrite He by reflexivity. split; [reflexivity|discriminate].
    - destruct Hm as (-> & HR). split; [reflexivity|intros _; exact HR]. }
  intros HR Hv Hf. destruct o; cbn [t_step spec_step op_data op_fits op_valid] in *.
  - apply U, (im_put_substring _ _ _ _ _ I); try assumption; try tauto.
    apply bytes_ok_sub; tauto.
  - apply U, (im_put_string _ _ _ _ _ I); tauto.
  - apply U, (im_put_char _ _ _ _ _ I); assumption.
  - apply U, (im_put_byte _ _ _ _ _ I); assumption.
  - apply U, (im_flush _ _ _ _ _ I); assumption.
  - apply U, (im_finish _ _ _ _ _ I); assumption.
  - rewrite (im_available _ _ _ _ _ I _ _ _ HR). split; [reflexivity|intros _; exact HR].
  - destruct (im_get_string _ _ _ _ _ I _ _ _ HR) as (s' & -> & HR').
    split; [reflexivity|intros _; exact HR'].
  - destruct (im_get_substring _ _ _ _ _ I _ _ _ HR) as (s' & b & o & -> & H1 & H2 & H3 & HR').
    unfold substring_obs. cbn [fst snd]. rewrite H1, H2.
    split; [reflexivity|intros _; exact HR'].
  - pose proof (im_get_char _ _ _ _ _ I _ _ _ HR) as H. destruct q as [|c q'].
    + rewrite H. split; [reflexivity|intros _; exact HR].
    + destruct H as (s' & -> & HR'). split; [reflexivity|intros _; exact HR'].
  - pose proof (im_get_byte _ _ _ _ _ I _ _ _ HR) as H. destruct q as [|c q'].
    + rewrite H. split; [reflexivity|intros _; exact HR].
    + destruct H as (s' & -> & HR'). split; [reflexivity|intros _; exact HR'].
Qed.

(* Any history of calls is observationally the transducer with a queue. *)
Lemma t_run_ok ops : forall s sg q, R s sg q -> Forall op_valid ops -> run_fits F sg q ops ->
  t_run T s ops = spec_run M sg q ops.
Proof.
  induction ops as [|o ops IH]; intros s sg q HR Hv Hf; [reflexivity|].
  inversion Hv as [|? ? Hv1 Hv2]; subst. destruct Hf as (Hf1 & Hf2).
  destruct (t_step_ok s sg q o HR Hv1 Hf1) as (Hs1 & Hs2).
  cbn [t_run spec_run].
  destruct (t_step T s o) as [s' ob]. destruct (spec_step M sg q o) as [[sg' q'] ob'].
  cbn [fst snd] in *. subst ob'.
  destruct (ends o ob); [reflexivity|]. f_equal. apply IH; auto.
Qed.
End Strict.

Section NonStrict.
Variable strict : bool.
Hypothesis I : implements strict T M F R.

Lemma transform_string_ok s sg str :
  R s sg [] -> bytes_ok str -> zlen str <= max_string_length -> f_put F sg str [] ->
  (r_exn (m_run M sg str) = None ->
   f_finish F (r_st (m_run M sg str)) (r_out (m_run M sg str))) ->
  match r_exn (m_total M sg str) with
  | None => snd (transform_string T s str) = Ret (r_out (m_total M sg str))
  | Some e => exists e', snd (transform_string T s str) = Raise e' /\ (strict = true -> e' = e)
  end.
Proof.
  intros HR Hb Hl Hf1 Hf2. unfold transform_string, m_total, m_then.
  pose proof (im_put_string _ _ _ _ _ I _ _ _ _ HR Hb Hl Hf1) as Hp. unfold matches in Hp.
  destruct (m_run M sg str) as [[sg1 o1] [e1|]]; unfold r_exn, r_st, r_out in *; cbn [fst snd] in *.
  - destruct Hp as (e' & Hp1 & Hp2).
    destruct (t_put_string T s str) as [s1 x]. cbn [snd] in Hp1. subst x.
    cbn [bind snd]. exists e'. auto.
  - destruct Hp as (Hp1 & Hp2).
    destruct (t_put_string T s str) as [s1 x]. cbn [fst snd] in *. subst x. cbn [bind].
    specialize (Hf2 eq_refl).
    pose proof (im_finish _ _ _ _ _ I _ _ _ Hp2 Hf2) as Hq. unfold matches in Hq.
    destruct (m_finish M sg1) as [[sg2 o2] [e2|]]; unfold r_exn, r_st, r_out in *; cbn [fst snd] in *.
    + destruct Hq as (e' & Hq1 & Hq2).
      destruct (t_finish T s1) as [s2 x]. cbn [snd] in Hq1. subst x. cbn [bind snd].
      exists e'. auto.
    + destruct Hq as (Hq1 & Hq2).
      destruct (t_finish T s1) as [s2 x]. cbn [fst snd] in *. subst x. cbn [bind].
      destruct (im_get_string _ _ _ _ _ I _ _ _ Hq2) as (s3 & -> & HR3). cbn [bind].
      destruct (im_wipe _ _ _ _ _ I _ _ _ HR3) as (s4 & ->). reflexivity.
Qed.

(* ---- transform_channel ---- *)
Section Chan.
Variable fresh : Z -> bytes.
Hypothesis fresh_len : forall n, 0 <= n -> zlen (fresh n) = n.
Variable sched : nat -> Z.
(* an invariant of the states reached without exception *)
Variable OK : m_st M -> Prop.
Hypothesis OK_run : forall sg l, OK sg -> bytes_ok l -> r_exn (m_run M sg l) = None -> OK (r_st (m_run M sg l)).
Hypothesis chunk_fits : forall sg l, OK sg -> bytes_ok l -> zlen l <= 256 -> f_put F sg l [].
Hypothesis finish_fits : forall sg, OK sg -> f_finish F sg [].

Lemma input_spec ch buf n : 0 < n <= zlen buf ->
  exists r, input sched ch buf n =
    (Channel (skipn (Z.to_nat r) (ch_data ch)) (S (ch_calls ch)),
     splice buf 0 (firstn (Z.to_nat r) (ch_data ch)), r) /\
    0 <= r <= n /\ r <= zlen (ch_data ch) /\ (r = 0 -> ch_data ch = []) /\
    zlen (splice buf 0 (firstn (Z.to_nat r) (ch_data ch))) = zlen buf /\
    sub (splice buf 0 (firstn (Z.to_nat r) (ch_data ch))) 0 r
     = firstn (Z.to_nat r) (ch_data ch).
Proof.
  intros Hn. eexists; split; [reflexivity|].
  pose proof (zlen_nonneg (ch_data ch)).
  assert (Hr : 0 <= input_amount sched ch n <= n /\ input_amount sched ch n <= zlen (ch_data ch)
               /\ (input_amount sched ch n = 0 -> ch_data ch = [])).
  { unfold input_amount. repeat split; try lia. intros. apply zlen_0. lia. }
  destruct Hr as (H1 & H2 & H3).
  assert (Hz : zlen (firstn (Z.to_nat (input_amount sched ch n)) (ch_data ch))
               = input_amount sched ch n).
  { unfold zlen in *. rewrite firstn_length. lia. }
  repeat split; try lia; try assumption.
  - apply zlen_splice; lia.
  - apply sub_splice_same; lia.
Qed.

Lemma tc_emit_ok (s : tcs T) sg q : R (tc_tr s) sg q ->
  exists t', tc_emit T s = (TCS t' (tc_ch s) (tc_ibuf s) (tc_out s ++ q), Ret tt) /\ R t' sg [].
Proof.
  intros HR. unfold tc_emit.
  destruct (im_get_substring _ _ _ _ _ I _ _ _ HR) as (s' & b & o & -> & H1 & H2 & H3 & HR').
  unfold lift. cbn [fst snd bind]. unfold bytes_sub. rewrite H1. cbn [bind]. rewrite H2.
  unfold set_tr. cbn [tc_tr tc_ch tc_ibuf tc_out]. eexists; split; [reflexivity|exact HR'].
Qed.

Lemma transf_to_eof_ok fuel : forall (s : tcs T) sg, OK sg ->
  R (tc_tr s) sg [] -> zlen (tc_ibuf s) = 256 -> bytes_ok (ch_data (tc_ch s)) ->
  (length (ch_data (tc_ch s)) < fuel)%nat ->
  match r_exn (m_run M sg (ch_data (tc_ch s))) with
  | None => snd (transf_to_eof sched T fuel s) = Ret tt /\
      R (tc_tr (fst (transf_to_eof sched T fuel s))) (r_st (m_run M sg (ch_data (tc_ch s)))) [] /\
      tc_out (fst (transf_to_eof sched T fuel s)) = tc_out s ++ r_out (m_run M sg (ch_data (tc_ch s))) /\
      ch_data (tc_ch (fst (transf_to_eof sched T fuel s))) = []
  | Some e => exists e', snd (transf_to_eof sched T fuel s) = Raise e' /\ (strict = true -> e' = e)
  end.
Proof.
  induction fuel as [|fuel IH]; intros s sg HOK HR Hib Hb Hfuel; [lia|].
  cbn [transf_to_eof].
  destruct (input_spec (tc_ch s) (tc_ibuf s) 256) as (r & -> & Hr1 & Hr2 & Hr0 & Hlen & Hsub); [lia|].
  set (data := ch_data (tc_ch s)) in *.
  destruct (r >? 0) eqn:Er.
  2:{ assert (data = []) as -> by (apply Hr0; lia). cbn [m_run r_exn r_st r_out fst snd].
      repeat split; cbn [tc_tr tc_out tc_ch fst ch_data].
      - assumption.
      - rewrite app_nil_r; reflexivity.
      - apply skipn_nil. }
  cbn [tc_tr tc_ch tc_ibuf tc_out].
  set (l1 := firstn (Z.to_nat r) data) in *. set (l2 := skipn (Z.to_nat r) data) in *.
  set (ib := splice (tc_ibuf s) 0 l1) in *.
  assert (Ed : data = l1 ++ l2) by (symmetry; apply firstn_skipn).
  assert (Hl1 : zlen l1 = r).
  { unfold l1, zlen in *. rewrite firstn_length. lia. }
  assert (Hb12 : bytes_ok l1 /\ bytes_ok l2) by (rewrite Ed in Hb; apply bytes_ok_app; exact Hb).
  assert (Hir : in_range ib 0 r = true) by (apply in_range_true; lia).
  pose proof (im_put_substring _ _ _ _ _ I (tc_tr s) sg [] ib 0 r HR Hir) as Hp.
  rewrite Hsub in Hp. specialize (Hp (proj1 Hb12) ltac:(rewrite Hlen, Hib; unfold max_string_length; lia) (chunk_fits sg l1 HOK (proj1 Hb12) ltac:(lia))).
  unfold matches in Hp. rewrite Ed, m_run_app. unfold m_then.
  pose proof (OK_run sg l1 HOK (proj1 Hb12)) as HOK1.
  destruct (m_run M sg l1) as [[sg1 o1] [e1|]]; unfold r_exn, r_st, r_out in Hp, HOK1; cbn [fst snd] in Hp, HOK1.
  - destruct Hp as (e' & Hp1 & Hp2). unfold r_exn; cbn [snd].
    exists e'. unfold lift. destruct (t_put_substring T (tc_tr s) ib 0 r) as [s1 x].
    cbn [fst snd] in *. subst x. cbn [bind snd]. auto.
  - destruct Hp as (Hp1 & Hp2). unfold lift.
    destruct (t_put_substring T (tc_tr s) ib 0 r) as [s1 x]. cbn [fst snd] in *. subst x. cbn [bind].
    destruct (tc_emit_ok (set_tr T {| tc_tr := tc_tr s; tc_ch := {| ch_data := l2; ch_calls := S (ch_calls (tc_ch s)) |};
                  tc_ibuf := ib; tc_out := tc_out s |} s1) sg1 o1) as (t' & -> & HR').
    { exact Hp2. }
    cbn [bind set_tr tc_tr tc_ch tc_ibuf tc_out].
    match goal with |- context [transf_to_eof sched T fuel ?s2] => set (s2' := s2) end.
    specialize (IH s2' sg1 (HOK1 eq_refl) HR' (eq_trans Hlen Hib) (proj2 Hb12)).
    assert (Hf : (length (ch_data (tc_ch s2')) < fuel)%nat).
    { cbn [s2' tc_ch ch_data]. unfold l2. rewrite skipn_length. unfold zlen in *. lia. }
    specialize (IH Hf). cbn [s2' tc_ch ch_data tc_out] in IH |- *. fold s2' in IH |- *.
    destruct (m_run M sg1 l2) as [[sg2 o2] [e2|]]; unfold r_exn, r_st, r_out in *; cbn [fst snd] in *.
    + exact IH.
    + destruct IH as (IH1 & IH2 & IH3 & IH4). repeat split; try assumption.
      rewrite IH3, <- app_assoc. reflexivity.
Qed.

Lemma transf_bounded_ok fuel : forall (s : tcs T) sg numleft, OK sg ->
  R (tc_tr s) sg [] -> zlen (tc_ibuf s) = 256 -> bytes_ok (ch_data (tc_ch s)) ->
  (length (ch_data (tc_ch s)) < fuel)%nat ->
  let data := firstn (Z.to_nat numleft) (ch_data (tc_ch s)) in
  let res := transf_bounded sched T fuel s numleft in
  match r_exn (m_run M sg data) with
  | None => 
      tc_out (fst res) = tc_out s ++ r_out (m_run M sg data) /\
      ch_data (tc_ch (fst res)) = skipn (Z.to_nat numleft) (ch_data (tc_ch s)) /\
      (if numleft <=? zlen (ch_data (tc_ch s)) then
        snd res = Ret tt /\ R (tc_tr (fst res)) (r_st (m_run M sg data)) []
       else snd res = Raise End_of_file)
  | Some e => exists e', snd res = Raise e' /\ (strict = true -> e' = e)
  end.
Proof.
  induction fuel as [|fuel IH]; intros s sg numleft HOK HR Hib Hb Hfuel; [lia|].
  cbn zeta. cbn [transf_bounded].
  destruct (numleft >? 0) eqn:En.
  2:{ replace (Z.to_nat numleft) with 0%nat by lia.
      cbn [firstn m_run r_exn r_st r_out fst snd skipn].
      rewrite app_nil_r. pose proof (zlen_nonneg (ch_data (tc_ch s))).
      replace (numleft <=? zlen (ch_data (tc_ch s))) with true by lia. auto. }
  destruct (input_spec (tc_ch s) (tc_ibuf s) (Z.min 256 numleft)) as (r & -> & Hr1 & Hr2 & Hr0 & Hlen & Hsub); [lia|].
  set (data := ch_data (tc_ch s)) in *.
  destruct (r =? 0) eqn:Er.
  { assert (data = []) as -> by (apply Hr0; lia). rewrite firstn_nil.
    cbn [m_run r_exn r_st r_out fst snd tc_out tc_ch ch_data].
    rewrite app_nil_r, !skipn_nil. replace (numleft <=? zlen (@nil Z)) with false by (rewrite zlen_nil; lia).
    auto. }
  cbn [tc_tr tc_ch tc_ibuf tc_out].
  set (l1 := firstn (Z.to_nat r) data) in *. set (l2 := skipn (Z.to_nat r) data) in *.
  set (ib := splice (tc_ibuf s) 0 l1) in *.
  assert (Ed : data = l1 ++ l2) by (symmetry; apply firstn_skipn).
  assert (Hl1 : zlen l1 = r).
  { unfold l1, zlen in *. rewrite firstn_length. lia. }
  assert (Efn : firstn (Z.to_nat numleft) data = l1 ++ firstn (Z.to_nat (numleft - r)) l2).
  { rewrite Ed, firstn_app. rewrite (firstn_all2 l1) by (unfold zlen in Hl1; lia).
    do 2 f_equal. unfold zlen in Hl1. lia. }
  assert (Esn : skipn (Z.to_nat numleft) data = skipn (Z.to_nat (numleft - r)) l2).
  { unfold l2. rewrite skipn_skipn. f_equal. lia. }
  assert (Hb12 : bytes_ok l1 /\ bytes_ok l2) by (rewrite Ed in Hb; apply bytes_ok_app; exact Hb).
  assert (Hir : in_range ib 0 r = true) by (apply in_range_true; lia).
  pose proof (im_put_substring _ _ _ _ _ I (tc_tr s) sg [] ib 0 r HR Hir) as Hp.
  rewrite Hsub in Hp. specialize (Hp (proj1 Hb12) ltac:(rewrite Hlen, Hib; unfold max_string_length; lia) (chunk_fits sg l1 HOK (proj1 Hb12) ltac:(lia))).
  unfold matches in Hp. rewrite Efn, Esn, m_run_app. unfold m_then.
  pose proof (OK_run sg l1 HOK (proj1 Hb12)) as HOK1.
  destruct (m_run M sg l1) as [[sg1 o1] [e1|]]; unfold r_exn, r_st, r_out in Hp, HOK1; cbn [fst snd] in Hp, HOK1.
  - destruct Hp as (e' & Hp1 & Hp2). unfold r_exn; cbn [snd].
    exists e'. unfold lift. destruct (t_put_substring T (tc_tr s) ib 0 r) as [s1 x].
    cbn [fst snd] in *. subst x. cbn [bind snd]. auto.
  - destruct Hp as (Hp1 & Hp2). unfold lift.
    destruct (t_put_substring T (tc_tr s) ib 0 r) as [s1 x]. cbn [fst snd] in *. subst x. cbn [bind].
    destruct (tc_emit_ok (set_tr T {| tc_tr := tc_tr s; tc_ch := {| ch_data := l2; ch_calls := S (ch_calls (tc_ch s)) |};
                  tc_ibuf := ib; tc_out := tc_out s |} s1) sg1 o1) as (t' & -> & HR').
    { exact Hp2. }
    cbn [bind set_tr tc_tr tc_ch tc_ibuf tc_out].
    match goal with |- context [transf_bounded sched T fuel ?s2 _] => set (s2' := s2) end.
    specialize (IH s2' sg1 (numleft - r) (HOK1 eq_refl) HR' (eq_trans Hlen Hib) (proj2 Hb12)).
    assert (Hf : (length (ch_data (tc_ch s2')) < fuel)%nat).
    { cbn [s2' tc_ch ch_data]. unfold l2. rewrite skipn_length. unfold zlen in *. lia. }
    specialize (IH Hf). cbn zeta in IH. cbn [s2' tc_ch ch_data tc_out] in IH |- *. fold s2' in IH |- *.
    assert (El2 : zlen l2 = zlen data - r) by (rewrite Ed, zlen_app; lia).
    destruct (m_run M sg1 (firstn (Z.to_nat (numleft - r)) l2)) as [[sg2 o2] [e2|]];
      unfold r_exn, r_st, r_out in *; cbn [fst snd] in *.
    + exact IH.
    + destruct IH as (IH1 & IH2 & IH3). repeat split; try assumption.
      * rewrite IH1, <- app_assoc. reflexivity.
      * replace (numleft <=? zlen data) with (numleft - r <=? zlen l2) by lia. exact IH3.
Qed.

(* tail of transform_channel after the reading loop *)
Lemma channel_tail (s : tcs T) sg (k : tcs T -> tcs T * out unit) : OK sg -> R (tc_tr s) sg [] ->
  (k = fun s => 
    let! (s, u) := lift (set_tr T s) (t_finish T (tc_tr s)) in
    let! (s, u) := tc_emit T s in lift (set_tr T s) (t_wipe T (tc_tr s))) ->
  match r_exn (m_finish M sg) with
  | None => snd (k s) = Ret tt /\ tc_out (fst (k s)) = tc_out s ++ r_out (m_finish M sg) /\
            tc_ch (fst (k s)) = tc_ch s
  | Some e => exists e', snd (k s) = Raise e' /\ (strict = true -> e' = e)
  end.
Proof.
  intros HOK HR ->. pose proof (im_finish _ _ _ _ _ I _ _ _ HR (finish_fits sg HOK)) as Hq.
  unfold matches in Hq. unfold lift.
  destruct (m_finish M sg) as [[sg2 o2] [e2|]]; unfold r_exn, r_st, r_out in *; cbn [fst snd] in *.
  - destruct Hq as (e' & Hq1 & Hq2).
    destruct (t_finish T (tc_tr s)) as [s2 x]. cbn [fst snd] in *. subst x. cbn [bind snd].
    exists e'. auto.
  - destruct Hq as (Hq1 & Hq2).
    destruct (t_finish T (tc_tr s)) as [s2 x]. cbn [fst snd app] in *. subst x. cbn [bind].
    destruct (tc_emit_ok (set_tr T s s2) sg2 o2 Hq2) as (t' & -> & HR').
    cbn [bind]. destruct (im_wipe _ _ _ _ _ I _ _ _ HR') as (s4 & Hw).
    cbn [tc_tr]. rewrite Hw. cbn [fst snd set_tr tc_out tc_ch]. auto.
Qed.

(* the bytes of the channel a call is asked to read *)
Definition requested (len : option Z) (ic : bytes) : bytes :=
  match len with None => ic | Some l => firstn (Z.to_nat l) ic end.
Definition long_enough (len : option Z) (ic : bytes) : bool :=
  match len with None => true | Some l => l <=? zlen ic end.

Lemma transform_channel_ok tr sg len ic : OK sg -> R tr sg [] -> bytes_ok ic ->
  let res := transform_channel fresh sched T tr len ic in
  match r_exn (m_run M sg (requested len ic)) with
  | Some e => exists e', snd res = Raise e' /\ (strict = true -> e' = e)
  | None =>
    if long_enough len ic then
      match r_exn (m_total M sg (requested len ic)) with
      | Some e => exists e', snd res = Raise e' /\ (strict = true -> e' = e)
      | None => snd res = Ret tt /\
           tc_out (fst res) = r_out (m_total M sg (requested len ic)) /\
           ch_data (tc_ch (fst res)) = skipn (length (requested len ic)) ic
      end
    else snd res = Raise End_of_file
  end.
Proof.
  intros HOK HR Hb. cbn zeta. unfold transform_channel.
  set (s0 := {| tc_tr := tr; tc_ch := _; tc_ibuf := _; tc_out := _ |}).
  assert (Hib : zlen (tc_ibuf s0) = 256) by (apply fresh_len; lia).
  set (loop := match len with None => transf_to_eof sched T (S (length ic)) s0
               | Some l => transf_bounded sched T (S (length ic)) s0 l end).
  assert (L : match r_exn (m_run M sg (requested len ic)) with
    | None => tc_out (fst loop) = r_out (m_run M sg (requested len ic)) /\
              ch_data (tc_ch (fst loop)) = skipn (length (requested len ic)) ic /\
              (if long_enough len ic then
                snd loop = Ret tt /\ R (tc_tr (fst loop)) (r_st (m_run M sg (requested len ic))) []
               else snd loop = Raise End_of_file)
    | Some e => exists e', snd loop = Raise e' /\ (strict = true -> e' = e)
    end).
  { destruct len as [l|]; cbn [requested long_enough] in *.
    - pose proof (transf_bounded_ok (S (length ic)) s0 sg l HOK HR Hib Hb) as H.
      cbn [s0 tc_ch ch_data tc_out] in H. fold s0 in H. cbn zeta in H.
      specialize (H ltac:(lia)). fold loop in H.
      destruct (r_exn (m_run M sg (firstn (Z.to_nat l) ic))); [exact H|].
      destruct H as (H1 & H2 & H3). repeat split; try assumption.
      rewrite H2, firstn_length.
      destruct (Nat.le_gt_cases (Z.to_nat l) (length ic)).
      + f_equal. lia.
      + rewrite !skipn_all2 by lia. reflexivity.
    - pose proof (transf_to_eof_ok (S (length ic)) s0 sg HOK HR Hib Hb) as H.
      cbn [s0 tc_ch ch_data tc_out] in H. fold s0 in H.
      specialize (H ltac:(lia)). fold loop in H.
      destruct (r_exn (m_run M sg ic)); [exact H|].
      destruct H as (H1 & H2 & H3 & H4). repeat split; try assumption.
      rewrite H4, skipn_all. reflexivity. }
  clearbody loop. unfold m_total, m_then.
  assert (Hrb : bytes_ok (requested len ic)) by (destruct len; [apply Forall_firstn|]; exact Hb).
  pose proof (OK_run sg (requested len ic) HOK Hrb) as HOK1.
  destruct (m_run M sg (requested len ic)) as [[sg1 o1] [e1|]];
    unfold r_exn, r_st, r_out in *; cbn [fst snd] in *.
  - destruct L as (e' & L1 & L2). destruct loop as [s1 x]. cbn [snd] in L1. subst x.
    cbn [bind snd]. exists e'; auto.
  - destruct L as (L1 & L2 & L3). destruct (long_enough len ic).
    2:{ destruct loop as [s1 x]. cbn [snd] in L3. subst x. reflexivity. }
    destruct L3 as (L3 & L4).
    destruct loop as [s1 x]. cbn [fst snd] in *. subst x. cbn [bind].
    set (s1' := {| tc_tr := tc_tr s1; tc_ch := _; tc_ibuf := _; tc_out := _ |}).
    pose proof (channel_tail s1' sg1 _ (HOK1 eq_refl) L4 eq_refl) as Ht. cbn beta in Ht.
    destruct (m_finish M sg1) as [[sg2 o2] [e2|]]; unfold r_exn, r_out in *; cbn [fst snd] in *.
    + exact Ht.
    + destruct Ht as (Ht1 & Ht2 & Ht3). repeat split; try assumption.
      * rewrite Ht2. cbn [s1' tc_out]. rewrite L1. reflexivity.
      * rewrite Ht3. cbn [s1' tc_ch]. exact L2.
Qed.
End Chan.
End NonStrict.
End Generic.

(* ------------------------------------------------------------------ *)
(* compose                                                              *)

Section ComposeFacts.
Variables (T1 T2 : transform) (M1 M2 : mealy) (F1 : fits M1) (F2 : fits M2)
  (R1 : t_st T1 -> m_st M1 -> bytes -> Prop) (R2 : t_st T2 -> m_st M2 -> bytes -> Prop)
  (strict1 strict2 : bool).
Hypothesis I1 : implements strict1 T1 M1 F1 R1.
Hypothesis I2 : implements strict2 T2 M2 F2 R2.

Definition comp_R (s : t_st (compose T1 T2)) (sg : m_st (m_compose M1 M2)) (q : bytes) : Prop :=
  R1 (fst s) (fst sg) [] /\ R2 (snd s) (snd sg) q.

Definition comp_fits : fits (m_compose M1 M2) := {|
  f_put := fun (sg : m_st (m_compose M1 M2)) l q =>
    f_put F1 (fst sg) l [] /\
    (r_exn (m_run M1 (fst sg) l) = None -> f_put F2 (snd sg) (r_out (m_run M1 (fst sg) l)) q);
  f_flush := fun (sg : m_st (m_compose M1 M2)) q =>
    f_flush F1 (fst sg) [] /\
    let r1 := m_flush M1 (fst sg) in
    (r_exn r1 = None -> f_put F2 (snd sg) (r_out r1) q) /\
    let r2 := m_run M2 (snd sg) (r_out r1) in
    (r_exn r1 = None -> r_exn r2 = None -> f_flush F2 (r_st r2) (q ++ r_out r2));
  f_finish := fun (sg : m_st (m_compose M1 M2)) q =>
    f_finish F1 (fst sg) [] /\
    let r1 := m_finish M1 (fst sg) in
    (r_exn r1 = None -> f_put F2 (snd sg) (r_out r1) q) /\
    let r2 := m_run M2 (snd sg) (r_out r1) in
    (r_exn r1 = None -> r_exn r2 = None -> f_finish F2 (r_st r2) (q ++ r_out r2)) |}.

(* running the composed transducer on a chunk: first M1 on the whole chunk,
   then M2 on what it emitted *)
Lemma m_compose_run l : forall s1 s2,
  m_run (m_compose M1 M2) (s1, s2) l = m_compose_step M1 M2 (m_run M1 s1 l) s2 \/
  (exists e e', r_exn (m_run (m_compose M1 M2) (s1, s2) l) = Some e /\
                r_exn (m_compose_step M1 M2 (m_run M1 s1 l) s2) = Some e').
Proof.
  induction l as [|c l IH]; intros s1 s2.
  - left. reflexivity.
  - cbn [m_run]. cbn [m_compose m_byte fst snd].
    destruct (m_byte M1 s1 c) as [[s1' o1] [e1|]]; unfold m_compose_step, r_st, r_out, r_exn in *;
      cbn [fst snd] in *.
    + left. destruct (m_run M2 s2 o1) as [[s2' o2] [e2|]]; reflexivity.
    + destruct (m_run M2 s2 o1) as [[s2' o2] [e2|]] eqn:E2.
      * right. cbn [snd]. destruct (m_run M1 s1' l) as [[s1'' o1'] e1'].
        cbn [fst snd]. rewrite m_run_app, E2. cbn [m_then snd]. eauto.
      * specialize (IH s1' s2').
        change {| m_st := m_st M1 * m_st M2; m_byte := _; m_flush := _; m_finish := _ |}
          with (m_compose M1 M2).
        destruct (m_run M1 s1' l) as [[s1'' o1'] e1']. cbn [fst snd] in *.
        rewrite m_run_app, E2. unfold m_then.
        destruct IH as [-> | (e & e' & H1 & H2)].
        -- left. destruct (m_run M2 s2' o1') as [[s2'' o2'] [e2'|]]; reflexivity.
        -- right. destruct (m_run (m_compose M1 M2) (s1', s2') l) as [[x y] z].
           cbn [snd] in *. subst z.
           destruct (m_run M2 s2' o1') as [[s2'' o2'] [e2'|]]; cbn [snd] in *; eauto.
Qed.

Lemma matches_ns {S Sg} (R : S -> Sg -> bytes -> Prop) q r e x e' :
  r_exn r = Some e -> snd x = Raise e' -> matches false R q r x.
Proof. intros H1 H2. unfold matches. rewrite H1. exists e'. split; [exact H2|discriminate]. Qed.

Lemma comp_transfer_ok s1 s2 sg1 sg2 q q1 : R1 s1 sg1 q1 -> R2 s2 sg2 q -> f_put F2 sg2 q1 q ->
  let r2 := m_run M2 sg2 q1 in
  let x := comp_transfer T1 T2 (s1, s2) in
  match r_exn r2 with
  | None => snd x = Ret tt /\ R1 (fst (fst x)) sg1 [] /\ R2 (snd (fst x)) (r_st r2) (q ++ r_out r2)
  | Some e => exists e', snd x = Raise e'
  end.
Proof.
  intros HR1 HR2 Hf. cbn zeta. unfold comp_transfer. cbn [fst].
  destruct (im_get_substring _ _ _ _ _ I1 _ _ _ HR1) as (s1' & b & o & -> & H1 & H2 & H3 & HR1').
  unfold on1, on2. cbn [bind fst snd].
  pose proof (im_put_substring _ _ _ _ _ I2 s2 sg2 q b o (zlen q1) HR2 H1) as Hp.
  rewrite H2 in Hp. specialize (Hp (im_bytes _ _ _ _ _ I1 _ _ _ HR1) H3 Hf).
  unfold matches in Hp. destruct (r_exn (m_run M2 sg2 q1)).
  - destruct Hp as (e' & Hp & _). eauto.
  - destruct Hp as (Hp1 & Hp2). auto.
Qed.

(* common part of the four put methods *)
Lemma comp_put_ok s sg q l (x1 : t_st T1 * out unit) :
  comp_R s sg q -> f_put comp_fits sg l q ->
  matches strict1 R1 [] (m_run M1 (fst sg) l) x1 ->
  matches false comp_R q (m_run (m_compose M1 M2) sg l)
    (let! (s, u) := on1 T1 T2 s x1 in comp_transfer T1 T2 s).
Proof.
  destruct s as [s1 s2]. destruct sg as [sg1 sg2]. unfold comp_R. cbn [fst snd].
  intros (HR1 & HR2) (Hf1 & Hf2) Hm. cbn [fst snd] in Hf1, Hf2.
  destruct x1 as [s1' x1]. unfold on1. cbn [fst snd].
  unfold matches in Hm. cbn [fst snd] in Hm.
  assert (G : matches false comp_R q (m_compose_step M1 M2 (m_run M1 sg1 l) sg2)
    (bind (s1', s2, x1) (fun s _ => comp_transfer T1 T2 s)) /\
    (forall e, r_exn (m_compose_step M1 M2 (m_run M1 sg1 l) sg2) = Some e ->
      exists e', snd (bind (s1', s2, x1) (fun s _ => comp_transfer T1 T2 s)) = Raise e')).
  { unfold m_compose_step, matches.
    destruct (r_exn (m_run M1 sg1 l)) as [e1|] eqn:E1.
    - destruct Hm as (e' & Hm1 & Hm2). subst x1. cbn [bind snd].
      destruct (m_run M2 sg2 (r_out (m_run M1 sg1 l))) as [[s2' o2] [e2|]];
        unfold r_exn at 1; cbn [snd]; split; eauto; exists e'; split; auto; discriminate.
    - destruct Hm as (Hm1 & Hm2). subst x1. cbn [bind].
      pose proof (comp_transfer_ok s1' s2 _ sg2 q _ Hm2 HR2 (Hf2 eq_refl)) as Ht. cbn zeta in Ht.
      cbn [app] in Ht.
      destruct (m_run M2 sg2 (r_out (m_run M1 sg1 l))) as [[s2' o2] [e2|]];
        unfold r_exn, r_st, r_out in Ht |- *; cbn [fst snd] in Ht |- *.
      + destruct Ht as (e' & Ht). split; eauto. exists e'; split; auto; discriminate.
      + destruct Ht as (Ht1 & Ht2 & Ht3). split; [|discriminate]. split; [assumption|].
        split; cbn [fst snd]; assumption. }
  destruct G as (G1 & G2).
  destruct (m_compose_run l sg1 sg2) as [-> | (e & e' & H1 & H2)]; [exact G1|].
  destruct (G2 _ H2) as (e'' & G3). eapply matches_ns; eauto.
Qed.

Lemma comp_fin_ok (s : t_st T1 * t_st T2) (sg : m_st M1 * m_st M2) q r1 (x1 : t_st T1 * out unit) fin2 (tfin2 : t_st T2 -> t_st T2 * out unit)
  (ff2 : m_st M2 -> bytes -> Prop) :
  R2 (snd s) (snd sg) q -> 
  matches strict1 R1 [] r1 x1 ->
  (r_exn r1 = None -> f_put F2 (snd sg) (r_out r1) q) ->
  (r_exn r1 = None -> r_exn (m_run M2 (snd sg) (r_out r1)) = None ->
   ff2 (r_st (m_run M2 (snd sg) (r_out r1))) (q ++ r_out (m_run M2 (snd sg) (r_out r1)))) ->
  (forall s sg q, R2 s sg q -> ff2 sg q -> matches strict2 R2 q (fin2 sg) (tfin2 s)) ->
  matches false comp_R q
   (match m_compose_step M1 M2 r1 (snd sg) with
    | (s', o, Some e) => (s', o, Some e)
    | ((s1, s2), o, None) => let '(s2', o', e') := fin2 s2 in ((s1, s2'), o ++ o', e')
    end)
    (let! (s, u) := on1 T1 T2 s x1 in
     let! (s, u) := comp_transfer T1 T2 s in on2 T1 T2 s (tfin2 (snd s))).
Proof.
  destruct s as [s1 s2]. destruct sg as [sg1 sg2]. cbn [fst snd].
  intros HR2 Hm Hf Hff Hfin. destruct x1 as [s1' x1]. unfold on1. cbn [fst snd].
  unfold matches in Hm. cbn [fst snd] in Hm. unfold m_compose_step.
  destruct (r_exn r1) as [e1|] eqn:E1.
  - destruct Hm as (e' & Hm1 & Hm2). subst x1. cbn [bind snd].
    destruct (m_run M2 sg2 (r_out r1)) as [[s2' o2] [e2|]]; 
      eapply matches_ns; try reflexivity.
  - destruct Hm as (Hm1 & Hm2). subst x1. cbn [bind].
    pose proof (comp_transfer_ok s1' s2 _ sg2 q _ Hm2 HR2 (Hf eq_refl)) as Ht. cbn zeta in Ht. cbn [app] in Ht.
    destruct (m_run M2 sg2 (r_out r1)) as [[s2' o2] [e2|]];
      unfold r_exn, r_st, r_out in Ht, Hff |- *; cbn [fst snd] in Ht, Hff |- *.
    + destruct Ht as (e' & Ht).
      destruct (comp_transfer T1 T2 (s1', s2)) as [s3 x3]. cbn [snd] in Ht. subst x3. cbn [bind].
      eapply matches_ns; reflexivity.
    + destruct Ht as (Ht1 & Ht2 & Ht3).
      destruct (comp_transfer T1 T2 (s1', s2)) as [[s3 s4] x3]. cbn [fst snd] in Ht1, Ht2, Ht3. subst x3.
      cbn [bind snd fst].
      specialize (Hfin _ _ _ Ht3 (Hff eq_refl eq_refl)). unfold matches in Hfin.
      destruct (fin2 s2') as [[s2'' o2'] [e2'|]]; unfold r_exn, r_st, r_out in Hfin; cbn [fst snd] in Hfin.
      * destruct Hfin as (e' & Hfin & _). eapply matches_ns; [reflexivity|].
        unfold on2. cbn [fst snd]. exact Hfin.
      * destruct Hfin as (Hfin1 & Hfin2). unfold matches, r_exn, r_st, r_out. cbn [fst snd on2].
        split; [exact Hfin1|]. split; cbn [fst snd]; [exact Ht2|].
        rewrite app_assoc. exact Hfin2.
Qed.

Lemma compose_implements :
  implements false (compose T1 T2) (m_compose M1 M2) comp_fits comp_R.
Proof.
  constructor.
  - intros s sg q b o n HR Hir Hb Hl Hf. cbn [compose t_put_substring].
    apply comp_put_ok; [exact HR|exact Hf|].
    apply (im_put_substring _ _ _ _ _ I1); try assumption; [apply HR | apply Hf].
  - intros s sg q str HR Hb Hl Hf. cbn [compose t_put_string].
    apply comp_put_ok; [exact HR|exact Hf|].
    apply (im_put_string _ _ _ _ _ I1); try assumption; [apply HR | apply Hf].
  - intros s sg q c HR Hb Hf. cbn [compose t_put_char].
    apply comp_put_ok; [exact HR|exact Hf|].
    apply (im_put_char _ _ _ _ _ I1); try assumption; [apply HR | apply Hf].
  - intros s sg q c HR Hb Hf. cbn [compose t_put_byte].
    apply comp_put_ok; [exact HR|exact Hf|].
    apply (im_put_byte _ _ _ _ _ I1); try assumption; [apply HR | apply Hf].
  - intros s sg q HR Hf. cbn [compose t_flush m_compose m_flush]. unfold m_compose_fin.
    eapply comp_fin_ok with (ff2 := f_flush F2); try apply Hf; try apply HR.
    + apply (im_flush _ _ _ _ _ I1); [apply HR | apply Hf].
    + intros; apply (im_flush _ _ _ _ _ I2); assumption.
  - intros s sg q HR Hf. cbn [compose t_finish m_compose m_finish]. unfold m_compose_fin.
    eapply comp_fin_ok with (ff2 := f_finish F2); try apply Hf; try apply HR.
    + apply (im_finish _ _ _ _ _ I1); [apply HR | apply Hf].
    + intros; apply (im_finish _ _ _ _ _ I2); assumption.
  - intros s sg q HR. apply (im_available _ _ _ _ _ I2 _ _ _ (proj2 HR)).
  - intros s sg q HR. cbn [compose t_get_string].
    destruct (im_get_string _ _ _ _ _ I2 _ _ _ (proj2 HR)) as (s' & -> & HR').
    unfold on2. cbn [fst snd]. eexists; split; [reflexivity|]. split; [apply HR|exact HR'].
  - intros s sg q HR. cbn [compose t_get_substring].
    destruct (im_get_substring _ _ _ _ _ I2 _ _ _ (proj2 HR)) as (s' & b & o & -> & H1 & H2 & H3 & HR').
    unfold on2. cbn [fst snd]. do 3 eexists; split; [reflexivity|].
    repeat split; try assumption. apply HR.
  - intros s sg q HR. cbn [compose t_get_char]. destruct s as [s1 s2].
    pose proof (im_get_char _ _ _ _ _ I2 _ _ _ (proj2 HR)) as H. destruct q as [|c q'].
    + cbn [snd] in *. rewrite H. reflexivity.
    + destruct H as (s' & -> & HR'). unfold on2. cbn [fst snd]. eexists; split; [reflexivity|].
      split; [apply HR|exact HR'].
  - intros s sg q HR. cbn [compose t_get_byte]. destruct s as [s1 s2].
    pose proof (im_get_byte _ _ _ _ _ I2 _ _ _ (proj2 HR)) as H. destruct q as [|c q'].
    + cbn [snd] in *. rewrite H. reflexivity.
    + destruct H as (s' & -> & HR'). unfold on2. cbn [fst snd]. eexists; split; [reflexivity|].
      split; [apply HR|exact HR'].
  - intros s sg q HR. cbn [compose t_wipe].
    destruct (im_wipe _ _ _ _ _ I1 _ _ _ (proj1 HR)) as (s1' & ->). unfold on1. cbn [fst snd bind].
    destruct (im_wipe _ _ _ _ _ I2 _ _ _ (proj2 HR)) as (s2' & ->). unfold on2. eexists; reflexivity.
  - intros s sg q HR. apply (im_bytes _ _ _ _ _ I2 _ _ _ (proj2 HR)).
Qed.

End ComposeFacts.
