(* Consequences of the transducer simulation that do not mention any class:
   total output of a history, sequential composition. *)
From Verif Require Import Prelude PreludeFacts SpecTransducer TransformModel Transform.

(* A history without exception: everything returned to the user, plus what a
   final get_string returns, is what the transducer emits on the sequence of
   bytes, flushes and finishes. *)
Lemma spec_run_total M ops : forall sg q,
  r_exn (m_events M sg (events ops)) = None ->
  all_got (ops ++ [GetString]) (spec_run M sg q (ops ++ [GetString]))
  = q ++ r_out (m_events M sg (events ops)).
Proof.
  unfold all_got.
  assert (E : forall o ops sg q sg' l, 
    (forall sg q,
      r_exn (m_events M sg (events ops)) = None ->
      concat (map (fun p => got (fst p) (snd p)) (combine (ops ++ [GetString]) (spec_run M sg q (ops ++ [GetString]))))
      = q ++ r_out (m_events M sg (events ops))) ->
    m_events M sg (op_events o) = (sg', l, None) ->
    r_exn (m_events M sg (events (o :: ops))) = None ->
    spec_step M sg q o = ((sg', q ++ l), OUnit) ->
    (forall ob, got o ob = []) -> ends o OUnit = false ->
    concat (map (fun p => got (fst p) (snd p)) (combine ((o :: ops) ++ [GetString]) (spec_run M sg q ((o :: ops) ++ [GetString]))))
      = q ++ r_out (m_events M sg (events (o :: ops)))).
  { intros o ops' sg q sg' l IH He Hn Hs Hg Hen. cbn [app spec_run].
    rewrite Hs, Hen. cbn [combine map concat fst snd]. rewrite Hg. cbn [app].
    unfold events in Hn |- *. cbn [flat_map] in Hn |- *.
    rewrite m_events_app, He in Hn. rewrite m_events_app, He. unfold m_then in Hn |- *.
    fold (events ops') in Hn |- *.
    rewrite IH.
    - unfold r_exn, r_out in *. destruct (m_events M sg' (events ops')) as [[a b] c].
      cbn [fst snd]. rewrite app_assoc. reflexivity.
    - destruct (m_events M sg' (events ops')) as [[a b] c]. exact Hn. }
  induction ops as [|o ops IH]; intros sg q Hn.
  - cbn. rewrite !app_nil_r. reflexivity.
  - assert (Hsome : exists sg' l, m_events M sg (op_events o) = (sg', l, None)).
    { unfold events in Hn. cbn [flat_map] in Hn. rewrite m_events_app in Hn.
      destruct (m_events M sg (op_events o)) as [[a b] [e|]]; [discriminate|eauto]. }
    destruct Hsome as (sg' & l & He).
    assert (Hput : forall d, op_events o = map EByte d ->
              m_run M sg d = (sg', l, None)).
    { intros d Hd. rewrite <- m_events_bytes, <- Hd. exact He. }
    destruct o;
      try (apply (E _ _ _ _ sg' l); try assumption; try reflexivity;
           [ cbn [spec_step]; unfold emit_obs;
             rewrite (Hput _ eq_refl); reflexivity ]);
      try (apply (E _ _ _ _ sg' l); try assumption; try reflexivity;
           [ cbn [op_events] in He; rewrite m_events_one in He; cbn [m_event] in He;
             cbn [spec_step]; unfold emit_obs; rewrite He; reflexivity ]);
      cbn [op_events op_data map m_events] in He; injection He as <- <-;
      change (events (_ :: ops)) with (events ops) in Hn |- *;
      cbn [app spec_run spec_step].
    + cbn [ends combine map concat got fst snd app]. apply IH; exact Hn.
    + cbn [ends combine map concat got fst snd]. rewrite IH by exact Hn. reflexivity.
    + cbn [ends combine map concat got fst snd]. rewrite IH by exact Hn. reflexivity.
    + destruct q as [|c q]; cbn [ends combine map concat got fst snd app];
        rewrite IH by exact Hn; reflexivity.
    + destruct q as [|c q]; cbn [ends combine map concat got fst snd app];
        rewrite IH by exact Hn; reflexivity.
Qed.

(* Composition of transducers on a whole message *)
Lemma m_compose_total M1 M2 s1 s2 l :
  r_exn (m_total M1 s1 l) = None ->
  r_exn (m_total M2 s2 (r_out (m_total M1 s1 l))) = None ->
  r_exn (m_total (m_compose M1 M2) (s1, s2) l) = None /\
  r_out (m_total (m_compose M1 M2) (s1, s2) l) = r_out (m_total M2 s2 (r_out (m_total M1 s1 l))).
Proof.
  unfold m_total. intros H1 H2.
  destruct (m_compose_run M1 M2 l s1 s2) as [E | (e & e' & E1 & E2)].
  2:{ exfalso. unfold m_compose_step, m_then in *.
      destruct (m_run M1 s1 l) as [[s1' o1] [e1|]]; unfold r_exn, r_out, r_st in *; cbn [fst snd] in *;
        [discriminate|].
      destruct (m_finish M1 s1') as [[s1'' o1'] e1']. cbn [fst snd] in *.
      rewrite m_run_app in H2. unfold m_then in H2.
      destruct (m_run M2 s2 o1) as [[s2' o2] [e2|]]; cbn [snd] in *; discriminate. }
  rewrite E. unfold m_compose_step, m_then in *.
  destruct (m_run M1 s1 l) as [[s1' o1] [e1|]]; unfold r_exn, r_out, r_st in *; cbn [fst snd] in *;
    [discriminate|].
  cbn [m_compose m_finish]. unfold m_compose_fin, m_compose_step, r_out, r_st, r_exn.
  destruct (m_finish M1 s1') as [[s1'' o1'] e1'] eqn:Ef. cbn [fst snd] in *. subst e1'.
  rewrite m_run_app in H2 |- *. unfold m_then in H2 |- *.
  destruct (m_run M2 s2 o1) as [[s2' o2] [e2|]]; cbn [snd fst] in *; [discriminate|].
  cbn [snd fst]. rewrite Ef. cbn [fst snd].
  destruct (m_run M2 s2' o1') as [[s2'' o2'] [e2'|]]; cbn [snd fst] in *; [discriminate|].
  destruct (m_finish M2 s2'') as [[s2''' o2''] e2'']. cbn [snd fst] in *. subst e2''.
  rewrite <- app_assoc. auto.
Qed.

Lemma m_compose_total_conv M1 M2 s1 s2 l :
  r_exn (m_total (m_compose M1 M2) (s1, s2) l) = None ->
  r_exn (m_total M1 s1 l) = None /\ r_exn (m_total M2 s2 (r_out (m_total M1 s1 l))) = None.
Proof.
  unfold m_total. intros H.
  destruct (m_compose_run M1 M2 l s1 s2) as [E | (e & e' & E1 & E2)].
  2:{ exfalso. unfold m_then in H. destruct (m_run (m_compose M1 M2) (s1, s2) l) as [[a b] [c|]]; discriminate. }
  rewrite E in H. clear E. unfold m_compose_step, m_then in *.
  destruct (m_run M1 s1 l) as [[s1' o1] e1]; unfold r_exn, r_out, r_st in *; cbn [fst snd] in *.
  destruct (m_run M2 s2 o1) as [[s2' o2] [e2|]] eqn:E2; cbn [snd fst] in *; [discriminate|].
  destruct e1 as [e1|]; [discriminate|].
  cbn [m_compose m_finish] in H. unfold m_compose_fin, m_compose_step, r_out, r_st, r_exn in H.
  cbn [fst snd] in H.
  destruct (m_finish M1 s1') as [[s1'' o1'] e1'] eqn:Ef. cbn [fst snd] in *.
  rewrite m_run_app, E2. unfold m_then.
  destruct (m_run M2 s2' o1') as [[s2'' o2'] [e2'|]]; cbn [snd fst] in *; [discriminate|].
  destruct e1' as [e1'|]; [discriminate|]. split; [reflexivity|].
  destruct (m_finish M2 s2'') as [[s2''' o2''] e2'']. exact H.
Qed.
