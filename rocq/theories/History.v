(* Histories of calls: failures, and independence of the splitting. *)
From Verif Require Import Prelude PreludeFacts SpecTransducer SpecBlock TransformModel Transform TransformTotal
  BlockFits CipherModel CipherSpec CipherFacts.

(* the observation that ended a history, if any *)
Definition failure (ops : list op) (obs : list obs) : option SpecTransducer.obs :=
  option_map snd (find (fun p => ends (fst p) (snd p)) (combine ops obs)).

Lemma spec_run_failure M ops : forall sg q,
  failure ops (spec_run M sg q ops) = option_map OExn (r_exn (m_events M sg (events ops))).
Proof.
  unfold failure. induction ops as [|o ops IH]; intros sg q; [reflexivity|].
  unfold events. cbn [flat_map]. fold (events ops). rewrite m_events_app.
  assert (P : forall r, (forall ob, ends o ob = match ob with OExn _ | OUndef | OHang => true | _ => false end) ->
     spec_step M sg q o = emit_obs q r -> m_events M sg (op_events o) = r ->
     option_map snd (find (fun p => ends (fst p) (snd p)) (combine (o :: ops) (spec_run M sg q (o :: ops))))
     = option_map OExn (r_exn (m_then (m_events M sg (op_events o)) (fun s => m_events M s (events ops)) (fun s => s)))).
  { intros [[s1 o1] e1] He Hs Hm. rewrite Hm. cbn [spec_run]. rewrite Hs. unfold emit_obs, r_st, r_out, r_exn. cbn [fst snd].
    rewrite He. destruct e1 as [e|]; cbn [combine find fst snd].
    - rewrite He. reflexivity.
    - rewrite He. rewrite IH. unfold m_then, r_exn. destruct (m_events M s1 (events ops)) as [[a b] c]. reflexivity. }
  assert (Q : op_events o = [] -> forall q' ob, spec_step M sg q o = (sg, q', ob) -> ends o ob = false ->
     option_map snd (find (fun p => ends (fst p) (snd p)) (combine (o :: ops) (spec_run M sg q (o :: ops))))
     = option_map OExn (r_exn (m_then (m_events M sg (op_events o)) (fun s => m_events M s (events ops)) (fun s => s)))).
  { intros -> q' ob Hs He. cbn [spec_run]. rewrite Hs, He. cbn [combine find fst snd]. rewrite He, IH.
    cbn [m_events]. unfold m_then, r_exn. destruct (m_events M sg (events ops)) as [[a b] c]. reflexivity. }
  destruct o;
    try (eapply P; [intros []; reflexivity|reflexivity|apply m_events_bytes]);
    try (eapply P; [intros []; reflexivity|reflexivity|apply m_events_one]);
    try (eapply Q; reflexivity).
  - destruct q as [|c q]; eapply Q; reflexivity.
  - destruct q as [|c q]; eapply Q; reflexivity.
Qed.

Definition ev_bytes (l : list event) : bytes := flat_map (fun e => match e with EByte c => [c] | _ => [] end) l.
Definition ev_fin (l : list event) : Z := zlen (filter (fun e => match e with EFinish => true | _ => false end) l).

Lemma fed_events ops : fed ops = ev_bytes (events ops).
Proof.
  unfold fed, events, ev_bytes. induction ops as [|o ops IH]; [reflexivity|].
  cbn [flat_map]. rewrite flat_map_app, IH. f_equal.
  assert (H : forall l, l = flat_map (fun e => match e with EByte c => [c] | _ => [] end) (map EByte l)).
  { induction l as [|x l IHl]; [reflexivity|]. cbn [map flat_map app]. f_equal. exact IHl. }
  destruct o; try reflexivity; apply H.
Qed.

Lemma finishes_events ops : finishes ops = ev_fin (events ops).
Proof.
  unfold ev_fin. induction ops as [|o ops IH]; [reflexivity|].
  unfold events. cbn [flat_map]. rewrite filter_app, zlen_app. fold (events ops). rewrite <- IH.
  assert (H : forall l, filter (fun e => match e with EFinish => true | _ => false end) (map EByte l) = []).
  { induction l as [|x l IHl]; [reflexivity|]. exact IHl. }
  destruct o; cbn [finishes op_events]; rewrite ?H; reflexivity.
Qed.

Lemma chunking_independent o bs f sg fin ops1 ops2 : behaves o bs f sg fin ->
  Forall op_valid ops1 -> Forall op_valid ops2 -> events ops1 = events ops2 ->
  zlen (fed ops1) + 2 * bs * finishes ops1 + bs <= max_string_length ->
  failure ops1 (run_ops o ops1) = failure ops2 (run_ops o ops2) /\
  (failure ops1 (run_ops o ops1) = None ->
   all_got (ops1 ++ [GetString]) (run_ops o (ops1 ++ [GetString])) =
   all_got (ops2 ++ [GetString]) (run_ops o (ops2 ++ [GetString]))).
Proof.
  intros B V1 V2 E Hs.
  assert (Hs2 : zlen (fed ops2) + 2 * bs * finishes ops2 + bs <= max_string_length).
  { rewrite fed_events, finishes_events, <- E, <- fed_events, <- finishes_events. exact Hs. }
  assert (G : forall ops, Forall op_valid ops -> zlen (fed ops) + 2 * bs * finishes ops + bs <= max_string_length ->
     run_ops o (ops ++ [GetString]) = spec_run (block_mealy bs f fin) (sg, []) [] (ops ++ [GetString])).
  { intros ops V H. apply (bh_ops _ _ _ _ _ B).
    - apply Forall_app. split; [exact V|repeat constructor].
    - rewrite fed_events, finishes_events. unfold events. rewrite flat_map_app. cbn [flat_map op_events op_data map].
      rewrite !app_nil_r. fold (events ops). rewrite <- fed_events, <- finishes_events. exact H. }
  rewrite (bh_ops _ _ _ _ _ B ops1 V1 Hs), (bh_ops _ _ _ _ _ B ops2 V2 Hs2), !spec_run_failure, E.
  split; [reflexivity|]. intros Hn. rewrite !G by assumption.
  assert (He : r_exn (m_events (block_mealy bs f fin) (sg, []) (events ops2)) = None).
  { destruct (r_exn (m_events (block_mealy bs f fin) (sg, []) (events ops2))); [discriminate|reflexivity]. }
  rewrite !spec_run_total; [rewrite E; reflexivity|exact He|rewrite E; exact He].
Qed.
