(* Whole messages, in any splitting, through lawful transform objects, and in
   particular through the encodings and stream ciphers. *)
From Verif Require Import Prelude PreludeFacts BufOutModel SpecTransducer SpecEnc
  TransformModel Transform TransformTotal BlockFits CipherModel CipherSpec CipherFacts CipherApi History Lawful
  EncModel Encodings EncLawful EncTotal.
Ltac Zify.zify_post_hook ::= Z.div_mod_to_equations.

Lemma m_run_app_st M sg l1 l2 : r_exn (m_run M sg l1) = None ->
  r_st (m_run M sg (l1 ++ l2)) = r_st (m_run M (r_st (m_run M sg l1)) l2) /\
  r_out (m_run M sg (l1 ++ l2)) = r_out (m_run M sg l1) ++ r_out (m_run M (r_st (m_run M sg l1)) l2) /\
  r_exn (m_run M sg (l1 ++ l2)) = r_exn (m_run M (r_st (m_run M sg l1)) l2).
Proof.
  rewrite m_run_app. destruct (m_run M sg l1) as [[s o] [e|]]; unfold r_st, r_out, r_exn; cbn [fst snd]; [discriminate|].
  intros _. cbn [m_then]. destruct (m_run M s l2) as [[s2 o2] e2]. repeat split; reflexivity.
Qed.

(* a data history followed by finish and get_string stays within bounds *)
Lemma growth_data_fits M F OK K A sg0 : growth M F OK K A -> OK sg0 ->
  forall ops l0 q, bytes_ok l0 -> r_exn (m_run M sg0 l0) = None ->
  zlen q <= zlen (r_out (m_run M sg0 l0)) -> Forall op_valid ops -> forallb data_op ops = true ->
  K * zlen (l0 ++ fed ops) + 2 * A <= max_string_length ->
  run_fits F (r_st (m_run M sg0 l0)) q (ops ++ [Finish; GetString]).
Proof.
  intros G HO. pose proof (g_KA _ _ _ _ _ G) as (HK & HA).
  induction ops as [|o ops IH]; intros l0 q Hl0 He Hq Hv Hd Hsz.
  - cbn [fed flat_map] in Hsz. rewrite app_nil_r in Hsz. destruct (g_run _ _ _ _ _ G sg0 l0 HO Hl0 He) as (H1 & H2 & H3).
    cbn [app run_fits]. split; [apply (g_finish_fits _ _ _ _ _ G); [exact H1|lia]|].
    destruct (spec_step M _ q Finish) as [[s' q'] ob]. destruct (ends Finish ob); [exact I|]. cbn [run_fits].
    split; [exact I|]. destruct (spec_step M s' q' GetString) as [[s'' q''] ob']. destruct (ends GetString ob'); exact I.
  - apply Forall_cons_iff in Hv. destruct Hv as (Hv1 & Hv2). cbn [forallb] in Hd. apply andb_true_iff in Hd. destruct Hd as (Hd1 & Hd2).
    cbn [app run_fits]. cbn [fed flat_map] in Hsz. fold (fed ops) in Hsz. rewrite app_assoc in Hsz.
    destruct (g_run _ _ _ _ _ G sg0 l0 HO Hl0 He) as (H1 & H2 & H3).
    pose proof (zlen_nonneg (fed ops)). pose proof (zlen_nonneg (op_data o)).
    assert (PUT : op_data o <> [] \/ op_data o = []) by (destruct (op_data o); [right; reflexivity|left; discriminate]).
    assert (P : bytes_ok (op_data o) -> spec_step M (r_st (m_run M sg0 l0)) q o = emit_obs q (m_run M (r_st (m_run M sg0 l0)) (op_data o)) ->
      op_fits F (r_st (m_run M sg0 l0)) q o = f_put F (r_st (m_run M sg0 l0)) (op_data o) q ->
      (forall ob, ends o ob = match ob with OExn _ | OUndef | OHang => true | _ => false end) ->
      op_fits F (r_st (m_run M sg0 l0)) q o /\
      (let '(sg', q', ob) := spec_step M (r_st (m_run M sg0 l0)) q o in
       if ends o ob then True else run_fits F sg' q' (ops ++ [Finish; GetString]))).
    { intros Hok Hs Hf Hen. rewrite Hf. rewrite !zlen_app in Hsz.
      assert (KM : K * (zlen l0 + zlen (op_data o) + zlen (fed ops)) = K * zlen l0 + K * zlen (op_data o) + K * zlen (fed ops)) by lia.
      rewrite KM in Hsz. assert (0 <= K * zlen (fed ops)) by (apply Z.mul_nonneg_nonneg; lia).
      split; [apply (g_put_fits _ _ _ _ _ G); [exact H1|exact Hok|lia]|].
      rewrite Hs. unfold emit_obs.
      destruct (m_run_app_st M sg0 l0 (op_data o) He) as (A1 & A2 & A3).
      destruct (r_exn (m_run M (r_st (m_run M sg0 l0)) (op_data o))) eqn:Ee; rewrite Hen; [exact I|].
      rewrite <- A1. apply IH; try assumption.
      - apply bytes_ok_app; auto.
      - rewrite A2, !zlen_app. lia.
      - rewrite !zlen_app. lia. }
    assert (Q : forall q' ob, op_data o = [] -> spec_step M (r_st (m_run M sg0 l0)) q o = (r_st (m_run M sg0 l0), q', ob) -> zlen q' <= zlen q ->
      op_fits F (r_st (m_run M sg0 l0)) q o = True ->
      op_fits F (r_st (m_run M sg0 l0)) q o /\
      (let '(sg', q', ob) := spec_step M (r_st (m_run M sg0 l0)) q o in
       if ends o ob then True else run_fits F sg' q' (ops ++ [Finish; GetString]))).
    { intros q' ob Hn Hs Hl Hf. rewrite Hf. split; [exact I|]. rewrite Hs. destruct (ends o ob); [exact I|].
      apply IH; try assumption; [lia|]. rewrite Hn, app_nil_r in Hsz. exact Hsz. }
    destruct o; try discriminate;
      try (apply P; [|reflexivity|reflexivity|intros []; reflexivity]);
      try (eapply Q; [reflexivity|reflexivity|change (zlen (@nil Z)) with 0; pose proof (zlen_nonneg q); lia|reflexivity]).
    + destruct Hv1 as (_ & V & _). apply bytes_ok_sub. exact V.
    + apply Hv1.
    + repeat constructor; apply Hv1.
    + repeat constructor; apply Hv1.
    + destruct q as [|c q]; eapply Q; try reflexivity. rewrite zlen_cons. lia.
    + destruct q as [|c q]; eapply Q; try reflexivity. rewrite zlen_cons. lia.
Qed.

(* the result of a whole message: value or exception, the same through
   transform_string and through any data history *)
Definition whole (o : tobj) (msg : bytes) (res : out bytes) : Prop :=
  run_string o msg = res /\
  (forall ops, history_of msg ops ->
     match res with
     | Ret r => out_of o ops = r
     | Raise e => failure (ops ++ [Finish; GetString]) (run_ops o (ops ++ [Finish; GetString])) = Some (OExn e)
     | _ => False
     end).

Lemma lawful_whole o M sg K A msg : lawful true o M sg K A -> bytes_ok msg ->
  K * zlen msg + 2 * A <= max_string_length ->
  whole o msg (match r_exn (m_total M sg msg) with None => Ret (r_out (m_total M sg msg)) | Some e => Raise e end).
Proof.
  intros L Hok Hsz. split.
  - pose proof (lawful_string true o M sg K A L msg Hok Hsz) as H. destruct (r_exn (m_total M sg msg)); [|exact H].
    destruct H as (e' & H1 & H2). rewrite H2 in H1 by reflexivity. exact H1.
  - intros ops (Hv & Hd & <-). destruct L as (F & R & OK & HI & G & HR & HO).
    assert (HF : run_fits F sg [] (ops ++ [Finish; GetString])).
    { apply (growth_data_fits M F OK K A sg G HO ops [] []); try assumption; [constructor|reflexivity|cbn; lia]. }
    assert (HV : Forall op_valid (ops ++ [Finish; GetString])) by (apply Forall_app; split; [exact Hv|repeat constructor]).
    assert (HE : run_ops o (ops ++ [Finish; GetString]) = spec_run M sg [] (ops ++ [Finish; GetString])).
    { unfold run_ops. apply (t_run_ok _ _ F R HI); assumption. }
    assert (HX : r_exn (m_events M sg (events (ops ++ [Finish]))) = r_exn (m_total M sg (fed ops))) by (rewrite m_events_total by exact Hd; reflexivity).
    destruct (r_exn (m_total M sg (fed ops))) as [e|] eqn:Ee.
    + rewrite HE, spec_run_failure. unfold events. rewrite flat_map_app.
      change (flat_map op_events [Finish; GetString]) with (flat_map op_events [Finish]). rewrite <- flat_map_app. fold (events (ops ++ [Finish])).
      rewrite HX. reflexivity.
    + unfold out_of. rewrite HE. replace (ops ++ [Finish; GetString]) with ((ops ++ [Finish]) ++ [GetString]) by (rewrite <- app_assoc; reflexivity).
      rewrite spec_run_total by exact HX. rewrite m_events_total by exact Hd. reflexivity.
Qed.

Section Api.
Variable fresh : Z -> bytes.
Hypothesis fresh_len : forall n, 0 <= n -> zlen (fresh n) = n.

Lemma base64_encode_whole ml pad msg : bytes_ok msg -> 2 * zlen msg + 18 <= max_string_length ->
  whole (base64_encode_obj fresh ml pad) msg (Ret (if ml then b64_multiline msg else b64_text pad msg)).
Proof.
  intros Hok Hsz. pose proof (lawful_whole _ _ _ _ _ msg (b64e_lawful fresh fresh_len ml pad) Hok ltac:(lia)) as W.
  destruct ml.
  - destruct (b64e_total_multiline pad msg) as (E1 & E2). rewrite E1, E2 in W. exact W.
  - destruct (b64e_total_compact pad msg 0) as (E1 & E2). rewrite E1, E2 in W. exact W.
Qed.

Lemma opt_whole o M sg K A msg e d : lawful true o M sg K A -> bytes_ok msg -> K * zlen msg + 2 * A <= max_string_length ->
  opt_result e d (r_out (m_total M sg msg), r_exn (m_total M sg msg)) ->
  whole o msg (match d with Some r => Ret r | None => Raise e end).
Proof.
  intros L Hok Hsz H. pose proof (lawful_whole _ _ _ _ _ msg L Hok Hsz) as W.
  destruct d as [r|]; cbn [opt_result snd] in H.
  - injection H as E1 E2. rewrite E1, E2 in W. exact W.
  - rewrite H in W. exact W.
Qed.

Lemma base64_decode_whole msg : bytes_ok msg -> zlen msg + 6 <= max_string_length ->
  whole (base64_decode_obj fresh) msg (match b64_decoded msg with Some r => Ret r | None => Raise (Error Bad_encoding) end).
Proof.
  intros Hok Hsz. apply (opt_whole _ _ _ _ _ _ _ _ (b64d_lawful fresh fresh_len) Hok ltac:(lia)), b64d_total.
Qed.
Lemma hexa_encode_whole msg : bytes_ok msg -> 2 * zlen msg <= max_string_length ->
  whole (hexa_encode_obj fresh) msg (Ret (hex_text msg)).
Proof.
  intros Hok Hsz. pose proof (lawful_whole _ _ _ _ _ msg (hexe_lawful fresh fresh_len) Hok ltac:(lia)) as W.
  destruct (hexe_total msg) as (E1 & E2). rewrite E1, E2 in W. exact W.
Qed.
Lemma hexa_decode_whole msg : bytes_ok msg -> zlen msg + 2 <= max_string_length ->
  whole (hexa_decode_obj fresh) msg (match hex_decoded msg with Some r => Ret r | None => Raise (Error Bad_encoding) end).
Proof.
  intros Hok Hsz. apply (opt_whole _ _ _ _ _ _ _ _ (hexd_lawful fresh fresh_len) Hok ltac:(lia)), hexd_total.
Qed.

Lemma stream_whole K prim wipe f rel k s msg : stream_prim K prim f rel -> rel k s -> bytes_ok msg -> zlen msg <= max_string_length ->
  whole (stream_obj fresh K prim wipe k) msg (Ret (snd (sf_run f s msg))).
Proof.
  intros HS Hr Hok Hsz.
  pose proof (lawful_whole _ _ _ _ _ msg (stream_lawful fresh fresh_len K prim wipe f rel HS k s Hr) Hok ltac:(lia)) as W.
  rewrite stream_total in W. exact W.
Qed.
End Api.

(* sizes of the texts *)
Lemma hex_text_len l : zlen (hex_text l) = 2 * zlen l.
Proof. induction l as [|b l IH]; [reflexivity|]. cbn [hex_text flat_map app]. fold (hex_text l). rewrite !zlen_cons, IH. lia. Qed.
Lemma hex_text_ok l : bytes_ok l -> bytes_ok (hex_text l).
Proof.
  induction l as [|b l IH]; intros H; [constructor|]. apply Forall_cons_iff in H. destruct H as (Hb & H). unfold byte_ok in Hb.
  cbn [hex_text flat_map app]. repeat (constructor; [apply hex_char_byte; lia|]). exact (IH H).
Qed.

Section RoundTrip.
Variable fresh : Z -> bytes.
Hypothesis fresh_len : forall n, 0 <= n -> zlen (fresh n) = n.

Lemma base64_text_size (ml pad : bool) msg : bytes_ok msg ->
  let t := if ml then b64_multiline msg else b64_text pad msg in
  bytes_ok t /\ zlen t <= 2 * zlen msg + 18.
Proof.
  intros Hok.
  assert (E : r_exn (m_total (b64e_mealy ml pad) (@nil Z, 0) msg) = None /\
    r_out (m_total (b64e_mealy ml pad) (@nil Z, 0) msg) = if ml then b64_multiline msg else b64_text pad msg).
  { destruct ml; [destruct (b64e_total_multiline pad msg)|destruct (b64e_total_compact pad msg 0)]; auto. }
  destruct E as (E1 & E2).
  destruct (lawful_total_bound true _ _ _ 2 9 (b64e_lawful fresh fresh_len ml pad) msg Hok E1) as (B1 & B2).
  rewrite E2 in B1, B2. cbn zeta. split; [exact B2|lia].
Qed.

Lemma base64_round_trip (ml pad : bool) msg : bytes_ok msg -> 2 * zlen msg + 24 <= max_string_length ->
  exists t, whole (base64_encode_obj fresh ml pad) msg (Ret t) /\
    t = (if ml then b64_multiline msg else b64_text pad msg) /\
    whole (base64_decode_obj fresh) t (Ret msg).
Proof.
  intros Hok Hsz. exists (if ml then b64_multiline msg else b64_text pad msg).
  split; [apply base64_encode_whole; [exact fresh_len|exact Hok|lia]|]. split; [reflexivity|].
  destruct (base64_text_size ml pad msg Hok) as (T1 & T2). cbn zeta in *.
  pose proof (base64_decode_whole fresh fresh_len _ T1 ltac:(lia)) as W.
  destruct ml; [rewrite b64_decoded_multiline in W by exact Hok|rewrite b64_decoded_text in W by exact Hok]; exact W.
Qed.

Lemma hexa_round_trip msg : bytes_ok msg -> 2 * zlen msg + 2 <= max_string_length ->
  exists t, whole (hexa_encode_obj fresh) msg (Ret t) /\ t = hex_text msg /\
    whole (hexa_decode_obj fresh) t (Ret msg).
Proof.
  intros Hok Hsz. exists (hex_text msg). split; [apply hexa_encode_whole; [exact fresh_len|exact Hok|lia]|]. split; [reflexivity|].
  pose proof (hexa_decode_whole fresh fresh_len (hex_text msg) (hex_text_ok _ Hok) ltac:(rewrite hex_text_len; lia)) as W.
  rewrite hex_decoded_text in W by exact Hok. exact W.
Qed.
End RoundTrip.
