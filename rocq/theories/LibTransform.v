(* The transforms the library can build, and what holds of all of them. *)
From Verif Require Import Prelude PreludeFacts SpecTransducer SpecBlock TransformModel Transform
  BlockModel CipherModel CipherSpec CipherFacts CipherApi BlockFits History Lawful EncModel SpecEnc EncLawful EncApi TransformTotal.

(* a block cipher in some mode and padding, a stream cipher, an encoding, or
   a composition of such: cryptokit.ml 198-226, 1036-1068, 1357-1404,
   2245-2487.  K and A bound the growth: a put of n bytes produces at most
   K n + A bytes, flush and finish at most A. *)
Inductive lib_transform (fresh : Z -> bytes) : tobj -> Z -> Z -> Prop :=
  | LT_cipher nb key bs E D m p iv d o :
      block_family nb key bs E D -> mode_ok bs (dmode m) -> iv_ok bs (dmode m) iv ->
      make_cipher fresh nb m (option_map scheme_of p) iv key d = Ret o ->
      lib_transform fresh o 1 (4 * mode_bs bs (dmode m))
  | LT_stream K prim wipe f rel k s :
      stream_prim K prim f rel -> rel k s -> lib_transform fresh (stream_obj fresh K prim wipe k) 1 0
  | LT_b64e ml pad : lib_transform fresh (base64_encode_obj fresh ml pad) 2 9
  | LT_b64d : lib_transform fresh (base64_decode_obj fresh) 1 3
  | LT_hexe : lib_transform fresh (hexa_encode_obj fresh) 2 0
  | LT_hexd : lib_transform fresh (hexa_decode_obj fresh) 1 1
  | LT_compose o1 K1 A1 o2 K2 A2 :
      lib_transform fresh o1 K1 A1 -> lib_transform fresh o2 K2 A2 ->
      lib_transform fresh (TObj (compose (o_tr o1) (o_tr o2)) (o_st o1, o_st o2)) (K1 * K2) (K2 * A1 + 2 * A2).

Definition composed (o1 o2 : tobj) : tobj := TObj (compose (o_tr o1) (o_tr o2)) (o_st o1, o_st o2).

Section Lib.
Variable fresh : Z -> bytes.
Hypothesis fresh_len : forall n, 0 <= n -> zlen (fresh n) = n.

Lemma lib_lawful o K A : lib_transform fresh o K A ->
  exists strict M sg, lawful strict o M sg K A.
Proof.
  induction 1 as [nb key bs E D m p iv d o HF Hm Hiv Ho|K prim wipe f rel k s Hp Hr|ml pad| | | |
    o1 K1 A1 o2 K2 A2 _ (st1 & M1 & s1 & L1) _ (st2 & M2 & s2 & L2)].
  - destruct (make_cipher_lawful fresh fresh_len nb key bs E D m p iv d HF Hm Hiv) as (o' & f & sg & fin & Ho' & L).
    rewrite Ho in Ho'. injection Ho' as <-. eexists _, _, _. exact L.
  - eexists _, _, _. eapply stream_lawful; eassumption.
  - eexists _, _, _. apply b64e_lawful; assumption.
  - eexists _, _, _. apply b64d_lawful; assumption.
  - eexists _, _, _. apply hexe_lawful; assumption.
  - eexists _, _, _. apply hexd_lawful; assumption.
  - eexists _, _, _. eapply compose_lawful; eassumption.
Qed.

Lemma lib_compose_string o1 K1 A1 o2 K2 A2 msg :
  lib_transform fresh o1 K1 A1 -> lib_transform fresh o2 K2 A2 -> bytes_ok msg ->
  K1 * K2 * zlen msg + 2 * (K2 * A1 + 2 * A2) <= max_string_length ->
  (forall r, run_string (composed o1 o2) msg = Ret r <->
     exists r1, run_string o1 msg = Ret r1 /\ run_string o2 r1 = Ret r) /\
  ((exists r, run_string (composed o1 o2) msg = Ret r) \/ (exists e, run_string (composed o1 o2) msg = Raise e)).
Proof.
  intros L1 L2. destruct (lib_lawful _ _ _ L1) as (st1 & M1 & s1 & L1').
  destruct (lib_lawful _ _ _ L2) as (st2 & M2 & s2 & L2').
  intros. eapply compose_string; eassumption.
Qed.

(* The result does not depend on how the data is split into calls, nor on
   when output is fetched *)
Lemma lib_whole o K A msg r : lib_transform fresh o K A -> bytes_ok msg ->
  K * zlen msg + 2 * A <= max_string_length ->
  run_string o msg = Ret r -> whole o msg (Ret r).
Proof.
  intros L Hok Hsz Hr. destruct (lib_lawful _ _ _ L) as (st & M & sg & L').
  split; [exact Hr|]. intros ops (Hv & Hd & <-).
  pose proof (lawful_string _ _ _ _ _ _ L' (fed ops) Hok Hsz) as HS.
  assert (Ee : r_exn (m_total M sg (fed ops)) = None).
  { destruct (r_exn (m_total M sg (fed ops))); [|reflexivity]. destruct HS as (e' & HS & _). congruence. }
  rewrite Ee in HS.
  destruct L' as (F & R & OK & HI & G & HR & HO).
  assert (HF : run_fits F sg [] (ops ++ [Finish; GetString])).
  { apply (growth_data_fits M F OK K A sg G HO ops [] []); try assumption; [constructor|reflexivity|cbn; lia]. }
  assert (HV : Forall op_valid (ops ++ [Finish; GetString])) by (apply Forall_app; split; [exact Hv|repeat constructor]).
  assert (HX : r_exn (m_events M sg (events (ops ++ [Finish]))) = None) by (rewrite m_events_total by exact Hd; exact Ee).
  assert (HE : run_ops o (ops ++ [Finish; GetString]) = spec_run M sg [] (ops ++ [Finish; GetString])).
  { apply (t_run_agree st _ _ F R HI); try assumption.
    rewrite spec_run_failure. unfold events. rewrite flat_map_app.
    change (flat_map op_events [Finish; GetString]) with (flat_map op_events [Finish]). rewrite <- flat_map_app.
    fold (events (ops ++ [Finish])). rewrite HX. reflexivity. }
  unfold out_of. rewrite HE. replace (ops ++ [Finish; GetString]) with ((ops ++ [Finish]) ++ [GetString]) by (rewrite <- app_assoc; reflexivity).
  rewrite spec_run_total by exact HX. rewrite m_events_total by exact Hd. rewrite HS in Hr. injection Hr as <-. reflexivity.
Qed.

(* A history of calls on the composition *)
Lemma lib_compose_whole o1 K1 A1 o2 K2 A2 msg r1 r :
  lib_transform fresh o1 K1 A1 -> lib_transform fresh o2 K2 A2 -> bytes_ok msg ->
  K1 * K2 * zlen msg + 2 * (K2 * A1 + 2 * A2) <= max_string_length ->
  run_string o1 msg = Ret r1 -> run_string o2 r1 = Ret r -> whole (composed o1 o2) msg (Ret r).
Proof.
  intros L1 L2 Hm Hs H1 H2.
  apply (lib_whole _ (K1 * K2) (K2 * A1 + 2 * A2)); try assumption; [apply LT_compose; assumption|].
  apply (lib_compose_string o1 K1 A1 o2 K2 A2); try assumption. exists r1. auto.
Qed.

(* transform_channel, in terms of transform_string.  When the requested
   bytes cannot be transformed the channel function raises too. *)
Lemma lib_channel o K A sched len ic :
  lib_transform fresh o K A -> bytes_ok ic -> K * 256 + 2 * A <= max_string_length ->
  K * zlen ic + 2 * A <= max_string_length ->
  let data := requested len ic in
  let res := transform_channel fresh sched (o_tr o) (o_st o) len ic in
  (long_enough len ic = true ->
   match run_string o data with
   | Ret r => snd res = Ret tt /\ tc_out (fst res) = r /\ ch_data (tc_ch (fst res)) = skipn (length data) ic
   | _ => exists e, snd res = Raise e
   end) /\
  (long_enough len ic = false ->
   exists e, snd res = Raise e /\ (forall r, run_string o data = Ret r -> e = End_of_file)).
Proof.
  intros L Hb H1 H2 data res. destruct (lib_lawful _ _ _ L) as (st & M & s & L').
  assert (Hd : bytes_ok data /\ zlen data <= zlen ic).
  { subst data. destruct len as [l|]; cbn [requested]; [|split; [assumption|lia]].
    split; [apply Forall_forall; intros x Hx; eapply Forall_forall; [exact Hb|];
            rewrite <- (firstn_skipn (Z.to_nat l) ic); apply in_or_app; left; exact Hx|].
    unfold zlen. rewrite firstn_length. lia. }
  destruct Hd as (Hd1 & Hd2).
  assert (KA : 1 <= K /\ 0 <= A).
  { destruct L' as (? & ? & ? & _ & G & _). apply (g_KA _ _ _ _ _ G). }
  pose proof (lawful_string _ _ _ _ _ _ L' data Hd1 ltac:(nia)) as HS.
  pose proof (lawful_channel _ _ _ _ _ _ L' fresh fresh_len sched len ic Hb H1) as HC.
  cbv zeta in HC. fold data in HC. fold res in HC.
  unfold m_total, m_then in *. destruct (m_run M s data) as [[s1 o1] [e|]]; cbn [r_exn fst snd] in *.
  - destruct HC as (e' & HC & _). unfold r_exn in HS. cbn [snd] in HS. destruct HS as (e2 & HS & _). rewrite HS.
    split; intros _; exists e'; [exact HC|]. split; [exact HC|discriminate].
  - destruct (long_enough len ic); split; try discriminate; intros _.
    + destruct (m_finish M s1) as [[s2 o2] [e|]]; unfold r_exn, r_out in *; cbn [fst snd] in *.
      * destruct HC as (e' & HC & _). destruct HS as (e2 & HS & _). rewrite HS. exists e'. exact HC.
      * rewrite HS. exact HC.
    + exists End_of_file. split; [exact HC|reflexivity].
Qed.
End Lib.
