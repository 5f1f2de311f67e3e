(* The Cipher entry points implement the specified transducers. *)
From Verif Require Import Prelude PreludeFacts BytesNum BufOutModel BufOut SpecTransducer SpecBlock SpecModes
  SpecModesFacts SpecPadding Padding TransformModel Transform TransformTotal BlockModel BlockCipher BlockTotal BlockFits
  Modes CipherModel CipherSpec.
Ltac Zify.zify_post_hook ::= Z.div_mod_to_equations.

(* output of a data history followed by finish and get_string *)
Definition out_of (o : tobj) (ops : list op) : bytes :=
  all_got (ops ++ [Finish; GetString]) (run_ops o (ops ++ [Finish; GetString])).
(* did any call raise? *)
Definition raised (obs : list obs) : option exn :=
  match last obs OUnit with OExn e => Some e | _ => None end.

Lemma events_data ops : forallb data_op ops = true -> events ops = map EByte (fed ops).
Proof.
  induction ops as [|o ops IH]; [reflexivity|]. cbn [forallb]. intros H.
  apply andb_true_iff in H. destruct H as (H1 & H2).
  unfold events, fed in *. cbn [flat_map]. rewrite map_app, IH by exact H2. f_equal.
  destruct o; try reflexivity; discriminate.
Qed.

Lemma m_events_total M sg ops : forallb data_op ops = true ->
  m_events M sg (events (ops ++ [Finish])) = m_total M sg (fed ops).
Proof.
  intros H. unfold events. rewrite flat_map_app. change (flat_map op_events [Finish]) with [EFinish].
  change (flat_map op_events ops) with (events ops). rewrite events_data by exact H.
  rewrite m_events_app, m_events_bytes. unfold m_total, m_then.
  destruct (m_run M sg (fed ops)) as [[s o] [e|]]; [reflexivity|]. rewrite m_events_one. reflexivity.
Qed.

Section Chain.
Variable fresh : Z -> bytes.
Hypothesis fresh_len : forall n, 0 <= n -> zlen (fresh n) = n.

Lemma chain_ok m d iv c E good :
  let bs := bc_blocksize (b_bc c) in
  0 < bs -> bc_implements (b_bc c) (ecb_fn E) (fun s _ => good s) -> good (b_st c) ->
  mode_ok bs m -> iv_ok bs m iv ->
  exists cc rel, chain fresh m d iv c = Ret cc /\ bc_blocksize (b_bc cc) = mode_bs bs m /\
    bc_implements (b_bc cc) (mode_fn bs E m d) rel /\
    rel (b_st cc) (mode_st0 bs E m d (iv_val bs iv)).
Proof.
  intros bs Hbs HC Hg Hm Hiv.
  assert (Hi : forall max, m <> ECB -> exists s, mode_init fresh (b_bc c) max iv (b_st c) = Ret s /\ ms_max s = max /\
     mode_R (b_bc c) good s (iv_val bs iv)).
  { intros max Hne.
    destruct (mode_init_ok fresh fresh_len (b_bc c) good Hbs max iv (b_st c) Hg) as (s & H1 & H2 & H3).
    - intros v ->. apply Hiv.
    - destruct iv as [v|]; [|exact I]. destruct Hiv as (_ & [H|H]); [contradiction|exact H].
    - exists s. split; [exact H1|]. split; [exact H2|]. destruct iv; exact H3. }
  assert (Hch : forall n, 0 < n <= bs -> chunk_ok (b_bc c) n = true).
  { intros n Hn. unfold chunk_ok. fold bs. lia. }
  assert (Hmul : forall n, 0 < n <= bs -> Z.of_nat (Z.to_nat n) = n) by (intros; lia).
  assert (Hchi : forall n max, 0 < n <= bs -> chunked_init fresh (b_bc c) n max iv (b_st c) = mode_init fresh (b_bc c) max iv (b_st c)).
  { intros n max Hn. unfold chunked_init. rewrite Hch by exact Hn. reflexivity. }
  destruct m as [| |n|n| |n]; cbn [chain mode_ok mode_bs] in *.
  - exists c, (fun s _ => good s). repeat split; assumption.
  - destruct d; destruct (Hi 0 ltac:(discriminate)) as (s & -> & _ & HR); cbn [obind].
    + exists (BObj (cbc_encrypt (b_bc c)) s), (mode_R (b_bc c) good). (split; [reflexivity|split; [reflexivity|split; [|exact HR]]]).
      apply (cbc_encrypt_implements fresh); assumption.
    + exists (BObj (cbc_decrypt (b_bc c)) s), (mode_R (b_bc c) good). (split; [reflexivity|split; [reflexivity|split; [|exact HR]]]).
      apply (cbc_decrypt_implements fresh); assumption.
  - destruct d; destruct (Hi 0 ltac:(discriminate)) as (s & He & _ & HR);
      rewrite Hchi, He by exact Hm; cbn [obind].
    + exists (BObj (cfb_encrypt (b_bc c) n) s), (mode_R (b_bc c) good). (split; [reflexivity|split; [reflexivity|split; [|exact HR]]]).
      cbn [b_bc mode_fn]. pose proof (H := cfb_encrypt_implements fresh fresh_len (b_bc c) E good Hbs HC (Z.to_nat n) ltac:(lia)). rewrite (Hmul n Hm) in H. exact H.
    + exists (BObj (cfb_decrypt (b_bc c) n) s), (mode_R (b_bc c) good). (split; [reflexivity|split; [reflexivity|split; [|exact HR]]]).
      cbn [b_bc mode_fn]. pose proof (H := cfb_decrypt_implements fresh fresh_len (b_bc c) E good Hbs HC (Z.to_nat n) ltac:(lia)). rewrite (Hmul n Hm) in H. exact H.
  - destruct (Hi 0 ltac:(discriminate)) as (s & He & _ & HR).
    exists (BObj (ofb (b_bc c) n) s).
    destruct d; rewrite Hchi, He by exact Hm; cbn [obind];
    exists (mode_R (b_bc c) good); (split; [reflexivity|split; [reflexivity|split; [|exact HR]]]);
    cbn [b_bc mode_fn]; pose proof (H := ofb_implements fresh fresh_len (b_bc c) E good Hbs HC (Z.to_nat n) ltac:(lia)); rewrite (Hmul n Hm) in H; exact H.
  - assert (Hb2 : 0 < bs <= bs) by lia.
    destruct (Hi (ctr_max bs) ltac:(discriminate)) as (s & He & Hmx & HR).
    exists (BObj (ctr (b_bc c) bs) s).
    destruct d; fold bs; rewrite He; cbn [obind];
    exists (ctr_R (b_bc c) good); (split; [reflexivity|]); (split; [reflexivity|]);
    cbn [b_bc mode_fn b_st mode_st0]; (split;
      [pose proof (H := ctr_implements fresh fresh_len (b_bc c) E good Hbs HC (Z.to_nat bs) ltac:(lia)); rewrite (Hmul bs Hb2) in H; exact H|
       apply (ctr_init_R fresh); [exact fresh_len|lia|exact HR|rewrite Hmx, Hmul by assumption; reflexivity]]).
  - destruct (Hi (ctr_max n) ltac:(discriminate)) as (s & He & Hmx & HR).
    exists (BObj (ctr (b_bc c) n) s).
    destruct d; rewrite Hchi, He by exact Hm; cbn [obind];
    exists (ctr_R (b_bc c) good); (split; [reflexivity|]); (split; [reflexivity|]);
    cbn [b_bc mode_fn b_st mode_st0]; (split;
      [pose proof (H := ctr_implements fresh fresh_len (b_bc c) E good Hbs HC (Z.to_nat n) ltac:(lia)); rewrite (Hmul n Hm) in H; exact H|
       apply (ctr_init_R fresh); [exact fresh_len|lia|exact HR|rewrite Hmx, Hmul by assumption; reflexivity]]).
Qed.

(* What a transform object made by make_block_cipher does *)
Record behaves (o : tobj) (bs : Z) (f : blockfn) (sg : bf_st f)
    (fin : bf_st f * bytes -> (bf_st f * bytes) * bytes * option exn) : Prop := {
  bh_ops : forall ops, Forall op_valid ops ->
    zlen (fed ops) + 2 * bs * finishes ops + bs <= max_string_length ->
    run_ops o ops = spec_run (block_mealy bs f fin) (sg, []) [] ops;
  bh_string : forall str, bytes_ok str -> zlen str + 3 * bs <= max_string_length ->
    match r_exn (m_total (block_mealy bs f fin) (sg, []) str) with
    | None => run_string o str = Ret (r_out (m_total (block_mealy bs f fin) (sg, []) str))
    | Some e => run_string o str = Raise e
    end;
  (* lengths *)
  bh_step : forall s b o s', (exists blks, fst (bf_run f sg blks) = s /\ Forall (fun b => zlen b = bs /\ bytes_ok b) blks) ->
    zlen b = bs -> bytes_ok b -> bf_step f s b = (s', Some o) -> zlen o = bs /\ bytes_ok o }.

Lemma pad_fn_ok p bs buf used : zlen buf = bs -> 0 <= used < bs ->
  match pad_fn p bs used with
  | Some l => pad (scheme_of p) buf used = Ret (sub buf 0 used ++ l) /\ used + zlen l = bs /\ bytes_ok l
  | None => pad (scheme_of p) buf used = Raise Assert_failure
  end.
Proof. destruct p; [apply length_pad_ok|apply zeros_pad_ok]. Qed.

Lemma unpad_fn_ok p buf : 0 < zlen buf -> bytes_ok buf ->
  match unpad_fn p buf with
  | Some v => strip (scheme_of p) buf = Ret v /\ 0 <= v <= zlen buf
  | None => strip (scheme_of p) buf = Raise (Error Bad_padding)
  end.
Proof. destruct p; [apply length_strip_ok|intros _ _; apply zeros_strip_ok]. Qed.

Lemma behaves_gen C f rel sg fin T c0 :
  let bs := bc_blocksize C in
  0 < bs < 2 ^ 50 -> bc_implements C f rel -> rel c0 sg ->
  (forall s, okst C f rel s -> bounded C f rel s (2 * bs) (fin s)) ->
  forall R : t_st T -> bf_st f * bytes -> bytes -> Prop,
  implements true T (block_mealy bs f fin) (cfits C f fin) R ->
  forall s, R s (sg, []) [] ->
  behaves (TObj T s) bs f sg fin.
Proof.
  cbn zeta. intros Hbs HC Hr Hfb R HI s HR.
  assert (Hok0 : okst C f rel (sg, [])).
  { split; [exists c0; exact Hr|]. cbn [snd]. split; [change (zlen (@nil Z)) with 0; lia|constructor]. }
  constructor.
  - intros ops Hv Hsz. unfold run_ops. cbn [o_tr o_st].
    apply (t_run_ok _ _ _ _ HI); try assumption.
    apply (run_fits_ok C f rel); try assumption; try lia.
  - intros str Hs Hsz. unfold run_string. cbn [o_tr o_st].
    set (bs := bc_blocksize C) in *. set (M := block_mealy bs f fin) in *.
    pose proof (run_bounded C f rel ltac:(lia) HC fin str (sg, []) Hok0 Hs) as (B1 & B2).
    fold bs in B1, B2. fold M in B1, B2. cbn [snd] in B1, B2. change (zlen (@nil Z)) with 0 in B1, B2.
    pose proof (transform_string_ok _ _ _ _ true HI s (sg, []) str HR Hs ltac:(lia)) as Ht.
    unfold f_put, f_finish in Ht. cbn [cfits std_fits] in Ht. fold bs in Ht. fold M in Ht.
    change (zlen (@nil Z)) with 0 in Ht.
    change (m_st M) with (bf_st f * bytes)%type in *.
    specialize (Ht ltac:(lia)).
    assert (Hfin : r_exn (m_run M (sg, []) str) = None ->
      zlen (r_out (m_run M (sg, []) str)) + zlen (r_out (m_finish M (r_st (m_run M (sg, []) str)))) + bs <= max_string_length).
    { intros E0. destruct (B1 E0) as (O1 & O2).
      destruct (Hfb (r_st (m_run M (sg, []) str)) O1) as (F1 & F2).
      change (m_finish M) with fin. change (m_st M) with (bf_st f * bytes)%type in *. lia. }
    specialize (Ht Hfin). change (m_st M) with (bf_st f * bytes)%type in Ht |- *.
    revert Ht. generalize (m_total M (sg, []) str). intros [[a b] [e|]] Ht; unfold r_exn, r_out in *; cbn [fst snd] in *; [|exact Ht].
    destruct Ht as (e' & -> & He). rewrite He by reflexivity. reflexivity.
  - intros s1 b o s1' (blks & <- & Hb) Hlb Hob Hstep.
    assert (Hgood : forall blks sg, good C f rel sg -> Forall (fun b => zlen b = bc_blocksize C /\ bytes_ok b) blks ->
              good C f rel (fst (bf_run f sg blks))).
    { clear - HC Hbs. induction blks as [|b blks IH]; intros sg Hg Hb; [exact Hg|].
      apply Forall_cons_iff in Hb. destruct Hb as ((Hb1 & Hb2) & Hb3). cbn [bf_run].
      destruct (step_good C f rel ltac:(lia) HC sg b Hg Hb1 Hb2) as (Hg' & _).
      destruct (bf_step f sg b) as [s' [o|]]; [|exact Hg']. cbn [fst] in Hg'.
      specialize (IH s' Hg' Hb3). destruct (bf_run f s' blks) as [s'' [os|]]; exact IH. }
    destruct (step_good C f rel ltac:(lia) HC (fst (bf_run f sg blks)) b) as (_ & Ho);
      [apply Hgood; [exists c0; exact Hr|exact Hb]|exact Hlb|exact Hob|].
    apply Ho. rewrite Hstep. reflexivity.
Qed.

Lemma make_block_cipher_ok m p iv d c E gd :
  let bs := bc_blocksize (b_bc c) in
  let m' := match m with Some m => m | None => CBC end in
  0 < bs < 2 ^ 50 -> bc_implements (b_bc c) (ecb_fn E) (fun s _ => gd s) -> gd (b_st c) ->
  mode_ok bs m' -> iv_ok bs m' iv ->
  exists o, make_block_cipher fresh m (option_map scheme_of p) iv d c = Ret o /\
    behaves o (mode_bs bs m') (mode_fn bs E m' d) (mode_st0 bs E m' d (iv_val bs iv))
      (fin_of (mode_bs bs m') (mode_fn bs E m' d) p d).
Proof.
  intros bs m' Hbs HC Hg Hm Hiv.
  destruct (chain_ok m' d iv c E gd) as (cc & rel & Hc & Hcbs & HCC & Hr); try assumption; [fold bs; lia|].
  fold bs in Hcbs, HCC, Hr.
  unfold make_block_cipher. fold m'. rewrite Hc. cbn [obind].
  assert (Hbs' : 0 < mode_bs bs m' < 2 ^ 50).
  { unfold mode_bs, mode_ok in *. destruct m'; lia. }
  unfold bs in *. clear bs. revert rel HCC Hr.
  generalize (mode_st0 (bc_blocksize (b_bc c)) E m' d (iv_val (bc_blocksize (b_bc c)) iv)).
  generalize (mode_fn (bc_blocksize (b_bc c)) E m' d).
  intros f sg rel HCC Hr. clearbody m'. rewrite <- Hcbs in *. clear Hcbs.
  set (C := b_bc cc) in *. set (bs' := bc_blocksize C) in *.
  assert (HR0 := cipher_new_R fresh fresh_len C f rel Hbs' (b_st cc) _ Hr).
  destruct p as [p|]; cbn [option_map]; [destruct d|].
  - eexists; split; [reflexivity|]. cbn [fin_of].
    eapply (behaves_gen C); try eassumption.
    + intros s Hs. apply padenc_bounded; try assumption; [fold bs'; lia|]. fold bs'.
      intros u l Hu Hl.
      pose proof (pad_fn_ok p bs' (zeros bs') u ltac:(apply zlen_zeros; lia) Hu) as Hp.
      rewrite Hl in Hp. tauto.
    + apply cipher_padded_encrypt_implements; try assumption.
      intros buf used Hb Hu. apply pad_fn_ok; assumption.
  - eexists; split; [reflexivity|]. cbn [fin_of].
    eapply (behaves_gen C); try eassumption.
    + intros s Hs. apply paddec_bounded; try assumption; [fold bs'; lia|]. fold bs'.
      intros b v Hb Hok Hv.
      pose proof (unpad_fn_ok p b ltac:(lia) Hok) as Hp. rewrite Hv in Hp. lia.
    + apply cipher_padded_decrypt_implements; try assumption. fold bs'.
      intros buf Hb Hok.
      pose proof (unpad_fn_ok p buf ltac:(lia) Hok) as Hp.
      destruct (unpad_fn p buf); [|exact Hp]. rewrite Hb in Hp. exact Hp.
  - eexists; split; [reflexivity|]. replace (fin_of bs' f None d) with (block_flush bs' f) by (destruct d; reflexivity).
    eapply (behaves_gen C); try eassumption.
    + intros s Hs. eapply bounded_weaken; [apply flush_bounded; try assumption; fold bs'; lia|fold bs'; lia].
    + apply cipher_implements; assumption.
Qed.
End Chain.

(* output of a data history *)
Lemma behaves_out o bs f sg fin ops : behaves o bs f sg fin -> 0 < bs ->
  Forall op_valid ops -> forallb data_op ops = true ->
  zlen (fed ops) + 3 * bs <= max_string_length ->
  r_exn (m_total (block_mealy bs f fin) (sg, []) (fed ops)) = None ->
  out_of o ops = r_out (m_total (block_mealy bs f fin) (sg, []) (fed ops)).
Proof.
  intros B Hbs Hv Hd Hsz He. unfold out_of.
  assert (Hfed : fed (ops ++ [Finish; GetString]) = fed ops).
  { unfold fed. rewrite flat_map_app. cbn [flat_map op_data app]. apply app_nil_r. }
  assert (Hn : finishes (ops ++ [Finish; GetString]) = 1).
  { clear - Hd. induction ops as [|x ops IH]; [reflexivity|]. cbn [forallb app] in *.
    apply andb_true_iff in Hd. destruct Hd as (D1 & D2). destruct x; try discriminate D1; cbn [finishes]; auto. }
  rewrite (bh_ops _ _ _ _ _ B).
  - change [Finish; GetString] with ([Finish] ++ [GetString]). rewrite app_assoc.
    rewrite <- (app_nil_l (r_out _)). rewrite <- m_events_total by exact Hd.
    rewrite spec_run_total; [reflexivity|]. rewrite m_events_total by exact Hd. exact He.
  - apply Forall_app. split; [exact Hv|]. repeat constructor.
  - rewrite Hfed, Hn. lia.
Qed.
