(* Lengths of the results of transforms, and the lengths refused. *)
From Verif Require Import Prelude PreludeFacts BytesNum SpecTransducer SpecBlock SpecModes
  SpecModesFacts SpecPadding Padding TransformModel Transform TransformTotal BlockModel BlockCipher BlockTotal BlockFits
  Modes CipherModel CipherSpec CipherFacts CipherApi Lawful EncModel SpecEnc EncLawful EncTotal LibTransform BlockSizes WipeHash.
Ltac Zify.zify_post_hook ::= Z.div_mod_to_equations.

Lemma unpad_small p blk v : 0 < zlen blk -> unpad_fn p blk = Some v -> 0 <= v < zlen blk.
Proof.
  intros Hb H. destruct p; cbn [unpad_fn] in H.
  - unfold length_unpad in H. destruct (_ && _) eqn:E in H; [|discriminate]. injection H as <-.
    apply andb_true_iff in E. destruct E as (E & _). lia.
  - apply zeros_unpad_spec in H. destruct H as (data & (n & E) & ->). rewrite E, !zlen_app.
    change (zlen [128]) with 1. pose proof (zlen_nonneg data). pose proof (zlen_nonneg (repeat 0 n)). 
    unfold zlen in *. cbn [length]. lia.
Qed.

(* decryption with padding, the counter exhausted *)
Lemma paddec_total_none bs f (bs_pos : 0 < bs) unpadfn sg bl b : Forall (fun b => zlen b = bs) bl -> zlen b = bs ->
  snd (bf_run f sg (bl ++ [b])) = None ->
  r_exn (m_total (block_mealy bs f (paddec_fin bs unpadfn f)) (sg, []) (concat (bl ++ [b]))) = Some (Error Message_too_long).
Proof.
  intros H1 H2 Hr. unfold m_total. rewrite bf_run_app in Hr. cbn [bf_run] in Hr.
  pose proof (run_blocks bs f bs_pos (paddec_fin bs unpadfn f) bl sg b H1 ltac:(right; lia) ltac:(lia)) as R.
  rewrite concat_app. cbn [concat]. rewrite app_nil_r.
  destruct (bf_run f sg bl) as [sg1 [os1|]].
  - rewrite R. unfold m_then. cbn [block_mealy m_finish]. unfold paddec_fin, emit_block.
    replace (zlen b =? bs) with true by lia. cbn [negb].
    destruct (bf_step f sg1 b) as [sg2 [o2|]]; [discriminate|]. reflexivity.
  - destruct (m_run (block_mealy bs f (paddec_fin bs unpadfn f)) (sg, []) (concat bl ++ b)) as [[x y] [z|]];
      unfold r_exn in *; cbn [snd] in R; [injection R as ->; reflexivity|discriminate].
Qed.

Section S.
Variable fresh : Z -> bytes.
Hypothesis fresh_len : forall n, 0 <= n -> zlen (fresh n) = n.
Variables (nb : dir -> bytes -> out bobj) (key : bytes) (bs : Z) (E D : bytes -> bytes) (m : option chaining_mode) (iv : option bytes).
Hypothesis HF : block_family nb key bs E D.
Hypothesis Hm : mode_ok bs (dmode m).
Hypothesis Hiv : iv_ok bs (dmode m) iv.
Let bm := mode_bs bs (dmode m).

Lemma bm_pos : 0 < bm.
Proof using HF Hm. clear - HF Hm. unfold bm. pose proof (fam_bs _ _ _ _ _ HF). destruct (dmode m); cbn in *; lia. Qed.

Lemma run_either d X : let F := mode_fun E D (dmode m) d in
  (within_limit bs (dmode m) (zlen X) -> exists s Y, bf_run (mode_fn bs F (dmode m) d) (mode_st0 bs F (dmode m) d (iv_val bs iv)) X = (s, Some Y) /\ length Y = length X) /\
  (~ within_limit bs (dmode m) (zlen X) -> snd (bf_run (mode_fn bs F (dmode m) d) (mode_st0 bs F (dmode m) d (iv_val bs iv)) X) = None).
Proof.
  intros F. pose proof (fam_bs _ _ _ _ _ HF) as Hbs.
  destruct (mode_run bs ltac:(lia) F (dmode m) d (iv_val bs iv) X Hm (fun Hne => iv_val_len bs ltac:(lia) _ iv Hiv Hne)) as (R1 & R2).
  split; [|exact R2]. intros Hw. destruct (R1 Hw) as (s & Y & H1 & H2). exists s, Y. split; [exact H1|]. exact (mode_spec_length _ _ _ _ _ _ _ H2).
Qed.

Lemma wl_dec n : within_limit bs (dmode m) n \/ ~ within_limit bs (dmode m) n.
Proof using. clear - bs m. unfold within_limit. destruct (mode_limit bs (dmode m)); [lia|tauto]. Qed.

Lemma plain_outcome d msg : bytes_ok msg -> zlen msg + 3 * bm <= max_string_length ->
  exists o, make_cipher fresh nb m None iv key d = Ret o /\
    (within_limit bs (dmode m) (zlen msg / bm) -> zlen msg mod bm = 0 -> exists r, run_string o msg = Ret r /\ zlen r = zlen msg) /\
    (within_limit bs (dmode m) (zlen msg / bm) -> zlen msg mod bm <> 0 -> run_string o msg = Raise (Error Wrong_data_length)) /\
    (~ within_limit bs (dmode m) (zlen msg / bm) -> run_string o msg = Raise (Error Message_too_long)).
Proof.
  intros Hok Hsz. pose proof bm_pos as Hbm.
  destruct (make_cipher_ok fresh fresh_len nb key bs E D m None iv d HF Hm Hiv) as (o & Ho & B). exists o. split; [exact Ho|].
  destruct (as_blocks fresh fresh_len bm msg Hbm Hok) as (X & tail & Em & HX & Hto & Htl & HXl & Htb). pose proof (zlen_nonneg tail).
  destruct (run_either d X) as (R1 & R2). rewrite HXl in R1, R2. set (F := mode_fun E D (dmode m) d) in *.
  replace (fin_of (mode_bs bs (dmode m)) (mode_fn bs F (dmode m) d) None d) with (block_flush bm (mode_fn bs F (dmode m) d)) in B by (destruct d; reflexivity).
  fold bm in B. destruct (Z.eq_dec (zlen tail) 0) as [E0|E0].
  - pose proof (zlen_0 _ E0) as ->. rewrite app_nil_r in Em.
    pose proof (plain_total bm (mode_fn bs F (dmode m) d) Hbm (mode_st0 bs F (dmode m) d (iv_val bs iv)) X (blocks_ok_len _ _ HX)) as T. rewrite <- Em in T.
    split; [|split].
    + intros Hw _. destruct (R1 Hw) as (s & Y & HR & HL). pose proof (behaves_sizes _ _ _ _ _ B X s Y HX HR) as HY. rewrite HR in T. unfold plain_mealy in T.
      exists (concat Y). split.
      * apply (behaves_result _ _ _ _ _ msg (concat Y) B Hbm Hok Hsz); rewrite T; reflexivity.
      * rewrite Em, (zlen_concat bm Y (blocks_ok_len _ _ HY)), (zlen_concat bm X (blocks_ok_len _ _ HX)). unfold zlen. rewrite HL. reflexivity.
    + intros _ Hn. exfalso. apply Hn. rewrite <- Htl. reflexivity.
    + intros Hw. specialize (R2 Hw). destruct (bf_run _ _ X) as [s [Y|]]; [discriminate|]. exact (behaves_raise _ _ _ _ _ _ _ B Hok Hsz T).
  - pose proof (plain_total_bad bm (mode_fn bs F (dmode m) d) Hbm (mode_st0 bs F (dmode m) d (iv_val bs iv)) X tail (blocks_ok_len _ _ HX) ltac:(lia)) as T. rewrite <- Em in T.
    split; [|split].
    + intros _ Hz. exfalso. apply E0. rewrite Htl. exact Hz.
    + intros Hw _. destruct (R1 Hw) as (s & Y & HR & HL). rewrite HR in T. exact (behaves_raise _ _ _ _ _ _ _ B Hok Hsz T).
    + intros Hw. rewrite (R2 Hw) in T. exact (behaves_raise _ _ _ _ _ _ _ B Hok Hsz T).
Qed.

Lemma padenc_outcome p msg : pad_supports p bm -> bytes_ok msg -> zlen msg + 4 * bm <= max_string_length ->
  exists o, make_cipher fresh nb m (Some (scheme_of p)) iv key Encrypt = Ret o /\
    (within_limit bs (dmode m) (zlen msg / bm + 1) -> exists r, run_string o msg = Ret r /\ zlen r = (zlen msg / bm + 1) * bm) /\
    (~ within_limit bs (dmode m) (zlen msg / bm + 1) -> run_string o msg = Raise (Error Message_too_long)).
Proof.
  intros Hp Hok Hsz. pose proof bm_pos as Hbm.
  destruct (make_cipher_ok fresh fresh_len nb key bs E D m (Some p) iv Encrypt HF Hm Hiv) as (o & Ho & B). exists o. split; [exact Ho|]. cbn [fin_of] in B.
  destruct (as_blocks fresh fresh_len bm msg Hbm Hok) as (X & tail & Em & HX & Hto & Htl & HXl & Htb). pose proof (zlen_nonneg tail).
  set (F := mode_fun E D (dmode m) Encrypt) in *. fold bm in B.
  assert (Hpad : exists l, pad_fn p bm (zlen tail) = Some l /\ zlen tail + zlen l = bm /\ bytes_ok l).
  { pose proof (pad_fn_ok p bm (zeros bm) (zlen tail) ltac:(apply zlen_zeros; lia) ltac:(lia)) as H'.
    destruct (pad_fn p bm (zlen tail)) as [l|] eqn:El.
    - exists l. destruct H' as (_ & H1 & H2). auto.
    - destruct p; cbn [pad_fn pad_supports] in *; [|discriminate].
      unfold length_pad in El. replace ((0 <? bm - zlen tail) && (bm - zlen tail <? 256)) with true in El by lia. discriminate. }
  destruct Hpad as (l & Hl1 & Hl2 & Hl3).
  assert (HW : blocks_ok bm (X ++ [tail ++ l])).
  { apply Forall_app. split; [exact HX|]. repeat constructor; [rewrite zlen_app; lia|apply bytes_ok_app; split; assumption]. }
  assert (HWl : zlen (X ++ [tail ++ l]) = zlen msg / bm + 1) by (rewrite zlen_app, HXl; reflexivity).
  destruct (run_either Encrypt (X ++ [tail ++ l])) as (R1 & R2). rewrite HWl in R1, R2. fold F in R1, R2.
  pose proof (padenc_total bm (mode_fn bs F (dmode m) Encrypt) Hbm (pad_fn p bm) (mode_st0 bs F (dmode m) Encrypt (iv_val bs iv)) X tail l (blocks_ok_len _ _ HX) Htb Hl1) as T.
  rewrite <- Em in T. split.
  - intros Hw. destruct (R1 Hw) as (s & Y & HR & HL). pose proof (behaves_sizes _ _ _ _ _ B _ s Y HW HR) as HY. rewrite HR in T. destruct T as (T1 & T2).
    exists (concat Y). split; [apply (behaves_result _ _ _ _ _ msg (concat Y) B Hbm Hok ltac:(lia) T1 T2)|].
    rewrite (zlen_concat bm Y (blocks_ok_len _ _ HY)), <- HWl. unfold zlen. rewrite HL. lia.
  - intros Hw. specialize (R2 Hw). destruct (bf_run _ _ (X ++ [tail ++ l])) as [s [Y|]]; [discriminate|].
    exact (behaves_raise _ _ _ _ _ _ _ B Hok ltac:(lia) T).
Qed.

Lemma paddec_outcome p msg : bytes_ok msg -> zlen msg + 3 * bm <= max_string_length ->
  exists o, make_cipher fresh nb m (Some (scheme_of p)) iv key Decrypt = Ret o /\
    (within_limit bs (dmode m) (zlen msg / bm) -> zlen msg mod bm = 0 -> msg <> [] ->
       (exists r, run_string o msg = Ret r /\ zlen msg - bm <= zlen r < zlen msg) \/ run_string o msg = Raise (Error Bad_padding)) /\
    (within_limit bs (dmode m) (zlen msg / bm) -> zlen msg mod bm <> 0 \/ msg = [] -> run_string o msg = Raise (Error Wrong_data_length)) /\
    (~ within_limit bs (dmode m) (zlen msg / bm) -> run_string o msg = Raise (Error Message_too_long)).
Proof.
  intros Hok Hsz. pose proof bm_pos as Hbm.
  destruct (make_cipher_ok fresh fresh_len nb key bs E D m (Some p) iv Decrypt HF Hm Hiv) as (o & Ho & B). exists o. split; [exact Ho|]. cbn [fin_of] in B.
  destruct (as_blocks fresh fresh_len bm msg Hbm Hok) as (X & tail & Em & HX & Hto & Htl & HXl & Htb). pose proof (zlen_nonneg tail).
  destruct (run_either Decrypt X) as (R1 & R2). rewrite HXl in R1, R2. set (F := mode_fun E D (dmode m) Decrypt) in *. fold bm in B.
  assert (Bad : (0 < zlen tail \/ X = []) -> run_string o msg = Raise (Error (match snd (bf_run (mode_fn bs F (dmode m) Decrypt) (mode_st0 bs F (dmode m) Decrypt (iv_val bs iv)) X) with Some _ => Wrong_data_length | None => Message_too_long end))).
  { intros Hc. pose proof (paddec_total_bad bm (mode_fn bs F (dmode m) Decrypt) Hbm (unpad_fn p) (mode_st0 bs F (dmode m) Decrypt (iv_val bs iv)) X tail (blocks_ok_len _ _ HX) Htb Hc) as T.
    rewrite <- Em in T. exact (behaves_raise _ _ _ _ _ _ _ B Hok Hsz T). }
  assert (Hcase : (0 < zlen tail \/ X = []) \/ (tail = [] /\ exists bl b, X = bl ++ [b])).
  { destruct tail as [|c t]; [|left; left; unfold zlen; cbn [length]; lia]. destruct X as [|x X']; [left; right; reflexivity|].
    right. split; [reflexivity|]. destruct (@exists_last _ (x :: X')) as (bl & b & Eq); [discriminate|]. eauto. }
  destruct Hcase as [Hc|(-> & bl & b & EX)].
  - specialize (Bad Hc). split; [|split].
    + intros _ Hz Hne. exfalso. destruct Hc as [Hc|Hc]; [lia|]. subst X. apply Hne. rewrite Em. cbn [concat app].
      apply zlen_0. lia.
    + intros Hw _. destruct (R1 Hw) as (s & Y & HR & HL). rewrite HR in Bad. exact Bad.
    + intros Hw. rewrite (R2 Hw) in Bad. exact Bad.
  - rewrite app_nil_r in Em. change (zlen (@nil Z)) with 0 in *.
    pose proof HX as HX'. rewrite EX in HX'. apply Forall_app in HX'. destruct HX' as (HX1 & HX2). apply Forall_cons_iff in HX2. destruct HX2 as ((Hb1 & Hb2) & _).
    split; [|split].
    + intros Hw _ _. destruct (R1 Hw) as (s & Y & HR & HL). pose proof (behaves_sizes _ _ _ _ _ B X s Y HX HR) as HY.
      assert (HYne : exists ol ob, Y = ol ++ [ob]).
      { destruct Y as [|y Y']; [rewrite EX, app_length in HL; cbn [length] in HL; lia|].
        destruct (@exists_last _ (y :: Y')) as (ol & ob & Eq); [discriminate|]. eauto. }
      destruct HYne as (ol & ob & EY). pose proof HY as HY'. rewrite EY in HY'. apply Forall_app in HY'. destruct HY' as (HY1 & HY2). apply Forall_cons_iff in HY2. destruct HY2 as ((Ho1 & Ho2) & _).
      rewrite EX, EY in HR.
      pose proof (paddec_total bm (mode_fn bs F (dmode m) Decrypt) Hbm (unpad_fn p) (mode_st0 bs F (dmode m) Decrypt (iv_val bs iv)) s bl b ol ob (blocks_ok_len _ _ HX1) Hb1 HR) as T.
      cbn zeta in T. rewrite <- EX, <- Em in T. destruct (unpad_fn p ob) as [v|] eqn:Eu.
      * left. destruct T as (T1 & T2). exists (concat ol ++ sub ob 0 v). split; [apply (behaves_result _ _ _ _ _ msg _ B Hbm Hok Hsz T1 T2)|].
        apply unpad_small in Eu; [|lia]. rewrite Em, zlen_app, (zlen_concat bm ol (blocks_ok_len _ _ HY1)), (zlen_concat bm X (blocks_ok_len _ _ HX)), zlen_sub by lia.
        rewrite EX, EY, !app_length in HL. cbn [length] in HL. rewrite EX, zlen_app. change (zlen [b]) with 1. assert (HLz : zlen ol = zlen bl) by (unfold zlen; lia). rewrite HLz. nia.
      * right. exact (behaves_raise _ _ _ _ _ _ _ B Hok Hsz T).
    + intros _ [Hn|He]; exfalso; [apply Hn; lia|]. rewrite Em, EX, concat_app in He. cbn [concat] in He. rewrite app_nil_r in He.
      apply app_eq_nil in He. destruct He as (_ & ->). change (zlen (@nil Z)) with 0 in Hb1. lia.
    + intros Hw. specialize (R2 Hw). rewrite EX in R2.
      pose proof (paddec_total_none bm (mode_fn bs F (dmode m) Decrypt) Hbm (unpad_fn p) _ bl b (blocks_ok_len _ _ HX1) Hb1 R2) as T.
      rewrite <- EX, <- Em in T. exact (behaves_raise _ _ _ _ _ _ _ B Hok Hsz T).
Qed.
End S.

Lemma growth_bound K1 A1 K2 A2 n M : 1 <= K1 -> 0 <= A1 -> 1 <= K2 -> 0 <= A2 -> 0 <= n -> K1 * K2 * n + 2 * (K2 * A1 + 2 * A2) <= M ->
  K1 * n + 2 * A1 <= M /\ (forall r, r <= K1 * n + 2 * A1 -> K2 * r + 2 * A2 <= M).
Proof.
  intros H1 H2 H3 H4 H5 H. replace (K1 * K2 * n + 2 * (K2 * A1 + 2 * A2)) with (K2 * (K1 * n + 2 * A1) + 4 * A2) in H by ring.
  assert (0 <= K1 * n) by (apply Z.mul_nonneg_nonneg; lia). set (t := K1 * n + 2 * A1) in *. assert (0 <= t) by (subst t; lia). clearbody t.
  pose proof (Z.mul_le_mono_nonneg_r 1 K2 t ltac:(lia) H3). split; [lia|]. intros r Hr.
  pose proof (Z.mul_le_mono_nonneg_l r t K2 ltac:(lia) Hr). lia.
Qed.
Section Sized.
Variable fresh : Z -> bytes.
Hypothesis fresh_len : forall n, 0 <= n -> zlen (fresh n) = n.

Lemma sized_lib o K A ib ob : sized_transform fresh o K A ib ob -> lib_transform fresh o K A.
Proof.
  induction 1 as [o K A ib ob H|]; [|apply LT_compose; assumption].
  destruct H; [eapply LT_cipher; eassumption|eapply LT_stream; eassumption|constructor..].
Qed.

Lemma sized_bound o K A ib ob : sized_transform fresh o K A ib ob -> forall msg r, bytes_ok msg -> K * zlen msg + 2 * A <= max_string_length ->
  run_string o msg = Ret r -> zlen r <= K * zlen msg + 2 * A /\ bytes_ok r /\ 1 <= K /\ 0 <= A.
Proof.
  intros S msg r Hok Hsz HR. destruct (lib_lawful fresh fresh_len o K A (sized_lib _ _ _ _ _ S)) as (st & M & sg & L).
  assert (KA : 1 <= K /\ 0 <= A) by (destruct L as (? & ? & ? & _ & G & _); apply (g_KA _ _ _ _ _ G)).
  pose proof (lawful_string _ _ _ _ _ _ L msg Hok Hsz) as HS. pose proof (lawful_total_bound _ _ _ _ _ _ L msg Hok) as HB.
  destruct (r_exn (m_total M sg msg)); [destruct HS as (e' & HS & _); congruence|].
  rewrite HR in HS. apply ret_inj in HS. rewrite HS. destruct (HB eq_refl). auto.
Qed.

(* the result: a whole number of output blocks *)
Lemma output_blocks o K A ib ob : sized_transform fresh o K A ib ob ->
  forall msg r, bytes_ok msg -> K * zlen msg + 2 * A <= max_string_length -> run_string o msg = Ret r -> zlen r mod ob = 0.
Proof.
  induction 1 as [o K A ib ob HB|o1 K1 A1 i1 b1 o2 K2 A2 i2 b2 S1 IH1 S2 IH2]; intros msg r Hok Hsz HR.
  - destruct HB as [nb key bs E D m p iv d o ib ob HF Hm Hiv Hp Ho Hs|K prim wipe f rel k s Hp Hr|ml pad| | | ]; try apply Z.mod_1_r.
    pose proof (bm_pos nb key bs E D m HF Hm) as Hbm.
    destruct p as [p|]; [destruct d|]; cbn [cipher_sizes option_map] in *; apply pair_equal_spec in Hs; destruct Hs as [<- <-].
    + destruct (padenc_outcome fresh fresh_len nb key bs E D m iv HF Hm Hiv p msg (Hp p eq_refl) Hok ltac:(lia)) as (o' & Ho' & H1 & H2).
      rewrite Ho in Ho'. apply ret_inj in Ho'. subst o'.
      destruct (wl_dec bs m (zlen msg / mode_bs bs (dmode m) + 1)) as [Hw|Hw]; [|rewrite (H2 Hw) in HR; discriminate].
      destruct (H1 Hw) as (r' & HR' & Hl). rewrite HR in HR'. apply ret_inj in HR'. subst r'. rewrite Hl. apply Z.mod_mul. lia.
    + apply Z.mod_1_r.
    + destruct (plain_outcome fresh fresh_len nb key bs E D m iv HF Hm Hiv d msg Hok ltac:(lia)) as (o' & Ho' & H1 & H2 & H3).
      rewrite Ho in Ho'. apply ret_inj in Ho'. subst o'.
      destruct (wl_dec bs m (zlen msg / mode_bs bs (dmode m))) as [Hw|Hw]; [|rewrite (H3 Hw) in HR; discriminate].
      destruct (Z.eq_dec (zlen msg mod mode_bs bs (dmode m)) 0) as [Hz|Hz]; [|rewrite (H2 Hw Hz) in HR; discriminate].
      destruct (H1 Hw Hz) as (r' & HR' & Hl). rewrite HR in HR'. apply ret_inj in HR'. subst r'. rewrite Hl. exact Hz.
  - destruct (lib_compose_string fresh fresh_len o1 K1 A1 o2 K2 A2 msg (sized_lib _ _ _ _ _ S1) (sized_lib _ _ _ _ _ S2) Hok Hsz) as (Hc & _).
    apply Hc in HR. destruct HR as (r1 & HR1 & HR2).
    assert (KA2 : 1 <= K2 /\ 0 <= A2).
    { destruct (lib_lawful fresh fresh_len o2 K2 A2 (sized_lib _ _ _ _ _ S2)) as (? & ? & ? & (? & ? & ? & _ & G & _)). apply (g_KA _ _ _ _ _ G). }
    assert (KA1 : 1 <= K1 /\ 0 <= A1).
    { destruct (lib_lawful fresh fresh_len o1 K1 A1 (sized_lib _ _ _ _ _ S1)) as (? & ? & ? & (? & ? & ? & _ & G & _)). apply (g_KA _ _ _ _ _ G). }
    destruct (growth_bound K1 A1 K2 A2 (zlen msg) max_string_length) as (G1 & G2); try tauto; [apply zlen_nonneg|].
    destruct (sized_bound _ _ _ _ _ S1 msg r1 Hok G1 HR1) as (Hb & Hrk & _).
    apply (IH2 r1 r Hrk); [exact (G2 _ Hb)|exact HR2].
Qed.

(* an input that is not a whole number of input blocks is refused *)
Lemma input_blocks o K A ib ob : sized_transform fresh o K A ib ob ->
  forall msg, bytes_ok msg -> K * zlen msg + 2 * A <= max_string_length -> zlen msg mod ib <> 0 -> exists e, run_string o msg = Raise e.
Proof.
  induction 1 as [o K A ib ob HB|o1 K1 A1 i1 b1 o2 K2 A2 i2 b2 S1 IH1 S2 IH2]; intros msg Hok Hsz Hn.
  - destruct HB as [nb key bs E D m p iv d o ib ob HF Hm Hiv Hp Ho Hs|K prim wipe f rel k s Hp Hr|ml pad| | | ]; try (exfalso; apply Hn; apply Z.mod_1_r).
    pose proof (bm_pos nb key bs E D m HF Hm) as Hbm.
    destruct p as [p|]; [destruct d|]; cbn [cipher_sizes option_map] in *; apply pair_equal_spec in Hs; destruct Hs as [<- <-].
    + exfalso; apply Hn; apply Z.mod_1_r.
    + destruct (paddec_outcome fresh fresh_len nb key bs E D m iv HF Hm Hiv p msg Hok ltac:(lia)) as (o' & Ho' & H1 & H2 & H3).
      rewrite Ho in Ho'. apply ret_inj in Ho'. subst o'.
      destruct (wl_dec bs m (zlen msg / mode_bs bs (dmode m))) as [Hw|Hw]; eexists; [apply (H2 Hw); tauto|apply (H3 Hw)].
    + destruct (plain_outcome fresh fresh_len nb key bs E D m iv HF Hm Hiv d msg Hok ltac:(lia)) as (o' & Ho' & H1 & H2 & H3).
      rewrite Ho in Ho'. apply ret_inj in Ho'. subst o'.
      destruct (wl_dec bs m (zlen msg / mode_bs bs (dmode m))) as [Hw|Hw]; eexists; [apply (H2 Hw); tauto|apply (H3 Hw)].
  - destruct (lib_compose_string fresh fresh_len o1 K1 A1 o2 K2 A2 msg (sized_lib _ _ _ _ _ S1) (sized_lib _ _ _ _ _ S2) Hok Hsz) as (Hc & [(r & Hr)|He]); [|exact He].
    exfalso. apply Hc in Hr. destruct Hr as (r1 & HR1 & _).
    assert (KA2 : 1 <= K2 /\ 0 <= A2).
    { destruct (lib_lawful fresh fresh_len o2 K2 A2 (sized_lib _ _ _ _ _ S2)) as (? & ? & ? & (? & ? & ? & _ & G & _)). apply (g_KA _ _ _ _ _ G). }
    assert (KA1 : 1 <= K1 /\ 0 <= A1).
    { destruct (lib_lawful fresh fresh_len o1 K1 A1 (sized_lib _ _ _ _ _ S1)) as (? & ? & ? & (? & ? & ? & _ & G & _)). apply (g_KA _ _ _ _ _ G). }
    destruct (growth_bound K1 A1 K2 A2 (zlen msg) max_string_length) as (G1 & _); try tauto; [apply zlen_nonneg|].
    destruct (IH1 msg Hok G1 Hn) as (e & HE). congruence.
Qed.

(* an input of a whole number of input blocks is not refused for its length *)
Lemma opt_result_ok o strict M sg K A msg e spec : lawful strict o M sg K A -> bytes_ok msg -> K * zlen msg + 2 * A <= max_string_length -> strict = true ->
  opt_result e spec (r_out (m_total M sg msg), r_exn (m_total M sg msg)) -> (exists r, run_string o msg = Ret r) \/ run_string o msg = Raise e.
Proof.
  intros L Hok Hsz -> Ho. pose proof (lawful_string _ _ _ _ _ _ L msg Hok Hsz) as HS. unfold opt_result in Ho. cbn [fst snd] in Ho.
  destruct spec as [l|].
  - apply (f_equal snd) in Ho. cbn [snd] in Ho. rewrite Ho in HS. eauto.
  - rewrite Ho in HS. destruct HS as (e' & HS & He). rewrite (He eq_refl) in HS. auto.
Qed.
Lemma total_ok o strict M sg K A msg : lawful strict o M sg K A -> bytes_ok msg -> K * zlen msg + 2 * A <= max_string_length ->
  r_exn (m_total M sg msg) = None -> run_string o msg = Ret (r_out (m_total M sg msg)).
Proof. intros L Hok Hsz He. pose proof (lawful_string _ _ _ _ _ _ L msg Hok Hsz) as HS. rewrite He in HS. exact HS. Qed.
Lemma whole_blocks_accepted o K A ib ob : basic_transform fresh o K A ib ob ->
  forall msg, bytes_ok msg -> msg <> [] -> K * zlen msg + 2 * A <= max_string_length -> zlen msg mod ib = 0 ->
  (exists r, run_string o msg = Ret r) \/ (exists e, run_string o msg = Raise (Error e) /\ (e = Message_too_long \/ e = Bad_padding \/ e = Bad_encoding)).
Proof.
  intros HB msg Hok Hne Hsz Hn.
  destruct HB as [nb key bs E D m p iv d o ib ob HF Hm Hiv Hp Ho Hs|K prim wipe f rel k s Hp Hr|ml pad| | | ].
  - pose proof (bm_pos nb key bs E D m HF Hm) as Hbm.
    destruct p as [p|]; [destruct d|]; cbn [cipher_sizes option_map] in *; apply pair_equal_spec in Hs; destruct Hs as [<- <-].
    + destruct (padenc_outcome fresh fresh_len nb key bs E D m iv HF Hm Hiv p msg (Hp p eq_refl) Hok ltac:(lia)) as (o' & Ho' & H1 & H2).
      rewrite Ho in Ho'. apply ret_inj in Ho'. subst o'.
      destruct (wl_dec bs m (zlen msg / mode_bs bs (dmode m) + 1)) as [Hw|Hw]; [left; destruct (H1 Hw) as (r & Hr & _); eauto|right; eexists; split; [apply (H2 Hw)|tauto]].
    + destruct (paddec_outcome fresh fresh_len nb key bs E D m iv HF Hm Hiv p msg Hok ltac:(lia)) as (o' & Ho' & H1 & H2 & H3).
      rewrite Ho in Ho'. apply ret_inj in Ho'. subst o'.
      destruct (wl_dec bs m (zlen msg / mode_bs bs (dmode m))) as [Hw|Hw]; [|right; eexists; split; [apply (H3 Hw)|tauto]].
      destruct (H1 Hw Hn Hne) as [(r & Hr & _)|Hr]; [left; eauto|right; eexists; split; [exact Hr|tauto]].
    + destruct (plain_outcome fresh fresh_len nb key bs E D m iv HF Hm Hiv d msg Hok ltac:(lia)) as (o' & Ho' & H1 & H2 & H3).
      rewrite Ho in Ho'. apply ret_inj in Ho'. subst o'.
      destruct (wl_dec bs m (zlen msg / mode_bs bs (dmode m))) as [Hw|Hw]; [left; destruct (H1 Hw Hn) as (r & Hr & _); eauto|right; eexists; split; [apply (H3 Hw)|tauto]].
  - left. eexists. eapply total_ok; [eapply stream_lawful; eassumption|exact Hok|exact Hsz|]. rewrite stream_total. reflexivity.
  - left. eexists. eapply total_ok; [apply b64e_lawful; assumption|exact Hok|exact Hsz|]. destruct ml; [apply b64e_total_multiline|apply (b64e_total_compact pad msg 0)].
  - destruct (opt_result_ok _ _ _ _ _ _ msg _ _ (b64d_lawful fresh fresh_len) Hok Hsz eq_refl (b64d_total msg)) as [H|H]; [left; exact H|right; eexists; split; [exact H|tauto]].
  - left. eexists. eapply total_ok; [apply hexe_lawful; assumption|exact Hok|exact Hsz|]. apply hexe_total.
  - destruct (opt_result_ok _ _ _ _ _ _ msg _ _ (hexd_lawful fresh fresh_len) Hok Hsz eq_refl (hexd_total msg)) as [H|H]; [left; exact H|right; eexists; split; [exact H|tauto]].
Qed.
End Sized.
