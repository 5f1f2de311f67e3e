(* Histories of calls on memory; buffers encrypted in place. *)
From Verif Require Import Prelude PreludeFacts BytesNum SpecBlock SpecModes BlockModel BlockBounds BlockCipher CipherModel CipherSpec CipherFacts CipherApi
  DesModel AesModel Aes AesniModel Aesni BlowfishModel WipeCipher Modes InPlaceModel SpecInPlace InPlace.
Ltac Zify.zify_post_hook ::= Z.div_mod_to_equations.

Definition osim (o : mobj) (m : mem) (own : list nat) (c : bobj) : Prop :=
  exists R, simulates (mo_c o) (b_bc c) own R /\ R (mo_st o) m (b_st c).

Lemma base_sim o c m : base o c -> osim o m [] c.
Proof.
  intros [K bs prim wipe k Hb Hp|k].
  - eexists. split; [apply (raw_sim K bs prim wipe k Hb Hp)|split; reflexivity].
  - eexists. split; [apply triple_sim|reflexivity].
Qed.

Lemma osim_frame o m m' own c : osim o m own c -> (forall x, In x own -> m' x = m x) -> osim o m' own c.
Proof. intros (R & H1 & H2) H. exists R. split; [exact H1|]. eapply (proj1 (proj2 H1)); eassumption. Qed.
Lemma osim_weaken o m own own' c : incl own own' -> osim o m own c -> osim o m own' c.
Proof.
  intros Hi (R & (H1 & H2 & H3) & H). exists R. split; [|exact H]. split; [exact H1|]. split.
  - intros s x x' y Hr He. eapply H2; [exact Hr|]. auto.
  - intros s x y src so dst d Hr Hs Hd r q. destruct (H3 s x y src so dst d Hr) as (A & B & D); [auto..|].
    split; [exact A|]. split; [exact B|]. intros z Hz. apply D. auto.
Qed.

Section Chain.
Variable fresh : Z -> bytes.

Lemma chain_sim mode d iv o m own c riv rtmp : NoDup (riv :: rtmp :: own) -> osim o m own c ->
  same_out (fun c' x => osim (fst x) (snd x) (riv :: rtmp :: own) c' /\ forall z, ~ In z (riv :: rtmp :: own) -> snd x z = m z)
    (chain fresh mode d iv c) (chain_m fresh mode d iv o m riv rtmp).
Proof.
  intros Hnd (R & HS & HR). pose proof (proj1 HS) as Hbs.
  assert (Hne : riv <> rtmp). { inversion Hnd as [|? ? H1 H2]; subst. intros ->. apply H1. now left. }
  assert (Hi : ~ In riv own). { inversion Hnd as [|? ? H1 H2]; subst. intros H. apply H1. now right. }
  assert (Ht : ~ In rtmp own). { inversion Hnd as [|? ? H1 H2]; subst. now inversion H2. }
  assert (INIT : forall max, same_out (fun s x => RM (mo_c o) (b_bc c) R riv rtmp (fst x) (snd x) s /\ forall z, ~ In z (riv :: rtmp :: own) -> snd x z = m z)
    (mode_init fresh (b_bc c) max iv (b_st c)) (mm_init fresh (mo_c o) max iv (mo_st o) m riv rtmp)).
  { intros max. unfold mode_init, mm_init. rewrite Hbs. destruct (make_initial_iv (bc_blocksize (b_bc c)) iv) as [i|e| |]; cbn [obind same_out]; auto.
    cbn [fst snd]. split.
    - unfold RM. cbn [mm_iv mm_tmp mm_max mm_c ms_iv ms_tmp ms_max ms_c]. split; [reflexivity|]. split; [reflexivity|]. split; [reflexivity|].
      split; [rewrite upd_other by exact Hne; apply upd_same|]. split; [apply upd_same|].
      eapply (proj1 (proj2 HS)); [exact HR|]. intros z Hz. rewrite !upd_other; [reflexivity|intros ->; contradiction|intros ->; contradiction].
    - intros z Hz. rewrite !upd_other; [reflexivity|intros ->; apply Hz; now left|intros ->; apply Hz; right; now left]. }
  assert (CINIT : forall n max, same_out (fun s x => RM (mo_c o) (b_bc c) R riv rtmp (fst x) (snd x) s /\ forall z, ~ In z (riv :: rtmp :: own) -> snd x z = m z)
    (chunked_init fresh (b_bc c) n max iv (b_st c)) (mm_chunked_init fresh (mo_c o) n max iv (mo_st o) m riv rtmp)).
  { intros n max. unfold chunked_init, mm_chunked_init, chunk_ok, mchunk_ok. rewrite Hbs.
    destruct ((n >? 0) && (n <=? bc_blocksize (b_bc c))); [apply INIT|reflexivity]. }
  destruct mode as [| |n|n| |n]; cbn [chain chain_m].
  - cbn [same_out fst snd]. split; [|auto]. apply (osim_weaken o m own); [|exists R; split; assumption]. intros z Hz. right. now right.
  - pose proof (INIT 0) as H. destruct d;
      (destruct (mode_init fresh (b_bc c) 0 iv (b_st c)) as [s|e| |], (mm_init fresh (mo_c o) 0 iv (mo_st o) m riv rtmp) as [x|e'| |];
       cbn [obind same_out] in *; try exact H; try contradiction; destruct H as (H1 & H2); cbn [fst snd]; (split; [|exact H2]);
       eexists; (split; [|exact H1])); [apply cbc_encrypt_sim|apply cbc_decrypt_sim]; assumption.
  - pose proof (CINIT n 0) as H. destruct d;
      (destruct (chunked_init fresh (b_bc c) n 0 iv (b_st c)) as [s|e| |], (mm_chunked_init fresh (mo_c o) n 0 iv (mo_st o) m riv rtmp) as [x|e'| |];
       cbn [obind same_out] in *; try exact H; try contradiction; destruct H as (H1 & H2); cbn [fst snd]; (split; [|exact H2]);
       eexists; (split; [|exact H1])); [apply cfb_encrypt_sim|apply cfb_decrypt_sim]; assumption.
  - pose proof (CINIT n 0) as H.
      destruct (chunked_init fresh (b_bc c) n 0 iv (b_st c)) as [s|e| |], (mm_chunked_init fresh (mo_c o) n 0 iv (mo_st o) m riv rtmp) as [x|e'| |];
       cbn [obind same_out] in *; try exact H; try contradiction; destruct H as (H1 & H2); cbn [fst snd]; (split; [|exact H2]);
       eexists; (split; [|exact H1]); apply ofb_sim; assumption.
  - rewrite Hbs. pose proof (INIT (ctr_max (bc_blocksize (b_bc c)))) as H.
      destruct (mode_init fresh (b_bc c) (ctr_max (bc_blocksize (b_bc c))) iv (b_st c)) as [s|e| |], (mm_init fresh (mo_c o) (ctr_max (bc_blocksize (b_bc c))) iv (mo_st o) m riv rtmp) as [x|e'| |];
       cbn [obind same_out] in *; try exact H; try contradiction; destruct H as (H1 & H2); cbn [fst snd]; (split; [|exact H2]);
       eexists; (split; [|exact H1]); apply ctr_sim; assumption.
  - pose proof (CINIT n (ctr_max n)) as H.
      destruct (chunked_init fresh (b_bc c) n (ctr_max n) iv (b_st c)) as [s|e| |], (mm_chunked_init fresh (mo_c o) n (ctr_max n) iv (mo_st o) m riv rtmp) as [x|e'| |];
       cbn [obind same_out] in *; try exact H; try contradiction; destruct H as (H1 & H2); cbn [fst snd]; (split; [|exact H2]);
       eexists; (split; [|exact H1]); apply ctr_sim; assumption.
Qed.

Lemma build_sim l o c m : base o c -> NoDup (private l) ->
  same_out (fun c' x => osim (fst x) (snd x) (private l) c' /\ forall z, ~ In z (private l) -> snd x z = m z) (build fresh l c) (build_m fresh l o m).
Proof.
  intros Hb. induction l as [|y l IH]; intros Hnd.
  - cbn. split; [apply base_sim; exact Hb|auto].
  - cbn [build build_m private flat_map app] in *. fold (private l) in *.
    assert (Hnd' : NoDup (private l)) by (inversion Hnd as [|? ? ? H]; now inversion H).
    specialize (IH Hnd'). destruct (build fresh l c) as [c1|e| |], (build_m fresh l o m) as [x|e'| |]; cbn [obind same_out] in *; try exact IH; try contradiction.
    destruct IH as (H1 & H2). pose proof (chain_sim (l_mode y) (l_dir y) (l_ivopt y) _ _ _ _ _ _ Hnd H1) as H.
    destruct (chain fresh _ _ _ c1) as [c2|e| |], (chain_m fresh _ _ _ _ _ _ _) as [x'|e'| |]; cbn [same_out] in *; try exact H; try contradiction.
    destruct H as (H3 & H4). split; [exact H3|]. intros z Hz. rewrite H4 by exact Hz. apply H2. intros X. apply Hz. right. now right.
Qed.
End Chain.

Lemma run_sim_mem C M own R : simulates M C own R -> forall cs s m m' c, R s m c ->
  (forall z, ~ In z own -> m' z = m z) -> Forall (fun k => ~ In (tc_src k) own /\ ~ In (tc_dst k) own) cs ->
  fst (run_m M s m cs) = fst (run_copy C c m' cs) /\ forall z, ~ In z own -> snd (run_m M s m cs) z = snd (run_copy C c m' cs) z.
Proof.
  intros HS. induction cs as [|k cs IH]; intros s m m' c HR Hm Hf.
  - split; [reflexivity|]. intros z Hz. cbn. symmetry. apply Hm, Hz.
  - apply Forall_cons_iff in Hf. destruct Hf as ((F1 & F2) & Hf). cbn [run_m run_copy].
    pose proof (proj2 (proj2 HS) s m c (tc_src k) (tc_so k) (tc_dst k) (tc_d k) HR F1 F2) as H. cbv zeta in H.
    rewrite (Hm _ F1), (Hm _ F2). destruct H as (H1 & H2 & H3).
    specialize (IH _ _ (upd m' (tc_dst k) (snd (fst (bc_transform C c (m (tc_src k)) (tc_so k) (m (tc_dst k)) (tc_d k))))) _ H2).
    destruct IH as (I1 & I2); [|exact Hf|].
    + intros z Hz. rewrite H3 by exact Hz. unfold upd. destruct (Nat.eqb z (tc_dst k)); [reflexivity|auto].
    + cbn [fst snd]. split; [f_equal; assumption|exact I2].
Qed.

Theorem calls_ok fresh l o c m cs : base o c -> NoDup (private l) ->
  Forall (fun k => ~ In (tc_src k) (private l) /\ ~ In (tc_dst k) (private l)) cs ->
  same_out (fun c' x =>
    fst (run_m (mo_c (fst x)) (mo_st (fst x)) (snd x) cs) = fst (run_copy (b_bc c') (b_st c') m cs) /\
    forall z, ~ In z (private l) -> snd (run_m (mo_c (fst x)) (mo_st (fst x)) (snd x) cs) z = snd (run_copy (b_bc c') (b_st c') m cs) z)
  (build fresh l c) (build_m fresh l o m).
Proof.
  intros Hb Hnd Hf. pose proof (build_sim fresh l o c m Hb Hnd) as H.
  destruct (build fresh l c) as [c'|e| |], (build_m fresh l o m) as [x|e'| |]; cbn [same_out] in *; try exact H.
  destruct H as ((R & HS & HR) & H2). eapply run_sim_mem; try eassumption. intros z Hz. symmetry. auto.
Qed.

(* ---- a buffer, block by block ---- *)
Lemma len_blocks l bs n : forall so, length (blocks_at l so bs n) = n.
Proof. induction n as [|n IH]; intros so; [reflexivity|cbn; f_equal; apply IH]. Qed.
Lemma blocks_at_ext l l' bs n : 0 <= bs -> forall so, (forall i, so <= i -> i + bs <= so + Z.of_nat n * bs -> sub l' i bs = sub l i bs) ->
  blocks_at l' so bs n = blocks_at l so bs n.
Proof.
  intros Hb. induction n as [|n IH]; intros so H; [reflexivity|]. cbn [blocks_at]. f_equal; [apply H; nia|].
  apply IH. intros i H1 H2. apply H; nia.
Qed.

Lemma sweep_run C f rel a : 0 < bc_blocksize C -> bc_implements C f rel -> forall n s sg m so d Y,
  rel s sg -> 0 <= so -> 0 <= d -> so + Z.of_nat n * bc_blocksize C <= zlen (m a) -> d + Z.of_nat n * bc_blocksize C <= zlen (m a) ->
  bytes_ok (m a) -> d <= so \/ so + Z.of_nat n * bc_blocksize C <= d ->
  snd (bf_run f sg (blocks_at (m a) so (bc_blocksize C) n)) = Some Y ->
  fst (run_copy C s m (sweep a so d (bc_blocksize C) n)) = repeat (Ret tt) n /\
  zlen (concat Y) = Z.of_nat n * bc_blocksize C /\ blocks_ok (bc_blocksize C) Y /\
  forall x, snd (run_copy C s m (sweep a so d (bc_blocksize C) n)) x = upd m a (splice (m a) d (concat Y)) x.
Proof.
  intros Hb HC. set (bs := bc_blocksize C) in *. induction n as [|n IH]; intros s sg m so d Y Hr Hso Hd H1 H2 Hok Hov HY.
  - cbn in HY. injection HY as <-. cbn. split; [reflexivity|]. split; [reflexivity|]. split; [constructor|].
    intros x. rewrite splice_nil. now rewrite upd_self.
  - rewrite Nat2Z.inj_succ in *. cbn [blocks_at bf_run] in HY. cbn [sweep run_copy tc_src tc_so tc_dst tc_d].
    assert (HI : forall o, 0 <= o -> o + Z.succ (Z.of_nat n) * bs <= zlen (m a) -> in_range (m a) o bs = true) by (intros o O1 O2; unfold in_range; nia).
    pose proof (HC s sg (m a) so (m a) d Hr (HI so Hso H1) (HI d Hd H2) ltac:(apply bytes_ok_sub; assumption)) as H. cbv zeta in H. fold bs in H.
    destruct (bf_step f sg (sub (m a) so bs)) as [sg1 [blk|]] eqn:Es; [|discriminate].
    destruct (bf_run f sg1 (blocks_at (m a) (so + bs) bs n)) as [sg2 [Y1|]] eqn:Er; [|discriminate]. cbn [snd] in HY. injection HY as <-.
    cbn [fst snd] in H. destruct H as (s1 & dst1 & E1 & Hr1 & Hl1 & Hblk). destruct (Hblk blk eq_refl) as (-> & Lb & Bb).
    rewrite E1. cbn [fst snd]. set (m1 := upd m a (splice (m a) d blk)).
    assert (Em : m1 a = splice (m a) d blk) by apply upd_same.
    assert (Lm : zlen (m1 a) = zlen (m a)) by (rewrite Em; exact Hl1).
    assert (EB : blocks_at (m1 a) (so + bs) bs n = blocks_at (m a) (so + bs) bs n).
    { apply blocks_at_ext; [lia|]. intros i I1 I2. rewrite Em. destruct Hov as [Hov|Hov];
        [apply sub_splice_after; lia|apply sub_splice_before; nia]. }
    destruct (IH s1 sg1 m1 (so + bs) (d + bs) Y1 Hr1) as (A1 & A2 & A3 & A4); try lia.
    + rewrite Em. apply bytes_ok_splice; assumption.
    + rewrite EB, Er. reflexivity.
    + split; [cbn [fst repeat]; f_equal; exact A1|]. cbn [concat]. rewrite zlen_app.
      split; [lia|]. split; [constructor; [split|]; assumption|]. intros x. rewrite A4. unfold upd at 1. unfold upd. destruct (Nat.eqb x a) eqn:Ex.
      * rewrite Em. rewrite <- Lb. rewrite splice_splice_app; [reflexivity|lia|lia].
      * unfold m1, upd. rewrite Ex. reflexivity.
Qed.

Lemma blocks_ok_at l bs n : 0 <= bs -> bytes_ok l -> forall so, 0 <= so -> so + Z.of_nat n * bs <= zlen l -> blocks_ok bs (blocks_at l so bs n).
Proof.
  intros Hb Hok. induction n as [|n IH]; intros so Hs Hl; [constructor|]. rewrite Nat2Z.inj_succ in Hl. cbn [blocks_at]. constructor.
  - split; [apply zlen_sub; nia|apply bytes_ok_sub; assumption].
  - apply IH; nia.
Qed.
Lemma blocks_at_splice l d bs Y : 0 < bs -> 0 <= d -> Forall (fun b => zlen b = bs) Y -> d + zlen (concat Y) <= zlen l ->
  blocks_at (splice l d (concat Y)) d bs (length Y) = Y.
Proof.
  intros Hb. revert l d. induction Y as [|y Y IH]; intros l d Hd HY Hl; [reflexivity|]. apply Forall_cons_iff in HY. destruct HY as (H1 & H2).
  cbn [concat] in *. rewrite zlen_app in Hl. pose proof (zlen_nonneg (concat Y)). cbn [length blocks_at].
  rewrite <- splice_splice_app by lia. f_equal.
  - rewrite sub_splice_before; [apply sub_splice_same; lia|lia|lia|rewrite zlen_splice by lia; lia].
  - rewrite H1. apply IH; [lia|exact H2|rewrite zlen_splice by lia; lia].
Qed.

Lemma concat_blocks_at l bs n : 0 <= bs -> forall so, 0 <= so -> so + Z.of_nat n * bs <= zlen l -> concat (blocks_at l so bs n) = sub l so (Z.of_nat n * bs).
Proof.
  intros Hb. induction n as [|n IH]; intros so Hs Hl; [reflexivity|]. rewrite Nat2Z.inj_succ in *. cbn [blocks_at concat].
  rewrite IH by nia. rewrite <- sub_app_split by nia. f_equal. nia.
Qed.
Lemma splice_over {A} (l : list A) d x y : 0 <= d -> d + zlen x <= zlen l -> zlen y = zlen x -> splice (splice l d x) d y = splice l d y.
Proof.
  intros H1 H2 H3. unfold splice at 1 3. unfold splice. pose proof (zlen_nonneg x).
  assert (E1 : length (firstn (Z.to_nat d) l) = Z.to_nat d) by (rewrite firstn_length; unfold zlen in *; lia).
  assert (E2 : length y = length x) by (unfold zlen in *; lia).
  rewrite firstn_app, E1, Nat.sub_diag, firstn_O, app_nil_r, firstn_firstn, Nat.min_id. f_equal. f_equal.
  rewrite app_assoc, skipn_app, app_length, E1, E2, Nat.sub_diag. rewrite (skipn_all2 (firstn (Z.to_nat d) l ++ x)) by (rewrite app_length; lia). reflexivity.
Qed.
Lemma splice_sub_self {A} (l : list A) d n : 0 <= d -> 0 <= n -> d + n <= zlen l -> splice l d (sub l d n) = l.
Proof.
  intros H1 H2 H3. unfold splice. assert (E : length (sub l d n) = Z.to_nat n) by (pose proof (zlen_sub l d n ltac:(lia) ltac:(lia) ltac:(lia)); unfold zlen in *; lia).
  rewrite E. unfold sub. transitivity (firstn (Z.to_nat d) l ++ skipn (Z.to_nat d) l); [|apply firstn_skipn]. f_equal. rewrite Nat.add_comm, <- skipn_skipn. apply firstn_skipn.
Qed.

Section InPlace.
Variable fresh : Z -> bytes.
Hypothesis fresh_len : forall n, 0 <= n -> zlen (fresh n) = n.

Lemma place nb key bs E D md d iv c o m riv rtmp a so dd n X : block_family nb key bs E D -> mode_ok bs md -> iv_ok bs md iv ->
  nb (normalize_dir (Some md) d) key = Ret c -> base o c -> riv <> rtmp -> a <> riv -> a <> rtmp ->
  let b := mode_bs bs md in
  0 <= so -> 0 <= dd -> so + Z.of_nat n * b <= zlen (m a) -> dd + Z.of_nat n * b <= zlen (m a) -> bytes_ok (m a) ->
  dd <= so \/ so + Z.of_nat n * b <= dd -> X = blocks_at (m a) so b n ->
  exists x, chain_m fresh md d iv o m riv rtmp = Ret x /\
  forall s Y, bf_run (mode_fn bs (mode_fun E D md d) md d) (mode_st0 bs (mode_fun E D md d) md d (iv_val bs iv)) X = (s, Some Y) ->
    fst (run_m (mo_c (fst x)) (mo_st (fst x)) (snd x) (sweep a so dd b n)) = repeat (Ret tt) n /\
    zlen (concat Y) = Z.of_nat n * b /\ blocks_ok b Y /\
    forall z, z <> riv -> z <> rtmp ->
      snd (run_m (mo_c (fst x)) (mo_st (fst x)) (snd x) (sweep a so dd b n)) z = upd m a (splice (m a) dd (concat Y)) z.
Proof.
  intros HF Hm Hiv Hc Hb Hne Ha1 Ha2 b Hso Hdd L1 L2 Hok Hov ->.
  destruct HF as [Fbs Fnew Flen Finv]. destruct (Fnew (normalize_dir (Some md) d)) as (c' & gd & Hc' & Hcb & HI & Hg).
  rewrite Hc in Hc'. injection Hc' as <-. subst bs.
  assert (HIm : bc_implements (b_bc c) (ecb_fn (mode_fun E D md d)) (fun s _ => gd s)).
  { destruct md, d; cbn [normalize_dir mode_fun] in *; exact HI. }
  destruct (chain_ok fresh fresh_len md d iv c (mode_fun E D md d) gd) as (cc & rel & Hch & Hcbs & HCC & Hrel); try assumption; [lia|].
  assert (Hnd : NoDup [riv; rtmp]) by (constructor; [intros [H|[]]; congruence|constructor; [intros []|constructor]]).
  pose proof (chain_sim fresh md d iv o m [] c riv rtmp Hnd (base_sim o c m Hb)) as H. rewrite Hch in H.
  destruct (chain_m fresh md d iv o m riv rtmp) as [x|e'| |]; cbn [same_out] in H; try contradiction.
  destruct H as ((R & HS & HR) & H2). exists x. split; [reflexivity|]. intros s Y HY.
  assert (Hbp : 0 < b) by (eapply mode_bs_pos; [eassumption|lia|eassumption]).
  pose proof (sweep_run (b_bc cc) _ rel a ltac:(rewrite Hcbs; exact Hbp) HCC n (b_st cc) _ m so dd Y Hrel Hso Hdd) as HW. rewrite Hcbs in HW. fold b in HW.
  destruct (HW L1 L2 Hok Hov) as (W1 & W2 & W3 & W4); [rewrite HY; reflexivity|].
  assert (Hf : Forall (fun k => ~ In (tc_src k) [riv; rtmp] /\ ~ In (tc_dst k) [riv; rtmp]) (sweep a so dd b n)).
  { clear -Ha1 Ha2. revert so dd. induction n as [|n IH]; intros so dd; [constructor|]. cbn [sweep]. constructor; [|apply IH].
    cbn [tc_src tc_dst In]. split; intros [H|[H|[]]]; congruence. }
  destruct (run_sim_mem _ _ _ _ HS (sweep a so dd b n) _ _ m _ HR) as (R1 & R2); [intros z Hz; symmetry; apply H2; exact Hz|exact Hf|].
  split; [rewrite R1; exact W1|]. split; [exact W2|]. split; [exact W3|]. intros z Z1 Z2. rewrite R2 by (intros [H|[H|[]]]; congruence). apply W4.
Qed.

Theorem place_ok nb key bs E D md d iv c o m riv rtmp a so dd n : block_family nb key bs E D -> mode_ok bs md -> iv_ok bs md iv ->
  nb (normalize_dir (Some md) d) key = Ret c -> base o c -> riv <> rtmp -> a <> riv -> a <> rtmp ->
  let b := mode_bs bs md in
  0 <= so -> 0 <= dd -> so + Z.of_nat n * b <= zlen (m a) -> dd + Z.of_nat n * b <= zlen (m a) -> bytes_ok (m a) ->
  dd <= so \/ so + Z.of_nat n * b <= dd -> within_limit bs md (Z.of_nat n) ->
  exists o' m' Y, chain_m fresh md d iv o m riv rtmp = Ret (o', m') /\
    mode_spec bs (mode_fun E D md d) md d (iv_val bs iv) (blocks_at (m a) so b n) Y /\
    fst (run_m (mo_c o') (mo_st o') m' (sweep a so dd b n)) = repeat (Ret tt) n /\
    forall z, z <> riv -> z <> rtmp -> snd (run_m (mo_c o') (mo_st o') m' (sweep a so dd b n)) z = upd m a (splice (m a) dd (concat Y)) z.
Proof.
  intros HF Hm Hiv Hc Hb Hne Ha1 Ha2 b Hso Hdd L1 L2 Hok Hov Hw.
  destruct (place nb key bs E D md d iv c o m riv rtmp a so dd n _ HF Hm Hiv Hc Hb Hne Ha1 Ha2 Hso Hdd L1 L2 Hok Hov eq_refl) as ([o' m'] & Hch & HP).
  cbn [fst snd] in HP. fold b in HP.
  destruct (proj1 (mode_run bs (proj1 (fam_bs _ _ _ _ _ HF)) (mode_fun E D md d) md d (iv_val bs iv) (blocks_at (m a) so b n) Hm
     (iv_val_len bs (proj1 (fam_bs _ _ _ _ _ HF)) md iv Hiv))) as (s & Y & HY & Hsp).
  - unfold zlen. rewrite len_blocks. exact Hw.
  - destruct (HP s Y HY) as (P1 & P2 & P4 & P3). exists o', m', Y. auto.
Qed.

(* encryption then decryption, in place *)
Theorem place_inverse nb key bs E D md iv ce cd oe od m r1 r2 r3 r4 a so n : block_family nb key bs E D -> mode_ok bs md -> iv_ok bs md iv ->
  nb (normalize_dir (Some md) Encrypt) key = Ret ce -> base oe ce -> nb (normalize_dir (Some md) Decrypt) key = Ret cd -> base od cd ->
  NoDup [r1; r2; r3; r4; a] ->
  let b := mode_bs bs md in
  0 <= so -> so + Z.of_nat n * b <= zlen (m a) -> bytes_ok (m a) -> within_limit bs md (Z.of_nat n) ->
  exists oe' m1 od' m2, chain_m fresh md Encrypt iv oe m r1 r2 = Ret (oe', m1) /\
    let m1' := snd (run_m (mo_c oe') (mo_st oe') m1 (sweep a so so b n)) in
    chain_m fresh md Decrypt iv od m1' r3 r4 = Ret (od', m2) /\
    snd (run_m (mo_c od') (mo_st od') m2 (sweep a so so b n)) a = m a.
Proof.
  intros HF Hm Hiv Hce Hbe Hcd Hbd Hnd b Hso L Hok Hw.
  assert (N : r1 <> r2 /\ a <> r1 /\ a <> r2 /\ r3 <> r4 /\ a <> r3 /\ a <> r4).
  { inversion_clear Hnd as [|? ? N1 N]. inversion_clear N as [|? ? N2 N']. inversion_clear N' as [|? ? N3 N'']. inversion_clear N'' as [|? ? N4 N''']. cbn in *. intuition congruence. }
  destruct N as (N1 & N2 & N3 & N4 & N5 & N6).
  pose proof (fam_bs _ _ _ _ _ HF) as Hbs. pose proof (iv_val_len bs (proj1 Hbs) md iv Hiv) as Hivl.
  assert (Hbp : 0 < b) by (eapply mode_bs_pos; [eassumption|lia|eassumption]).
  destruct (place nb key bs E D md Encrypt iv ce oe m r1 r2 a so so n _ HF Hm Hiv Hce Hbe N1 N2 N3 Hso Hso L L Hok ltac:(left; lia) eq_refl) as ([oe' m1] & Hch & HP).
  cbn [fst snd] in HP. fold b in HP.
  destruct (proj1 (mode_run bs (proj1 Hbs) (mode_fun E D md Encrypt) md Encrypt (iv_val bs iv) (blocks_at (m a) so b n) Hm Hivl)) as (s & Y & HY & Hsp).
  { unfold zlen. rewrite len_blocks. exact Hw. }
  destruct (HP s Y HY) as (P1 & P2 & P4 & P3). set (m1' := snd (run_m (mo_c oe') (mo_st oe') m1 (sweep a so so b n))) in *.
  pose proof (blocks_ok_at (m a) b n ltac:(lia) Hok so Hso L) as HX.
  destruct (mode_inverse bs (proj1 Hbs) E D md (iv_val bs iv) Hm Hivl (fam_len _ _ _ _ _ HF) (fam_inv _ _ _ _ _ HF) _ s Y HX HY) as (t & HT).
  assert (Em : m1' a = splice (m a) so (concat Y)) by (rewrite P3 by assumption; apply upd_same).
  assert (LY : length Y = n) by (rewrite (mode_spec_length _ _ _ _ _ _ _ Hsp); apply len_blocks).
  assert (EB : blocks_at (m1' a) so b n = Y).
  { rewrite Em, <- LY. apply blocks_at_splice; [lia|exact Hso|apply blocks_ok_len; exact P4|rewrite P2; exact L]. }
  assert (L' : zlen (m1' a) = zlen (m a)) by (rewrite Em; apply zlen_splice; lia).
  destruct (place nb key bs E D md Decrypt iv cd od m1' r3 r4 a so so n _ HF Hm Hiv Hcd Hbd N4 N5 N6 Hso Hso ltac:(fold b; lia) ltac:(fold b; lia)
    ltac:(rewrite Em; apply bytes_ok_splice; [exact Hok|apply (blocks_ok_concat b); exact P4]) ltac:(left; lia) eq_refl) as ([od' m2] & Hch2 & HP2).
  cbn [fst snd] in HP2. fold b in HP2. rewrite EB in HP2. destruct (HP2 t _ HT) as (Q1 & Q2 & Q4 & Q3).
  exists oe', m1, od', m2. split; [exact Hch|]. cbv zeta. fold m1'. split; [exact Hch2|].
  rewrite Q3 by assumption. rewrite upd_same, Em. rewrite concat_blocks_at by lia.
  rewrite splice_over by (rewrite ?P2, ?zlen_sub; nia). apply splice_sub_self; lia.
Qed.
End InPlace.

(* ---- the ciphers of the library ---- *)
Lemma dec_len rk p t : zlen (dec_last rk p t) = 16.
Proof. destruct t as [[[t0 t1] t2] t3]. unfold dec_last. rewrite !zlen_app. reflexivity. Qed.
Lemma enc_len rk p t : zlen (enc_last rk p t) = 16.
Proof. destruct t as [[[t0 t1] t2] t3]. unfold enc_last. rewrite !zlen_app. reflexivity. Qed.
Lemma Ret_eq {A} (x y : A) : Ret x = Ret y -> x = y.
Proof. intros H. now injection H. Qed.
Lemma aes_base fresh d key c : new_aes fresh d key = Ret c -> exists o, base o c.
Proof.
  unfold new_aes. destruct (aes_key_ok key); [|discriminate]. intros H. apply Ret_eq in H. subst c. destruct d.
  - eexists. apply Base_raw; [lia|]. intros b r. unfold rijndaelEncrypt. destruct (rk_reads_ok _ _); [|discriminate].
    destruct (two_rounds _ _ _ _) as [t p]. intros H. apply Ret_eq in H. rewrite <- H. apply enc_len.
  - eexists. apply Base_raw; [lia|]. intros b r. unfold rijndaelDecrypt. destruct (rk_reads_ok _ _); [|discriminate].
    destruct (two_rounds _ _ _ _) as [t p]. intros H. apply Ret_eq in H. rewrite <- H. apply dec_len.
Qed.
Lemma des_base d key c : new_des d key = Ret c -> exists o, base o c.
Proof.
  unfold new_des. destruct (zlen key =? 8); [|discriminate]. intros H. apply Ret_eq in H. subst c.
  eexists. apply Base_raw; [lia|]. intros b r H. apply Ret_eq in H. rewrite <- H. apply des_len.
Qed.
Lemma triple_base d key c : new_triple_des d key = Ret c -> exists o, base o c.
Proof.
  unfold new_triple_des. destruct (_ && _); [discriminate|]. destruct d; intros H; apply Ret_eq in H; subst c; eexists; apply Base_triple.
Qed.
Lemma blowfish_base d key c : new_blowfish d key = Ret c -> exists o, base o c.
Proof.
  unfold new_blowfish. destruct (_ && _); [|discriminate]. intros H. apply Ret_eq in H. subst c. destruct d.
  - eexists. apply Base_raw; [lia|]. intros b r H. apply Ret_eq in H. rewrite <- H. unfold bf_stub. cbv zeta. rewrite zlen_app, !zlen_to_be. reflexivity.
  - eexists. apply Base_raw; [lia|]. intros b r H. apply Ret_eq in H. rewrite <- H. unfold bf_stub. cbv zeta. rewrite zlen_app, !zlen_to_be. reflexivity.
Qed.
Lemma aesni_base fresh d key c : (forall n, 0 <= n -> zlen (fresh n) = n) -> bytes_ok key -> new_aesni fresh d key = Ret c -> exists o, base o c.
Proof.
  intros fresh_len B. unfold new_aesni. destruct (aes_key_ok key) eqn:K; [|discriminate]. apply aes_key_ok_size in K.
  assert (zlen (zeros 16) = 16 /\ bytes_ok (zeros 16)) as (Z1 & Z2) by (split; [reflexivity|apply bytes_ok_zeros]).
  destruct (aesniEncrypt_ok fresh fresh_len key (zeros 16) K B Z1 Z2) as (ce & -> & He).
  destruct (aesniDecrypt_ok fresh fresh_len key (zeros 16) K B Z1 Z2) as (cd & -> & Hd).
  intros E. destruct d; apply Ret_eq in E; subst c.
  - eexists. apply Base_raw; [lia|]. intros b r Hr.
    destruct (aesni_run_good _ _ _ _ _ aes_enclast_shape He ltac:(now apply aes_E_blk) b) as (r' & Hr' & Hl').
    unfold aesniEncrypt in Hr. rewrite Hr' in Hr. apply Ret_eq in Hr. now subst.
  - eexists. apply Base_raw; [lia|]. intros b r Hr.
    destruct (aesni_run_good _ _ _ _ _ aes_declast_shape Hd ltac:(now apply aes_D_blk) b) as (r' & Hr' & Hl').
    unfold aesniDecrypt in Hr. rewrite Hr' in Hr. apply Ret_eq in Hr. now subst.
Qed.
Theorem lib_base fresh : (forall n, 0 <= n -> zlen (fresh n) = n) -> forall nb, In nb [new_aes fresh; new_aesni fresh; new_blowfish; new_des; new_triple_des] ->
  forall d key c, bytes_ok key -> nb d key = Ret c -> exists o, base o c.
Proof.
  intros HF nb [<-|[<-|[<-|[<-|[<-|[]]]]]] d key c Hk H;
    [eapply aes_base|eapply aesni_base|eapply blowfish_base|eapply des_base|eapply triple_base]; eassumption.
Qed.
