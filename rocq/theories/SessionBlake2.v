(* BLAKE2 objects that are given more data after result. *)
From Verif Require Import Prelude PreludeFacts BytesNum SpecBlock BlockTotal Word WordIO SpecHash HashModel HashSpec HashFacts MdModel MdHash ShaModel Sha KeccakModel Keccak
  SpecBlake2 Blake2Model Blake2 SpecAgain SpecBlake2Again Again Blake2Again SpecSession SpecBlake2Session.

Section Blake2.
Variable w : Z.
Variable kb : nat.
Variable rounds : nat.
Variables r1 r2 r3 r4 : Z.
Variable iv : list Z.
Hypothesis w_kb : w = 8 * Z.of_nat kb.
Hypothesis kb_pos : (0 < kb)%nat.
Hypothesis r1_ok : 0 <= r1 <= w.
Hypothesis r2_ok : 0 <= r2 <= w.
Hypothesis r3_ok : 0 <= r3 <= w.
Hypothesis r4_ok : 0 <= r4 <= w.
Hypothesis rounds_le : (rounds <= 12)%nat.
Hypothesis iv_len : length iv = 8%nat.
Hypothesis iv_ok : Forall (word_ok w) iv.
Hypothesis B_small : 16 * (w / 8) < 2 ^ w.
Hypothesis w_small : 64 <= 16 * (w / 8).
Hypothesis w_cases : w = 64 \/ w = 32.
Notation P := (Blake2 w rounds r1 r2 r3 r4 iv).
Notation B := (16 * (w / 8)).

(* the context started from the chain value h0 with t0 bytes counted, and has
   been given d *)
Definition b2_pinv (h0 : list Z) (t0 : Z) (c : b2_ctx) (d : bytes) : Prop :=
  exists blks tail rest, d = concat blks ++ tail /\ Forall (fun b => zlen b = B) blks /\ (tail = [] -> blks = []) /\ zlen tail <= B /\
   bytes_ok d /\ b2_h c = b_blocks P h0 t0 blks /\ ok8 w (b2_h c) /\
   b2_len0 c = (t0 + zlen (concat blks)) mod 2 ^ w /\ b2_len1 c = ((t0 + zlen (concat blks)) / 2 ^ w) mod 2 ^ w /\
   b2_num c = zlen tail /\ b2_buf c = tail ++ rest /\ zlen (b2_buf c) = B.
Lemma B_pos' : 0 < B.
Proof. lia. Qed.
Lemma compress_at h t data n fin : ok8 w h -> 0 <= t -> 0 <= n < 2 ^ w -> zlen data = B -> bytes_ok data ->
  b2_compress w rounds r1 r2 r3 r4 iv h (t mod 2 ^ w) ((t / 2 ^ w) mod 2 ^ w) data n fin
  = (b_F P h data (t + n) fin, (t + n) mod 2 ^ w, ((t + n) / 2 ^ w) mod 2 ^ w) /\ ok8 w (b_F P h data (t + n) fin).
Proof. apply (compress_ok w kb); assumption. Qed.
Lemma concat_blocks (l : list bytes) : Forall (fun b => zlen b = B) l -> zlen (concat l) = zlen l * B.
Proof. induction 1 as [|b l Hb _ IH]; [reflexivity|]. cbn [concat]. rewrite zlen_app, IH, Hb, zlen_cons. lia. Qed.
Lemma blocks_snoc l : Forall (fun b => zlen b = B) l -> forall h t b, b_blocks P h t (l ++ [b]) = b_F P (b_blocks P h t l) b (t + zlen (concat l) + B) false.
Proof.
  intros Hl h t b. rewrite concat_blocks by assumption. clear Hl. revert h t b. induction l as [|a l IH]; intros h t b.
  - cbn [app b_blocks]. unfold b_bb, b_n. cbn [b_w]. change (zlen (@nil bytes)) with 0. f_equal. lia.
  - cbn [app b_blocks]. rewrite IH. f_equal. unfold b_bb, b_n. cbn [b_w]. rewrite zlen_cons. lia.
Qed.

Lemma pblocks_ok h0 t0 fuel : 0 <= t0 -> forall blks buf data, (length data < fuel)%nat ->
  Forall (fun b => zlen b = B) blks -> bytes_ok (concat blks) -> bytes_ok data -> zlen buf = B -> (data = [] -> blks = []) ->
  ok8 w (b_blocks P h0 t0 blks) ->
  exists c, b2_blocks w rounds r1 r2 r3 r4 iv fuel (b_blocks P h0 t0 blks) ((t0 + zlen (concat blks)) mod 2 ^ w) (((t0 + zlen (concat blks)) / 2 ^ w) mod 2 ^ w) buf data = Ret c /\
    b2_pinv h0 t0 c (concat blks ++ data).
Proof.
  intros Ht00. induction fuel as [|f IH]; intros blks buf data Hfuel Hbl Hb0 Hb Hz Hne Hok; [lia|]. cbn [b2_blocks]. pose proof B_pos' as HB.
  destruct (zlen data >? B) eqn:E.
  - assert (Hbt : bytes_ok (firstn (Z.to_nat B) data)) by (apply Forall_firstn; assumption).
    assert (Hzt : zlen (firstn (Z.to_nat B) data) = B) by (rewrite zlen_firstn; lia).
    destruct (compress_at (b_blocks P h0 t0 blks) (t0 + zlen (concat blks)) (firstn (Z.to_nat B) data) B false) as (-> & Hok');
      [assumption|pose proof (zlen_nonneg (concat blks)); lia|lia|assumption|assumption|].
    assert (Es : b_F P (b_blocks P h0 t0 blks) (firstn (Z.to_nat B) data) (t0 + zlen (concat blks) + B) false
                 = b_blocks P h0 t0 (blks ++ [firstn (Z.to_nat B) data])).
    { rewrite blocks_snoc by assumption. reflexivity. }
    rewrite Es in *.
    assert (Ec : concat (blks ++ [firstn (Z.to_nat B) data]) = concat blks ++ firstn (Z.to_nat B) data) by (rewrite concat_app; cbn; rewrite app_nil_r; reflexivity).
    replace (t0 + zlen (concat blks) + B) with (t0 + zlen (concat (blks ++ [firstn (Z.to_nat B) data]))) by (rewrite Ec, zlen_app, Hzt; lia).
    destruct (IH (blks ++ [firstn (Z.to_nat B) data]) buf (skipn (Z.to_nat B) data)) as (c & -> & Hi).
    + rewrite skipn_length. unfold zlen in E. lia.
    + apply Forall_app. split; [assumption|]. constructor; [assumption|constructor].
    + rewrite Ec. apply Forall_app. split; assumption.
    + apply Forall_skipn. assumption.
    + assumption.
    + intros Hs. exfalso. assert (zlen (skipn (Z.to_nat B) data) = 0) by (rewrite Hs; reflexivity). rewrite zlen_skipn in H. lia.
    + assumption.
    + exists c. split; [reflexivity|]. rewrite Ec, <- app_assoc, firstn_skipn in Hi. exact Hi.
  - rewrite c_memcpy_ok by lia. cbn [obind]. eexists. split; [reflexivity|].
    exists blks, data, (skipn (length data) buf). cbn [b2_h b2_len0 b2_len1 b2_num b2_buf].
    splits; try assumption; try reflexivity; try lia.
    + apply Forall_app. split; assumption.
    + rewrite zlen_splice; [assumption|lia|lia].
Qed.

Lemma padd_data_ok h0 t0 c d data : 0 <= t0 -> b2_pinv h0 t0 c d -> bytes_ok data ->
  exists c', b2_add_data w rounds r1 r2 r3 r4 iv c data = Ret c' /\ b2_pinv h0 t0 c' (d ++ data).
Proof.
  intros Ht00 (blks & tail & rest & -> & Hbl & Hne & Htl & Hb & Hh & Hok & H0 & H1 & Hn & Hbuf & Hz) Hd. unfold b2_add_data. pose proof B_pos' as HB.
  pose proof (zlen_nonneg tail) as Ht0. pose proof (zlen_nonneg data) as Hd0.
  apply Forall_app in Hb as (Hbc & Hbt).
  assert (Hzr : zlen rest = B - zlen tail) by (rewrite Hbuf, zlen_app in Hz; lia).
  rewrite Hn. destruct (zlen tail >? 0) eqn:Et.
  - destruct (zlen data <=? B - zlen tail) eqn:Ed.
    + rewrite c_memcpy_ok by lia. cbn [obind]. eexists. split; [reflexivity|].
      exists blks, (tail ++ data), (skipn (length data) rest). cbn [b2_h b2_len0 b2_len1 b2_num b2_buf].
      splits; try assumption.
      * rewrite app_assoc. reflexivity.
      * intros Hx. apply app_eq_nil in Hx as (-> & _). cbn in Et. discriminate.
      * rewrite zlen_app. lia.
      * apply Forall_app. split; [apply Forall_app; split; assumption|assumption].
      * rewrite zlen_app. reflexivity.
      * rewrite Hbuf. rewrite splice_app_mid by reflexivity. rewrite app_assoc. reflexivity.
      * rewrite zlen_splice; lia.
    + set (n := B - zlen tail) in *.
      assert (Hzf : zlen (firstn (Z.to_nat n) data) = n) by (rewrite zlen_firstn; lia).
      rewrite c_memcpy_ok by lia. cbn [obind].
      assert (Eb : splice (b2_buf c) (zlen tail) (firstn (Z.to_nat n) data) = tail ++ firstn (Z.to_nat n) data).
      { rewrite Hbuf, splice_app_mid by reflexivity. rewrite skipn_all2; [rewrite app_nil_r; reflexivity|]. unfold zlen in *. lia. }
      rewrite Eb. set (blk := tail ++ firstn (Z.to_nat n) data) in *.
      assert (Hzb : zlen blk = B) by (unfold blk; rewrite zlen_app; lia).
      assert (Hbb : bytes_ok blk) by (apply Forall_app; split; [assumption|apply Forall_firstn; assumption]).
      rewrite H0, H1.
      destruct (compress_at (b2_h c) (t0 + zlen (concat blks)) blk B false) as (-> & Hok'); [assumption|pose proof (zlen_nonneg (concat blks)); lia|lia|assumption|assumption|].
      assert (Es : b_F P (b2_h c) blk (t0 + zlen (concat blks) + B) false = b_blocks P h0 t0 (blks ++ [blk])).
      { rewrite blocks_snoc, Hh by assumption. reflexivity. }
      rewrite Es in *.
      assert (Ec : concat (blks ++ [blk]) = concat blks ++ blk) by (rewrite concat_app; cbn; rewrite app_nil_r; reflexivity).
      replace (t0 + zlen (concat blks) + B) with (t0 + zlen (concat (blks ++ [blk]))) by (rewrite Ec, zlen_app, Hzb; lia).
      destruct (pblocks_ok h0 t0 (S (length (skipn (Z.to_nat n) data))) Ht00 (blks ++ [blk]) blk (skipn (Z.to_nat n) data)) as (c' & -> & Hi).
      * lia.
      * apply Forall_app. split; [assumption|]. constructor; [assumption|constructor].
      * rewrite Ec. apply Forall_app. split; assumption.
      * apply Forall_skipn. assumption.
      * assumption.
      * intros Hs. exfalso. assert (zlen (skipn (Z.to_nat n) data) = 0) by (rewrite Hs; reflexivity). rewrite zlen_skipn in H. lia.
      * assumption.
      * exists c'. split; [reflexivity|]. rewrite Ec in Hi. unfold blk in Hi. rewrite <- !app_assoc, firstn_skipn in Hi. rewrite <- app_assoc. exact Hi.
  - assert (tail = []) as -> by (apply zlen_0; lia). rewrite (Hne eq_refl) in *. cbn [concat app] in *.
    rewrite Hh, H0, H1.
    destruct (pblocks_ok h0 t0 (S (length data)) Ht00 [] (b2_buf c) data) as (c' & E & Hi); try assumption; try reflexivity; try lia; try constructor.
    + rewrite <- Hh. apply Hok.
    + rewrite <- Hh. apply Hok.
    + exists c'. split; [exact E|exact Hi].
Qed.

Lemma pfinal h0 t0 c d n : 0 <= t0 -> b2_pinv h0 t0 c d -> 0 < n <= w ->
  let blks := match d with [] => [[]] | _ => chunks B d end in
  let h := b_F P (b_blocks P h0 t0 (removelast blks)) (b_pad P (last blks [])) (t0 + zlen d) true in
  exists c', b2_final w rounds r1 r2 r3 r4 iv n c = (c', Ret (firstn (Z.to_nat n) (concat (map (to_le kb) h)))) /\ b2_pinv h (t0 + zlen d) c' (last blks []).
Proof.
  intros Ht00 (blks & tail & rest & -> & Hbl & Hne & Htl & Hb & Hh & Hok & H0 & H1 & Hn & Hbuf & Hz) Hn0.
  apply Forall_app in Hb as (Hbc & Hbt). cbv zeta.
  assert (El : match concat blks ++ tail with [] => [[]] | _ => chunks B (concat blks ++ tail) end = blks ++ [tail]) by (apply (last_blocks w kb rounds r1 iv); assumption).
  rewrite El, removelast_last, last_last, zlen_app, Z.add_assoc. pose proof (zlen_nonneg (concat blks)).
  assert (A : b2_at w (t0 + zlen (concat blks)) (b_blocks P h0 t0 blks) tail c).
  { exists rest. rewrite Hh in Hok. split; [lia|]. repeat (split; [assumption|]). assumption. }
  assert (FS : exists c', b2_final w rounds r1 r2 r3 r4 iv n c = (c', Ret (firstn (Z.to_nat n) (concat (map (to_le kb) (b_F P (b_blocks P h0 t0 blks) (b_pad P tail) (t0 + zlen (concat blks) + zlen tail) true))))) /\
    b2_at w (t0 + zlen (concat blks) + zlen tail) (b_F P (b_blocks P h0 t0 blks) (b_pad P tail) (t0 + zlen (concat blks) + zlen tail) true) tail c').
  { apply (final_step w kb); assumption. }
  destruct FS as (c' & E & rest' & A1 & A2 & A3 & A4 & A5 & A6 & A7 & A8 & A9). exists c'. split; [exact E|].
  exists [], tail, rest'. cbn [concat app b_blocks]. change (zlen (@nil Z)) with 0. rewrite Z.add_0_r, A3.
  repeat (split; [first [assumption|reflexivity|constructor]|]). assumption.
Qed.

Lemma b2_psession sz l : 8 <= sz <= 8 * w -> Forall (Forall hop_valid) l -> forall h t d c, 0 <= t -> b2_pinv h t c d ->
  session (blake2_class w rounds r1 r2 r3 r4 iv sz) c l = map Ret (b2_session P (sz / 8) h t d (map added l)).
Proof.
  intros Hsz. set (H := blake2_class w rounds r1 r2 r3 r4 iv sz). assert (Hn : 0 < sz / 8 <= w) by lia.
  induction l as [|ops l IH]; intros Hv h t d c Ht HR; [reflexivity|]. apply Forall_cons_iff in Hv as (Hv1 & Hv2). cbn [session map b2_session]. cbv zeta.
  assert (HI : himpl (fun _ => True) H (fun x => Ret (let blks := match d ++ x with [] => [[]] | _ => chunks B (d ++ x) end in
     firstn (Z.to_nat (sz / 8)) (concat (map (to_le kb) (b_F P (b_blocks P h t (removelast blks)) (b_pad P (last blks [])) (t + zlen (d ++ x)) true))))) (fun c x => b2_pinv h t c (d ++ x))).
  { apply c_hash_himpl.
    - auto.
    - intros k x y Hk Hy _ _. rewrite app_assoc. apply padd_data_ok; assumption.
    - intros k x Hk _. destruct (pfinal h t k _ (sz / 8) Ht Hk Hn) as (c' & E & _). rewrite E. reflexivity. }
  assert (HR0 : b2_pinv h t c (d ++ [])) by (rewrite app_nil_r; exact HR).
  destruct (h_run_ok _ _ _ _ HI ops c [] HR0 Hv1 Logic.I) as (s1 & Es & HR1). cbn [app] in HR1. rewrite Es. cbn [fst].
  destruct (pfinal h t s1 _ (sz / 8) Ht HR1 Hn) as (c' & E & HR2). cbv zeta in E, HR2.
  assert (Ek : Z.to_nat (w / 8) = kb) by (rewrite w_kb, Z.mul_comm, Z.div_mul; lia).
  unfold b_bb, b_n. cbn [b_w]. rewrite Ek.
  assert (Er : h_result H s1 = b2_final w rounds r1 r2 r3 r4 iv (sz / 8) s1) by reflexivity. rewrite Er, E. cbn [fst snd]. f_equal.
  apply (IH Hv2); [pose proof (zlen_nonneg (d ++ added ops)); lia|exact HR2].
Qed.

Lemma blake2_session_gen fresh sz key l : (forall n, 0 <= n -> zlen (fresh n) = n) -> 8 <= sz <= 8 * w -> sz mod 8 = 0 -> zlen key <= w -> bytes_ok key -> Forall (Forall hop_valid) l ->
  exists o, blake2_new w rounds r1 r2 r3 r4 iv fresh sz key = Ret o /\ session_of o l = map Ret (blake2_session P (sz / 8) key (map added l)).
Proof.
  intros Hf Hsz Hm Hk Hb Hv.
  assert (Hi0 : exists c, b2_init w iv (sz / 8) key (fresh B) = Ret c /\ b2_inv w rounds r1 r2 r3 r4 iv (b_h0 iv (zlen key) (sz / 8)) c (b_data P key [])).
  { apply (init_ok w kb); try assumption; [apply Hf; lia|lia]. }
  destruct Hi0 as (c & E & Hi).
  exists (HObj (blake2_class w rounds r1 r2 r3 r4 iv sz) c). split.
  { unfold blake2_new. assert ((sz >=? 8) && (sz <=? 8 * w) && (sz mod 8 =? 0) && (zlen key <=? w) = true) as -> by lia. rewrite E. reflexivity. }
  unfold session_of. cbn [ho_class ho_st]. unfold blake2_session. cbv zeta. apply b2_psession; [assumption|assumption|lia|exact Hi].
Qed.
End Blake2.

Lemma blake2b_session fresh sz key l : (forall n, 0 <= n -> zlen (fresh n) = n) -> 8 <= sz <= 512 -> sz mod 8 = 0 -> zlen key <= 64 -> bytes_ok key -> Forall (Forall hop_valid) l ->
  exists o, blake2b_obj fresh sz key = Ret o /\ session_of o l = map Ret (blake2_session blake2b_params (sz / 8) key (map added l)).
Proof.
  intros Hf Hsz Hm Hk Hb Hv. unfold blake2b_params. rewrite iv2b_ok.
  apply (blake2_session_gen 64 8); try assumption; try lia; try reflexivity.
  repeat (apply Forall_cons; [unfold word_ok; lia|]). constructor.
Qed.
Lemma blake2s_session fresh sz key l : (forall n, 0 <= n -> zlen (fresh n) = n) -> 8 <= sz <= 256 -> sz mod 8 = 0 -> zlen key <= 32 -> bytes_ok key -> Forall (Forall hop_valid) l ->
  exists o, blake2s_obj fresh sz key = Ret o /\ session_of o l = map Ret (blake2_session blake2s_params (sz / 8) key (map added l)).
Proof.
  intros Hf Hsz Hm Hk Hb Hv. unfold blake2s_params. rewrite iv2s_ok.
  apply (blake2_session_gen 32 4); try assumption; try lia; try reflexivity.
  repeat (apply Forall_cons; [unfold word_ok; lia|]). constructor.
Qed.
