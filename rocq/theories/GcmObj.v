(* The objects built by aes_gcm. *)
From Verif Require Import Prelude PreludeFacts BytesNum BufOutModel BufOut SpecTransducer TransformModel Transform TransformTotal
  SpecBlock BlockModel BlockCipher BlockFits BlockTotal Modes SpecModes CipherModel EncModel CipherFacts Lawful BlockObj
  AesField MdHash SpecGhash GhashModel Ghash Pclmul AuthModel AeadModel Auth SpecAead Gcm.

Lemma chunks_same_sizes (cs os : list bytes) msg : cs = chunks 16 msg -> Forall2 (fun x y => zlen x = zlen y) os cs ->
  chunks 16 (concat os) = os /\ zlen (concat os) = zlen msg.
Proof.
  intros E F. destruct msg as [|z msg].
  - subst cs. inversion F. split; reflexivity.
  - destruct (chunks_last (z :: msg) ltac:(discriminate)) as (bl & b & E1 & E2 & H1 & H2 & _). rewrite E1 in E. subst cs.
    apply Forall2_app_inv_r in F. destruct F as (o1 & o2 & F1 & F2 & ->). inversion F2 as [|x y l l' F3 F4]; subst. inversion F4; subst.
    assert (H1' : Forall (fun b => zlen b = 16) o1).
    { clear - F1 H1. induction F1; [constructor|]. apply Forall_cons_iff in H1. constructor; [lia|apply IHF1; tauto]. }
    assert (Hl : zlen o1 = zlen bl) by (clear - F1; unfold zlen; induction F1; cbn [length]; lia).
    rewrite concat_app. cbn [concat]. rewrite app_nil_r. split.
    + rewrite chunks_concat by (assumption || lia). rewrite chunks_short by lia. reflexivity.
    + rewrite E2, !zlen_app, (zlen_concat 16 o1), (zlen_concat 16 bl) by assumption. lia.
Qed.

Section Spec.
Variable E : bytes -> bytes.
Hypothesis HE : forall b, blk b -> blk (E b).

Lemma gctr_blocks_sizes l : forall c, Forall (fun b => 0 < zlen b <= 16) l -> blk c -> Forall2 (fun x y => zlen x = zlen y) (gctr_blocks E c l) l.
Proof.
  induction l as [|b l IH]; intros c Hl Hc; [constructor|]. apply Forall_cons_iff in Hl. destruct Hl as (Hb & Hl). cbn [gctr_blocks].
  constructor; [|apply IH; [exact Hl|apply (inc32_ok c Hc)]]. apply zlen_xorb. destruct (HE c Hc) as (He & _). unfold zlen in *. rewrite firstn_length. lia.
Qed.
Lemma gctr_blocks_twice l : forall c, Forall (fun b => 0 < zlen b <= 16) l -> blk c -> gctr_blocks E c (gctr_blocks E c l) = l.
Proof.
  induction l as [|b l IH]; intros c Hl Hc; [reflexivity|]. apply Forall_cons_iff in Hl. destruct Hl as (Hb & Hl). cbn [gctr_blocks].
  assert (Ex : length (xorb b (firstn (length b) (E c))) = length b).
  { apply xorb_length. destruct (HE c Hc) as (He & _). unfold zlen in *. rewrite firstn_length. lia. }
  rewrite Ex, IH by (try exact Hl; apply (inc32_ok c Hc)). f_equal. apply xorb_cancel.
  destruct (HE c Hc) as (He & _). unfold zlen in *. rewrite firstn_length. lia.
Qed.
Lemma gctr_facts c msg : blk c -> chunks 16 (gctr E c msg) = gctr_blocks E c (chunks 16 msg) /\ zlen (gctr E c msg) = zlen msg /\
  gctr E c (gctr E c msg) = msg.
Proof.
  intros Hc. destruct (chunks_sizes msg) as (S1 & _ & S2).
  destruct (chunks_same_sizes _ _ msg eq_refl (gctr_blocks_sizes _ c S1 Hc)) as (G1 & G2).
  split; [exact G1|]. split; [exact G2|]. unfold gctr at 1. fold (gctr E c msg) in G1. rewrite G1, gctr_blocks_twice by assumption. exact S2.
Qed.
Lemma gctr_ok c msg : blk c -> bytes_ok msg -> bytes_ok (gctr E c msg).
Proof.
  intros Hc Hm. destruct (chunks_sizes msg) as (_ & S1 & _). specialize (S1 Hm). unfold gctr. revert c Hc S1. induction (chunks 16 msg) as [|b l IH]; intros c Hc S1; [constructor|].
  apply Forall_cons_iff in S1. cbn [gctr_blocks concat]. apply bytes_ok_app. split; [|apply IH; [apply (inc32_ok c Hc)|tauto]].
  apply bytes_ok_xorb; [tauto|]. apply Forall_firstn. apply (HE c Hc).
Qed.

Lemma gcm_result enc fin A iv msg : bytes_ok A -> blk (gcm_J0 E iv) -> zlen A < 2 ^ 60 -> zlen msg < 2 ^ 60 ->
  auth_result (block_mealy 16 (gfn E (gcm_H E) enc) fin) (gfin E (gcm_H E) enc (zlen A) (E (gcm_J0 E iv)))
    ((gcm_J0 E iv, ghf (gcm_H E) (zeros 16) (chunks 16 A), 0), []) msg =
  if enc && (zlen msg >? gcm_max) then Raise (Error Message_too_long)
  else Ret (gcm_C E iv msg, gcm_T E iv A (if enc then gcm_C E iv msg else msg)).
Proof.
  intros HA HJ LA LM. set (J := gcm_J0 E iv) in *. set (H := gcm_H E).
  assert (P : 2 ^ 60 < 2 ^ 63) by reflexivity.
  rewrite g_result by (eapply Z.lt_trans; [exact LM|exact P]). change gcm_lim with gcm_max.
  destruct (enc && (zlen msg >? gcm_max)); [reflexivity|]. f_equal. f_equal.
  pose proof (inc32_ok J HJ) as (_ & HJ'). destruct (gctr_facts (inc32 J) msg HJ') as (F1 & F2 & _).
  unfold gtag, gcm_T, ghash_str, ghash. fold J. fold H.
  set (CC := if enc then gcm_C E iv msg else msg).
  assert (Hc : chunks 16 CC = if enc then gctr_blocks E (inc32 J) (chunks 16 msg) else chunks 16 msg).
  { unfold CC. destruct enc; [exact F1|reflexivity]. }
  assert (Hl : zlen CC = zlen msg) by (unfold CC; destruct enc; [exact F2|reflexivity]).
  rewrite !ghash_str_pad, Hc, Hl.
  set (B := to_be 8 (8 * zlen A) ++ to_be 8 (8 * zlen msg)).
  assert (HB : zlen B = 16) by (unfold B; rewrite zlen_app, !zlen_to_be; reflexivity).
  rewrite (chunks_short 16 B) by lia. cbn [fold_left].
  assert (Hm : forall n, 0 <= n < 2 ^ 60 -> (n * 8) mod 2 ^ 64 = 8 * n).
  { intros n Hn. rewrite Z.mod_small; [lia|]. change (2 ^ 64) with (16 * 2 ^ 60). lia. }
  rewrite !Hm by (split; [apply zlen_nonneg|assumption]). fold B.
  set (t := block_mult _ H). assert (Ht : zlen t = 16) by apply blk_block_mult.
  unfold gctr. rewrite (chunks_short 16 t) by lia. cbn [gctr_blocks concat]. rewrite app_nil_r.
  rewrite firstn_all2; [apply xorb_comm|]. destruct (HE J HJ) as (He & _). unfold zlen in *. lia.
Qed.
End Spec.

Definition gcm_ciphertext (E : bytes -> bytes) (iv msg : bytes) (d : dir) : bytes := match d with Encrypt => gcm_C E iv msg | Decrypt => msg end.
Definition gcm_res (E : bytes -> bytes) (A iv : bytes) (d : dir) (msg : bytes) : out (bytes * bytes) :=
  match d with
  | Encrypt => if zlen msg <=? gcm_max then Ret (gcm_C E iv msg, gcm_T E iv A (gcm_C E iv msg)) else Raise (Error Message_too_long)
  | Decrypt => Ret (gcm_C E iv msg, gcm_T E iv A msg)
  end.

Lemma aes_gcm_lawful_full (fresh : Z -> bytes) accel new_block key E A iv d : (forall n, 0 <= n -> zlen (fresh n) = n) ->
  (exists o, new_block key = Ret o /\ block_computes o 16 E) -> (forall b, blk b -> blk (E b)) ->
  bytes_ok A -> bytes_ok iv -> zlen A < 2 ^ 60 -> zlen iv < 2 ^ 60 ->
  exists o M Fin sg, aes_gcm fresh accel new_block A iv key d = Ret o /\ a_tag_size (ao_class o) = 16 /\ auth_lawful true o M Fin sg 1 64 /\
    (forall msg, zlen msg < 2 ^ 60 -> auth_result M Fin sg msg = gcm_res E A iv d msg) /\
    (d = Decrypt -> forall X b, Forall (fun x => zlen x = 16) X -> 0 < zlen b <= 16 -> zlen (concat X) < 2 ^ 60 ->
       exists s', m_run M sg (concat X ++ b) = (s', gcm_C E iv (concat X), None)).
Proof.
  intros Hfresh (aes & Hnew & Haes) HE HA Hiv LA LI. unfold aes_gcm. rewrite Hnew. cbn [obind]. unfold gcm_setup, ghash_multiplier.
  pose proof blk_zeros as Hz. pose proof Haes as (_ & Hc).
  rewrite (Hc (zeros 16) 0 (zeros 16) 0) by (rewrite ?(zlen_zeros 16) by lia; first [lia | apply bytes_ok_sub, bytes_ok_zeros]). cbn [fst snd bind].
  rewrite (sub_0_all (zeros 16) 16) by reflexivity. destruct (HE _ Hz) as (E1 & E2).
  rewrite splice_all by exact E1. set (H := E (zeros 16)) in *.
  destruct (ghash_stub_ok accel H (conj E1 E2)) as (h & Hh & Hmul). rewrite Hh. cbn [obind].
  destruct (counter0_ok h H Hmul iv E eq_refl Hiv LI) as (-> & HJ). cbn [obind]. unfold enc_initial_counter.
  set (J := gcm_J0 E iv) in *. pose proof HJ as (J1 & J2). destruct (HE _ HJ) as (K1 & K2).
  assert (Hfl : zlen (fresh 16) = 16) by (apply Hfresh; lia).
  assert (Es : sub J 0 16 = J) by (apply sub_0_all; lia).
  rewrite (Hc J 0 (fresh 16) 0) by (rewrite ?Es; assumption || lia). rewrite Es. cbn [fst snd bind obind]. rewrite splice_all by lia.
  rewrite (ghash_string_ok h H Hmul A HA). cbn [obind].
  set (y := ghf H (zeros 16) (chunks 16 A)).
  assert (Hy : blk y) by (apply blk_ghf, Hz).
  assert (Rel : grel aes (GST (b_st aes) J (fresh 16) y 0) (J, y, 0)).
  { unfold grel. cbn [fst snd g_aes g_ctr g_buf g_mac g_clen]. repeat split; assumption || apply Hy. }
  assert (Fg : forall M F OK, growth M F OK 1 64 -> growth M (Fits M (f_put F) (f_flush F) (fun _ q => zlen q + 16 <= max_string_length)) OK 1 64).
  { intros M F OK [G1 G2 G3 G4 G5 G6 G7]. constructor; try assumption. intros sg q _ Hq. cbn [f_finish]. lia. }
  assert (Res : forall enc msg, zlen msg < 2 ^ 60 -> auth_result (plain_mealy 16 (gfn E H enc)) (gfin E H enc (zlen A) (E J)) ((J, y, 0), []) msg =
     gcm_res E A iv (if enc then Encrypt else Decrypt) msg).
  { intros enc msg Hm. unfold plain_mealy. change H with (gcm_H E). unfold y, J. change H with (gcm_H E).
    rewrite gcm_result by assumption. destruct enc; cbn [andb gcm_res]; [|reflexivity].
    destruct (zlen msg >? gcm_max) eqn:Eg; [replace (zlen msg <=? gcm_max) with false by lia|replace (zlen msg <=? gcm_max) with true by lia]; reflexivity. }
  assert (Early : forall X b, Forall (fun x => zlen x = 16) X -> 0 < zlen b <= 16 -> zlen (concat X) < 2 ^ 60 ->
    exists s', m_run (plain_mealy 16 (gfn E H false)) ((J, y, 0), []) (concat X ++ b) = (s', gcm_C E iv (concat X), None)).
  { intros X b HX Hb LX. pose proof (zlen_nonneg (concat X)) as LX0.
    pose proof (gfn_run E H false X J y 0 ltac:(lia) ltac:(unfold gtotal; eapply Z.lt_trans; [rewrite Z.add_0_l; exact LX|reflexivity]) ltac:(discriminate)) as G. cbn [andb] in G.
    pose proof (run_blocks 16 (gfn E H false) ltac:(lia) (block_flush 16 (gfn E H false)) X (J, y, 0) b HX ltac:(right; lia) ltac:(lia)) as Rb.
    rewrite G in Rb. eexists. etransitivity; [exact Rb|]. unfold gcm_C, gctr. rewrite chunks_concat0 by (lia || exact HX). reflexivity. }
  destruct d.
  - set (C := gcm_enc_wrapped (b_bc aes) h).
    eexists _, (plain_mealy 16 (gfn E H true)), (gfin E H true (zlen A) (E J)), ((J, y, 0), []). split; [reflexivity|]. split; [reflexivity|]. split; [|split; [exact (Res true)|discriminate]].
    set (f := gfn E H true).
    exists (Fits _ (f_put (cfits C f (block_flush 16 f))) (f_flush (cfits C f (block_flush 16 f))) (fun _ q => zlen q + 16 <= max_string_length)),
      (cR C f (grel aes)), (okst C f (grel aes)).
    pose proof (gcm_enc_implements fresh Hfresh aes E Haes HE h H Hmul) as HC. fold C f in HC.
    split; [|split; [|split]].
    + eapply (auth_of_implements (cipher fresh C) 16 _ (plain_mealy 16 f) (cfits C f (block_flush 16 f))); [|reflexivity|].
      * apply (cipher_implements fresh Hfresh C f (grel aes)); [cbn; lia|exact HC].
      * intros s sg q HR Hf. apply (gcm_enc_fin_ok fresh Hfresh aes E Haes HE h H Hmul (zlen A) (E J) (HE J HJ) s sg q HR Hf).
    + apply Fg. apply (block_growth C f (grel aes)); [cbn; lia|exact HC| |].
      * intros s Hs. eapply bounded_weaken; [apply (flush_bounded C f (grel aes)); [cbn; lia|exact HC|exact Hs]|cbn; lia].
      * intros s Hs. apply (flush_outok C f (grel aes)); [cbn; lia|exact HC|exact Hs].
    + apply (cipher_new_R fresh Hfresh C f (grel aes)); [cbn; lia|exact Rel].
    + split; [eexists; exact Rel|]. split; [cbn; lia|constructor].
  - set (C := gcm_dec_wrapped (b_bc aes) h).
    eexists _, (plain_mealy 16 (gfn E H false)), (gfin E H false (zlen A) (E J)), ((J, y, 0), []). split; [reflexivity|]. split; [reflexivity|]. split; [|split; [exact (Res false)|intros _; exact Early]].
    set (f := gfn E H false).
    exists (Fits _ (f_put (cfits C f (block_flush 16 f))) (f_flush (cfits C f (block_flush 16 f))) (fun _ q => zlen q + 16 <= max_string_length)),
      (cR C f (grel aes)), (okst C f (grel aes)).
    pose proof (gcm_dec_implements fresh Hfresh aes E Haes HE h H Hmul) as HC. fold C f in HC.
    split; [|split; [|split]].
    + eapply (auth_of_implements (cipher fresh C) 16 _ (plain_mealy 16 f) (cfits C f (block_flush 16 f))); [|reflexivity|].
      * apply (cipher_implements fresh Hfresh C f (grel aes)); [cbn; lia|exact HC].
      * intros s sg q HR Hf. apply (gcm_dec_fin_ok fresh Hfresh aes E Haes HE h H Hmul (zlen A) (E J) (HE J HJ) s sg q HR Hf).
    + apply Fg. apply (block_growth C f (grel aes)); [cbn; lia|exact HC| |].
      * intros s Hs. eapply bounded_weaken; [apply (flush_bounded C f (grel aes)); [cbn; lia|exact HC|exact Hs]|cbn; lia].
      * intros s Hs. apply (flush_outok C f (grel aes)); [cbn; lia|exact HC|exact Hs].
    + apply (cipher_new_R fresh Hfresh C f (grel aes)); [cbn; lia|exact Rel].
    + split; [eexists; exact Rel|]. split; [cbn; lia|constructor].
Qed.
Lemma aes_gcm_lawful (fresh : Z -> bytes) accel new_block key E A iv d : (forall n, 0 <= n -> zlen (fresh n) = n) ->
  (exists o, new_block key = Ret o /\ block_computes o 16 E) -> (forall b, blk b -> blk (E b)) ->
  bytes_ok A -> bytes_ok iv -> zlen A < 2 ^ 60 -> zlen iv < 2 ^ 60 ->
  exists o M Fin sg, aes_gcm fresh accel new_block A iv key d = Ret o /\ a_tag_size (ao_class o) = 16 /\ auth_lawful true o M Fin sg 1 64 /\
    forall msg, zlen msg < 2 ^ 60 -> auth_result M Fin sg msg = gcm_res E A iv d msg.
Proof.
  intros. destruct (aes_gcm_lawful_full fresh accel new_block key E A iv d) as (o & M & Fin & sg & H0' & H1' & H2' & H3' & _); try assumption. exists o, M, Fin, sg. auto.
Qed.
