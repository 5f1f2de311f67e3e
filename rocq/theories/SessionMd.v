(* Merkle-Damgard hash objects that are given more data after result. *)
From Verif Require Import Prelude PreludeFacts BytesNum Word SpecBlock BlockTotal SpecHash SpecRipemd HashModel MdModel ShaModel RipemdModel Blake3Model HashSpec HashFacts MdHash Sha Ripemd SpecKeccak KeccakModel Keccak KeccakHash.
From Verif Require Import SpecAgain SpecSession Again.

Section MD.
Variables B W : Z.
Variables f g : list Z -> bytes -> list Z.
Variable okS : list Z -> Prop.
Variable enc_length : Z -> Z -> bytes.
Variable enc : nat -> Z -> bytes.
Let L := 2 * (W / 8).
Hypothesis HB : 0 < B.
Hypothesis HW : 8 <= W <= 64.
Hypothesis HLB : L < B.
Hypothesis f_g : forall st b, okS st -> zlen b = B -> bytes_ok b -> f st b = g st b /\ okS (g st b).
Hypothesis enc_ok : forall hi lo, word_ok W hi -> word_ok W lo -> enc_length hi lo = enc (Z.to_nat L) (hi * 2 ^ W + lo).
Hypothesis enc_mod : forall x, enc (Z.to_nat L) (x mod (2 ^ W * 2 ^ W)) = enc (Z.to_nat L) x.
Hypothesis enc_len : forall x, zlen (enc (Z.to_nat L) x) = L.
Hypothesis enc_bytes : forall x, bytes_ok (enc (Z.to_nat L) x).

(* the context has consumed d, and its length field counts m *)
Definition md_pinv (iv : list Z) (c : md_ctx) (d m : bytes) : Prop :=
  len_ok W (md_hi c) (md_lo c) m /\ exists hi lo, md_inv B W g okS iv (MD (md_state c) hi lo (md_num c) (md_buf c)) d.

Lemma md_inv_pinv iv c m : md_inv B W g okS iv c m -> md_pinv iv c m m.
Proof.
  intros H. split; [destruct H as (_ & ? & ? & ? & H); apply H|]. exists (md_hi c), (md_lo c). destruct c; exact H.
Qed.

Lemma len_ok_exists m : exists hi lo, len_ok W hi lo m.
Proof.
  assert (Hp : 0 < 2 ^ W) by (apply Z.pow_pos_nonneg; lia).
  set (x := (8 * zlen m) mod (2 ^ W * 2 ^ W)). assert (Hx : 0 <= x < 2 ^ W * 2 ^ W) by (apply Z.mod_pos_bound; nia).
  exists (x / 2 ^ W), (x mod 2 ^ W). split; [|split].
  - split; [apply Z.div_pos; lia|]. apply Z.div_lt_upper_bound; lia.
  - apply Z.mod_pos_bound. lia.
  - fold x. rewrite Z.mul_comm. symmetry. apply Z.div_mod. lia.
Qed.

(* the count does not affect the rest *)
Lemma md_add_data_count st hi lo hi2 lo2 num buf data c' : md_add_data B W f (MD st hi lo num buf) data = Ret c' ->
  let r := md_add_length W hi2 lo2 (zlen data) in
  md_add_data B W f (MD st hi2 lo2 num buf) data = Ret (MD (md_state c') (fst r) (snd r) (md_num c') (md_buf c')).
Proof.
  cbn zeta. unfold md_add_data. cbn [md_state md_hi md_lo md_num md_buf].
  destruct (md_add_length W hi lo (zlen data)) as [h l]. destruct (md_add_length W hi2 lo2 (zlen data)) as [h2 l2]. cbn [fst snd].
  destruct (negb (num =? 0)).
  - destruct (zlen data <? B - num).
    + destruct (c_memcpy buf num data); cbn [obind]; intros E; try discriminate. injection E as <-. reflexivity.
    + destruct (c_memcpy buf num (firstn (Z.to_nat (B - num)) data)); cbn [obind]; intros E; try discriminate.
      destruct (md_blocks B f _ _ _ _) as [[[? ?] ?]| | |]; cbn [obind] in *; try discriminate. injection E as <-. reflexivity.
  - intros E. destruct (md_blocks B f _ _ _ _) as [[[? ?] ?]| | |]; cbn [obind] in *; try discriminate. injection E as <-. reflexivity.
Qed.

Lemma md_padd iv c d m x : md_pinv iv c d m -> bytes_ok x -> exists c', md_add_data B W f c x = Ret c' /\ md_pinv iv c' (d ++ x) (m ++ x).
Proof.
  intros (Hl & hi & lo & H) Hx.
  assert (A : exists c', md_add_data B W f (MD (md_state c) hi lo (md_num c) (md_buf c)) x = Ret c' /\ md_inv B W g okS iv c' (d ++ x)).
  { apply (md_add_data_ok B W f g okS enc_length enc); assumption. }
  destruct A as (c' & E & H').
  apply (md_add_data_count _ _ _ (md_hi c) (md_lo c)) in E. cbn zeta in E.
  assert (Ec : MD (md_state c) (md_hi c) (md_lo c) (md_num c) (md_buf c) = c) by (destruct c; reflexivity). rewrite Ec in E.
  eexists. split; [exact E|]. split; cbn [md_state md_hi md_lo md_num md_buf].
  - apply (len_ok_add B W f g okS enc_length enc); assumption.
  - exists (md_hi c'), (md_lo c'). destruct c'; exact H'.
Qed.

Lemma md_pfinish iv c d m : md_pinv iv c d m -> exists c', md_finish B W f enc_length c = Ret c' /\
  md_state c' = fold_left g (chunks B (md_fill B L enc d m)) iv /\ okS (md_state c') /\ md_pinv iv c' (md_next B L enc d m) m.
Proof.
  intros (Hlok & hi0 & lo0 & Hbm & blks & t & junk & Em & Hbl & Ht & Hok & Es & En & Ebuf & Hlen & _). cbn [md_state md_num md_buf] in *.
  assert (Hbs : bytes_ok (concat blks) /\ bytes_ok t) by (apply bytes_ok_app; rewrite <- Em; exact Hbm). destruct Hbs as (Hbc & Hbt).
  set (lenf := enc (Z.to_nat L) (8 * zlen m)).
  assert (Elen : enc_length (md_hi c) (md_lo c) = lenf).
  { destruct Hlok as (Hhi & Hlo & El). rewrite enc_ok by assumption. unfold lenf. rewrite <- enc_mod, El, Z.mod_mod; [apply enc_mod|].
    assert (0 < 2 ^ W) by (apply Z.pow_pos_nonneg; lia). nia. }
  assert (Hlenf : zlen lenf = L) by apply enc_len. assert (Hblf : bytes_ok lenf) by apply enc_bytes.
  assert (Hc : exists q, zlen (concat blks) = q * B).
  { clear - Hbl. induction Hbl as [|b l Hb Hl IH]; [exists 0; reflexivity|]. destruct IH as (q & IH).
    exists (q + 1). cbn [concat]. rewrite zlen_app, IH, Hb. lia. }
  destruct Hc as (q & Hq).
  assert (Hmz : (- (zlen d + 1 + L)) mod B = (- (zlen t + 1 + L)) mod B).
  { rewrite Em, zlen_app, Hq. replace (- (q * B + zlen t + 1 + L)) with (- (zlen t + 1 + L) + (- q) * B) by lia. apply Z_mod_plus_full. }
  assert (Hmt : zlen d mod B = zlen t).
  { rewrite Em, zlen_app, Hq, Z.add_comm, Z_mod_plus_full. apply Z.mod_small. pose proof (zlen_nonneg t). lia. }
  assert (Ep : md_fill B L enc d m = concat blks ++ fin_in B W t lenf).
  { unfold md_fill, fin_in. fold lenf. fold L. rewrite Hmz. rewrite Em at 1. rewrite <- app_assoc. reflexivity. }
  assert (FC : exists bl, chunks B (fin_in B W t lenf) = bl ++ [fin_last B W t lenf] /\ Forall (fun b => zlen b = B) bl /\ fin_in B W t lenf = concat (bl ++ [fin_last B W t lenf])).
  { apply (fin_chunks B W f g okS enc_length enc); assumption. }
  destruct FC as (bl & Ec & Hbl' & Ecc).
  assert (Hfl : zlen (fin_last B W t lenf) = B) by (apply (fin_len B W f g okS enc_length enc); assumption).
  assert (Ech : chunks B (md_fill B L enc d m) = blks ++ bl ++ [fin_last B W t lenf]).
  { rewrite Ep, chunks_concat, Ec by assumption. reflexivity. }
  assert (FF : md_finish B W f enc_length c = Ret (MD (fold_left g (chunks B (fin_in B W t lenf)) (md_state c)) (md_hi c) (md_lo c) (zlen t) (fin_last B W t lenf)) /\
     okS (fold_left g (chunks B (fin_in B W t lenf)) (md_state c))).
  { apply (md_finish_full B W f g okS enc_length enc) with (junk := junk); try assumption. rewrite Es. assumption. }
  destruct FF as (E1 & Hok1). rewrite Es, Ec, <- fold_left_app in E1, Hok1. rewrite <- Ech in E1, Hok1.
  eexists. split; [exact E1|]. cbn [md_state]. split; [reflexivity|]. split; [exact Hok1|]. split; [exact Hlok|]. cbn [md_state md_num md_buf].
  destruct (len_ok_exists (md_next B L enc d m)) as (hi & lo & Hl). exists hi, lo.
  assert (Hbf : bytes_ok (fin_last B W t lenf)).
  { assert (bytes_ok [128]) by (repeat constructor; unfold byte_ok; lia). unfold fin_last, fin_in.
    destruct (_ >? _); repeat (apply bytes_ok_app; split); try assumption; apply bytes_ok_zeros. }
  assert (Hbi : bytes_ok (fin_in B W t lenf)).
  { assert (bytes_ok [128]) by (repeat constructor; unfold byte_ok; lia). unfold fin_in. repeat (apply bytes_ok_app; split); try assumption; apply bytes_ok_zeros. }
  assert (En' : md_next B L enc d m = concat (blks ++ bl ++ [fin_last B W t lenf]) ++ firstn (Z.to_nat (zlen t)) (fin_last B W t lenf)).
  { unfold md_next. cbv zeta. rewrite Ech, (app_assoc blks bl), last_last, Hmt, <- app_assoc. f_equal. rewrite Ep, Ecc, <- concat_app. reflexivity. }
  split.
  - rewrite En'. apply bytes_ok_app. split; [|apply Forall_firstn; assumption]. rewrite concat_app. apply bytes_ok_app. split; [assumption|]. rewrite <- Ecc. assumption.
  - exists (blks ++ bl ++ [fin_last B W t lenf]), (firstn (Z.to_nat (zlen t)) (fin_last B W t lenf)), (skipn (Z.to_nat (zlen t)) (fin_last B W t lenf)).
    cbn [md_state md_hi md_lo md_num md_buf]. pose proof (zlen_nonneg t). rewrite firstn_skipn, <- Ech.
    split; [rewrite Ech; exact En'|]. split; [rewrite Ech; repeat (apply Forall_app; split); try assumption; repeat constructor; assumption|].
    split; [rewrite zlen_firstn; lia|]. split; [exact Hok1|]. split; [reflexivity|]. split; [rewrite zlen_firstn; lia|]. split; [reflexivity|]. split; [assumption|exact Hl].
Qed.

Lemma md_psession iv size output l : Forall (Forall hop_valid) l -> forall c d m, md_pinv iv c d m ->
  session (c_hash md_ctx size (md_add_data B W f) (md_final B W f enc_length output) md_wipe) c l =
    map (fun st => Ret (output st)) (md_session B L enc iv g d m (map added l)) /\
  Forall okS (md_session B L enc iv g d m (map added l)).
Proof.
  set (H := c_hash _ _ _ _ _).
  induction l as [|ops l IH]; intros Hv c d m HR; [split; [reflexivity|constructor]|]. apply Forall_cons_iff in Hv as (Hv1 & Hv2). cbn [session map md_session].
  assert (HI : himpl (fun _ => True) H (fun x => Ret (output (fold_left g (chunks B (md_fill B L enc (d ++ x) (m ++ x))) iv))) (fun c x => md_pinv iv c (d ++ x) (m ++ x))).
  { apply c_hash_himpl.
    - auto.
    - intros k x y Hk Hy _ _. rewrite !app_assoc. apply md_padd; assumption.
    - intros k x Hk _. destruct (md_pfinish iv k _ _ Hk) as (c' & E & Est & _). unfold md_final. rewrite E. cbn [snd]. rewrite Est. reflexivity. }
  assert (HR0 : md_pinv iv c (d ++ []) (m ++ [])) by (rewrite !app_nil_r; exact HR).
  destruct (h_run_ok _ _ _ _ HI ops c [] HR0 Hv1 Logic.I) as (s1 & Es & HR1). cbn [app] in HR1. rewrite Es. cbn [fst].
  destruct (md_pfinish iv s1 _ _ HR1) as (c' & E & Est & Hok & HR2).
  assert (Er : h_result H s1 = (c', Ret (output (md_state c')))).
  { unfold H. cbn [c_hash h_result]. unfold md_final. rewrite E. reflexivity. }
  rewrite Er. cbn [fst snd]. destruct (IH Hv2 c' _ _ HR2) as (E3 & F3). rewrite E3, Est. rewrite Est in Hok. split; [reflexivity|]. constructor; assumption.
Qed.
End MD.

Lemma be_session n f g (okS : list Z -> Prop) iv size output c l : n = 4 \/ n = 8 ->
  (forall st b, okS st -> zlen b = 16 * n -> bytes_ok b -> f st b = g st b /\ okS (g st b)) ->
  md_inv (16 * n) (8 * n) g okS iv c [] -> Forall (Forall hop_valid) l ->
  session (c_hash md_ctx size (md_add_data (16 * n) (8 * n) f) (md_final (16 * n) (8 * n) f (enc_length_be n) output) md_wipe) c l =
    map (fun st => Ret (output st)) (md_session (16 * n) (2 * n) to_be iv g [] [] (map added l)) /\
  Forall okS (md_session (16 * n) (2 * n) to_be iv g [] [] (map added l)).
Proof.
  intros Hn Hfg HR Hv. assert (E8 : 8 * n / 8 = n) by (rewrite Z.mul_comm; apply Z.div_mul; lia).
  assert (E : 2 * (8 * n / 8) = 2 * n) by (rewrite E8; reflexivity).
  rewrite <- E. apply md_psession with (okS := okS); rewrite ?E; try assumption; try lia.
  - intros hi lo _ Hlo. apply enc_length_be_ok; [lia|assumption].
  - intros x. apply enc_be_mod. lia.
  - intros x. rewrite zlen_to_be. lia.
  - intros x. apply bytes_ok_to_be.
  - apply md_inv_pinv. exact HR.
Qed.

Lemma sha1_session fresh l : (forall n, 0 <= n -> zlen (fresh n) = n) -> Forall (Forall hop_valid) l ->
  session_of (sha1_obj fresh) l = map (fun st => Ret (concat (map (to_be 4) st))) (md_session 64 8 to_be sha1_IV sha1_compress [] [] (map added l)).
Proof.
  intros Hf Hv.
  destruct (be_session 4 sha1_transform sha1_compress ok5 sha1_IV 20 (fun st => copy_and_swap 4 (store_words 4 (firstn 5 st))) _ l ltac:(lia) sha1_transform_ok (sha1_init fresh Hf) Hv) as (E & Hok).
  refine (eq_trans E _). apply map_ext_Forall. refine (Forall_impl _ _ Hok). intros st Hst. cbv beta. rewrite sha1_output_ok by exact Hst. reflexivity.
Qed.
Lemma sha256_session iv size words s l : sha256_R iv s [] -> Forall (Forall hop_valid) l ->
  session (c_hash md_ctx size sha256_add_data (sha256_final words) md_wipe) s l =
  map (fun st => Ret (firstn (words * 4) (concat (map (to_be 4) st)))) (md_session 64 8 to_be iv (sha2_compress p256) [] [] (map added l)).
Proof.
  intros Hs Hv.
  destruct (be_session 4 sha256_transform (sha2_compress p256) (ok8 32) iv size (sha2_output 32 words) _ l ltac:(lia) sha256_transform_ok Hs Hv) as (E & _).
  refine (eq_trans E _). apply map_ext. intros st. rewrite sha2_output_ok by reflexivity. reflexivity.
Qed.
Lemma sha512_session iv size words s l : sha512_R iv s [] -> Forall (Forall hop_valid) l ->
  session (c_hash md_ctx size sha512_add_data (sha512_final words) md_wipe) s l =
  map (fun st => Ret (firstn (words * 8) (concat (map (to_be 8) st)))) (md_session 128 16 to_be iv (sha2_compress p512) [] [] (map added l)).
Proof.
  intros Hs Hv.
  destruct (be_session 8 sha512_transform (sha2_compress p512) (ok8 64) iv size (sha2_output 64 words) _ l ltac:(lia) sha512_transform_ok Hs Hv) as (E & _).
  refine (eq_trans E _). apply map_ext. intros st. rewrite sha2_output_ok by reflexivity. reflexivity.
Qed.
Lemma sha2_session fresh l : (forall n, 0 <= n -> zlen (fresh n) = n) -> Forall (Forall hop_valid) l ->
  let values P iv len := map (fun st => Ret (firstn len (concat (map (to_be (Z.to_nat (s2_w P / 8))) st))))
    (md_session (2 * s2_w P) (s2_w P / 4) to_be iv (sha2_compress P) [] [] (map added l)) in
  session_of (sha224_obj fresh) l = values p256 sha224_IV 28%nat /\
  session_of (sha256_obj fresh) l = values p256 sha256_IV 32%nat /\
  session_of (sha384_obj fresh) l = values p512 sha384_IV 48%nat /\
  session_of (sha512_obj fresh) l = values p512 sha512_IV 64%nat.
Proof.
  intros Hf Hv. cbv zeta. rewrite iv224_ok, iv256_ok, iv384_ok, iv512_ok.
  split; [exact (sha256_session (sha256_iv 224) 24 7 _ l (sha256_init fresh _ Hf ok8_iv224) Hv)|].
  split; [exact (sha256_session (sha256_iv 256) 32 8 _ l (sha256_init fresh _ Hf ok8_iv256) Hv)|].
  split; [exact (sha512_session (sha512_iv 384) 48 6 _ l (sha512_init fresh _ Hf ok8_iv384) Hv)|].
  exact (sha512_session (sha512_iv 512) 64 8 _ l (sha512_init fresh _ Hf ok8_iv512) Hv).
Qed.
Lemma rmd_session fresh l : (forall n, 0 <= n -> zlen (fresh n) = n) -> Forall (Forall hop_valid) l ->
  session_of (ripemd160_obj fresh) l = map (fun st => Ret (concat (map (to_le 4) st))) (md_session 64 8 to_le rmd_iv rmd160_compress [] [] (map added l)).
Proof.
  intros Hf Hv.
  destruct (md_psession 64 32 rmd_compress rmd160_compress ok5 (enc_length_le 4) to_le) with (iv := rmd_iv) (size := 32) (output := fun st => store_words 4 (firstn 5 st))
    (c := md_init rmd_iv (fresh 64)) (d := @nil Z) (m := @nil Z) (l := l) as (E & Hok); try lia.
  - exact rmd_compress_ok.
  - intros. apply enc_length_le_ok; assumption.
  - exact enc_le_mod.
  - intros x. rewrite zlen_to_le. reflexivity.
  - intros x. apply bytes_ok_to_le.
  - exact Hv.
  - apply md_inv_pinv. exact (rmd_init fresh Hf).
  - refine (eq_trans E _). change (2 * (32 / 8)) with 8 in *. apply map_ext_Forall. refine (Forall_impl _ _ Hok). intros st Hst. cbv beta.
    rewrite firstn_all2 by (rewrite (proj1 Hst); lia). reflexivity.
Qed.
