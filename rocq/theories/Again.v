(* The method result of the hashes called more than once. *)
From Verif Require Import Prelude PreludeFacts BytesNum Word SpecBlock BlockTotal SpecHash SpecRipemd HashModel MdModel ShaModel RipemdModel Blake3Model HashSpec HashFacts MdHash Sha Ripemd SpecKeccak KeccakModel Keccak KeccakHash.
From Verif Require Import SpecAgain.

Section MD.
Variables B W : Z.
Variables f g : list Z -> bytes -> list Z.    (* model and spec compression *)
Variable okS : list Z -> Prop.
Variable enc_length : Z -> Z -> bytes.
Variable enc : nat -> Z -> bytes.
Let L := 2 * (W / 8).
Hypothesis HB : 0 < B.
Hypothesis HW : 8 <= W <= 64.
Hypothesis HLB : L < B.
Hypothesis f_g : forall st b, okS st -> zlen b = B -> bytes_ok b -> f st b = g st b /\ okS (g st b).
Hypothesis enc_ok : forall hi lo, word_ok W hi -> word_ok W lo -> enc_length hi lo = enc (Z.to_nat L) (hi * 2 ^ W + lo).
Hypothesis enc_mod : forall x, enc (Z.to_nat L) (x mod (2 ^ W * 2 ^ W)) = enc (Z.to_nat L) x.
Hypothesis enc_len : forall x, zlen (enc (Z.to_nat L) x) = L.
Hypothesis enc_bytes : forall x, bytes_ok (enc (Z.to_nat L) x).


Definition fin_in (t lenf : bytes) : bytes := t ++ [128] ++ zeros ((- (zlen t + 1 + L)) mod B) ++ lenf.
Definition fin_last (t lenf : bytes) : bytes :=
  if zlen t + 1 >? B - L then zeros (B - L) ++ lenf else fin_in t lenf.

Lemma fin_len t lenf : zlen t < B -> zlen lenf = L -> zlen (fin_last t lenf) = B.
Proof.
  intros Ht Hl. assert (HL : 0 <= L) by (unfold L; lia). pose proof (zlen_nonneg t). unfold fin_last, fin_in. clearbody L.
  destruct (zlen t + 1 >? B - L) eqn:E; rewrite ?zlen_app, ?zlen_zeros, ?zlen_one; try lia.
  assert (Ek : (- (zlen t + 1 + L)) mod B = B - L - zlen t - 1) by (symmetry; apply Z.mod_unique_pos with (-1); lia). lia.
Qed.

(* the blocks processed by finish *)
Lemma fin_chunks t lenf : zlen t < B -> zlen lenf = L -> exists bl, chunks B (fin_in t lenf) = bl ++ [fin_last t lenf] /\
  Forall (fun b => zlen b = B) bl /\ fin_in t lenf = concat (bl ++ [fin_last t lenf]).
Proof.
  intros Ht Hlenf. pose proof (zlen_nonneg t) as Htl. assert (HL : 0 <= L) by (unfold L; lia). unfold fin_last, fin_in. clearbody L.
  destruct (zlen t + 1 >? B - L) eqn:Ei.
  - assert (Ek : (- (zlen t + 1 + L)) mod B = (B - zlen t - 1) + (B - L)) by (symmetry; apply Z.mod_unique_pos with (-2); lia).
    assert (Ez : zeros ((- (zlen t + 1 + L)) mod B) = zeros (B - zlen t - 1) ++ zeros (B - L)).
    { rewrite Ek. unfold zeros. rewrite Z2Nat.inj_add, repeat_app by lia. reflexivity. }
    rewrite Ez. set (b1 := t ++ [128] ++ zeros (B - zlen t - 1)). set (b2 := zeros (B - L) ++ lenf).
    replace (t ++ [128] ++ (zeros (B - zlen t - 1) ++ zeros (B - L)) ++ lenf) with (b1 ++ b2) by (unfold b1, b2; rewrite <- !app_assoc; reflexivity).
    assert (Hb1 : zlen b1 = B) by (unfold b1; rewrite !zlen_app, zlen_zeros, zlen_one by lia; lia).
    assert (Hb2 : zlen b2 = B) by (unfold b2; rewrite !zlen_app, zlen_zeros by lia; lia).
    exists [b1]. rewrite chunks_cons by assumption. rewrite (chunks_short B b2) by lia. split; [reflexivity|].
    split; [repeat constructor; assumption|]. cbn [app concat]. rewrite app_nil_r. reflexivity.
  - assert (Ek : (- (zlen t + 1 + L)) mod B = B - L - zlen t - 1) by (symmetry; apply Z.mod_unique_pos with (-1); lia).
    rewrite Ek. set (b1 := t ++ [128] ++ zeros (B - L - zlen t - 1) ++ lenf).
    assert (Hb1 : zlen b1 = B) by (unfold b1; rewrite !zlen_app, zlen_zeros, zlen_one by lia; lia).
    exists []. rewrite (chunks_short B b1) by lia. split; [reflexivity|]. split; [constructor|]. cbn [app concat]. rewrite app_nil_r. reflexivity.
Qed.

Lemma md_finish_full c t junk lenf : okS (md_state c) -> bytes_ok t -> bytes_ok lenf -> zlen t < B -> md_num c = zlen t ->
  md_buf c = t ++ junk -> zlen (t ++ junk) = B -> enc_length (md_hi c) (md_lo c) = lenf -> zlen lenf = L ->
  md_finish B W f enc_length c = Ret (MD (fold_left g (chunks B (fin_in t lenf)) (md_state c)) (md_hi c) (md_lo c) (zlen t) (fin_last t lenf)) /\
  okS (fold_left g (chunks B (fin_in t lenf)) (md_state c)).
Proof.
  intros Hok Hbtail Hblenf Ht En Ebuf Hlen Elen Hlenf.
  pose proof (zlen_nonneg t) as Htl. unfold md_finish, fin_last, fin_in. fold L. rewrite En, Ebuf.
  rewrite zlen_app in Hlen.
  assert (HL : 0 <= L) by (unfold L; lia).
  rewrite c_memcpy_ok by (rewrite ?zlen_app; change (zlen [128]) with 1; lia). cbn [obind].
  rewrite splice_app_mid by reflexivity. cbn [length]. clearbody L.
  assert (Hz : bytes_ok [128]) by (repeat constructor; unfold byte_ok; lia).
  destruct (zlen t + 1 >? B - L) eqn:Ei.
  - (* two blocks *)
    assert (Ek : (- (zlen t + 1 + L)) mod B = (B - zlen t - 1) + (B - L)).
    { symmetry. apply Z.mod_unique_pos with (-2); lia. }
    assert (Ez : zeros ((- (zlen t + 1 + L)) mod B) = zeros (B - zlen t - 1) ++ zeros (B - L)).
    { rewrite Ek. unfold zeros. rewrite Z2Nat.inj_add, repeat_app by lia. reflexivity. }
    rewrite Ez. set (b1 := t ++ [128] ++ zeros (B - zlen t - 1)). set (b2 := zeros (B - L) ++ lenf).
    replace (t ++ [128] ++ (zeros (B - zlen t - 1) ++ zeros (B - L)) ++ lenf) with (b1 ++ b2) by (unfold b1, b2; rewrite <- !app_assoc; reflexivity).
    assert (Hb1 : zlen b1 = B) by (unfold b1; rewrite !zlen_app, zlen_zeros, zlen_one by lia; lia).
    assert (Hb2 : zlen b2 = B) by (unfold b2; rewrite !zlen_app, zlen_zeros by lia; lia).
    rewrite chunks_cons by assumption. rewrite (chunks_short B b2) by lia. cbn [fold_left].
    rewrite c_memset0_ok by (rewrite ?zlen_app, ?zlen_skipn; change (zlen [128]) with 1; unfold zlen in *; lia). cbn [obind].
    assert (Eb : splice (t ++ [128] ++ skipn 1 junk) (zlen t + 1) (zeros (B - (zlen t + 1))) = b1).
    { rewrite app_assoc, splice_app_mid by (rewrite zlen_app; reflexivity). rewrite skipn_all2.
      - rewrite app_nil_r, <- app_assoc. unfold b1. replace (B - (zlen t + 1)) with (B - zlen t - 1) by lia. reflexivity.
      - rewrite skipn_length. unfold zeros. rewrite repeat_length. unfold zlen in *. lia. }
    rewrite Eb. destruct (f_g _ b1 Hok Hb1) as (-> & Hok1).
    { unfold b1. apply bytes_ok_app; split; [assumption|]. apply bytes_ok_app; split; [assumption|apply bytes_ok_zeros]. }
    cbn [obind]. rewrite c_memset0_ok by lia. cbn [obind]. rewrite splice_0.
    rewrite Elen, c_memcpy_ok.
    2: lia.
    2:{ rewrite zlen_app, zlen_skipn, zlen_zeros by lia. unfold zeros. rewrite repeat_length. lia. }
    cbn [obind].
    assert (Eb2 : splice (zeros (B - L - 0) ++ skipn (length (zeros (B - L - 0))) b1) (B - L) lenf = b2).
    { rewrite splice_app_mid by (rewrite zlen_zeros; lia). rewrite skipn_all2.
      - rewrite app_nil_r. unfold b2. replace (B - L - 0) with (B - L) by lia. reflexivity.
      - rewrite skipn_length. unfold zeros. rewrite repeat_length. unfold zlen in *. lia. }
    rewrite Eb2. destruct (f_g _ b2 Hok1 Hb2) as (-> & Hok2).
    { unfold b2. apply bytes_ok_app; split; [apply bytes_ok_zeros|assumption]. }
    split; [reflexivity|assumption].
  - (* one block *)
    assert (Ek : (- (zlen t + 1 + L)) mod B = B - L - zlen t - 1).
    { symmetry. apply Z.mod_unique_pos with (-1); lia. }
    rewrite Ek. set (b1 := t ++ [128] ++ zeros (B - L - zlen t - 1) ++ lenf).
    assert (Hb1 : zlen b1 = B) by (unfold b1; rewrite !zlen_app, zlen_zeros, zlen_one by lia; lia).
    rewrite (chunks_short B b1) by lia. cbn [fold_left obind].
    rewrite c_memset0_ok by (rewrite ?zlen_app, ?zlen_skipn; change (zlen [128]) with 1; unfold zlen in *; lia). cbn [obind].
    rewrite app_assoc, splice_app_mid by (rewrite zlen_app; reflexivity).
    rewrite Elen. rewrite c_memcpy_ok.
    2: lia.
    2:{ rewrite !zlen_app, zlen_skipn, zlen_skipn, zlen_zeros by lia. change (zlen [128]) with 1. unfold zeros. rewrite repeat_length. lia. }
    cbn [obind]. rewrite app_assoc, splice_app_mid.
    2:{ rewrite !zlen_app, zlen_zeros by lia. change (zlen [128]) with 1. lia. }
    rewrite skipn_all2.
    2:{ rewrite !skipn_length. unfold zeros. rewrite repeat_length. unfold zlen in *. lia. }
    rewrite app_nil_r, <- !app_assoc. replace (B - L - (zlen t + 1)) with (B - L - zlen t - 1) by lia. fold b1.
    destruct (f_g _ b1 Hok Hb1) as (-> & Hok1).
    { unfold b1. apply bytes_ok_app; split; [assumption|]. apply bytes_ok_app; split; [assumption|]. apply bytes_ok_app; split; [apply bytes_ok_zeros|assumption]. }
    split; [reflexivity|assumption].
Qed.


(* the k-th later call *)
Fixpoint fin_iter (k : nat) (c : md_ctx) : out md_ctx :=
  match k with O => Ret c | S k => olet c := md_finish B W f enc_length c in fin_iter k c end.

Lemma fin_last_prefix t lenf : zlen t < B -> zlen lenf = L -> zlen t + 1 >? B - L = false ->
  firstn (Z.to_nat (zlen t)) (fin_last t lenf) = t.
Proof.
  intros _ _ E. unfold fin_last. rewrite E. unfold fin_in, zlen. rewrite Nat2Z.id, firstn_app, firstn_all, Nat.sub_diag. cbn [firstn]. apply app_nil_r.
Qed.
(* the last block is the same after every call *)
Lemma fin_last_again t lenf : zlen t < B -> zlen lenf = L ->
  let t' := firstn (Z.to_nat (zlen t)) (fin_last t lenf) in zlen t' = zlen t /\ fin_last t' lenf = fin_last t lenf.
Proof.
  intros Ht Hl. cbn zeta. pose proof (zlen_nonneg t). pose proof (fin_len t lenf Ht Hl) as Hfl.
  assert (E' : zlen (firstn (Z.to_nat (zlen t)) (fin_last t lenf)) = zlen t) by (rewrite zlen_firstn; lia).
  split; [exact E'|]. destruct (zlen t + 1 >? B - L) eqn:E.
  - unfold fin_last at 1. rewrite E', E. unfold fin_last. rewrite E. reflexivity.
  - rewrite fin_last_prefix by assumption. reflexivity.
Qed.

Lemma fin_iter_ok lenf t0 : zlen t0 < B -> zlen lenf = L -> bytes_ok lenf -> bytes_ok t0 ->
  let t := firstn (Z.to_nat (zlen t0)) (fin_last t0 lenf) in forall k c, okS (md_state c) -> md_num c = zlen t0 -> md_buf c = fin_last t0 lenf ->
  enc_length (md_hi c) (md_lo c) = lenf ->
  exists c', fin_iter k c = Ret c' /\ okS (md_state c') /\ md_state c' = fold_left g (concat (repeat (chunks B (fin_in t lenf)) k)) (md_state c) /\
    md_num c' = zlen t0 /\ md_buf c' = fin_last t0 lenf /\ enc_length (md_hi c') (md_lo c') = lenf.
Proof.
  intros Ht Hl Hbl Hbt. cbn zeta. destruct (fin_last_again t0 lenf Ht Hl) as (Et & El). cbn zeta in Et, El.
  assert (Hfb : bytes_ok (fin_last t0 lenf)).
  { unfold fin_last, fin_in. assert (bytes_ok [128]) by (repeat constructor; unfold byte_ok; lia).
    destruct (zlen t0 + 1 >? B - L); repeat (apply bytes_ok_app; split); try assumption; apply bytes_ok_zeros. }
  set (t := firstn (Z.to_nat (zlen t0)) (fin_last t0 lenf)) in *.
  assert (Hsp : fin_last t0 lenf = t ++ skipn (Z.to_nat (zlen t0)) (fin_last t0 lenf)) by (symmetry; apply firstn_skipn).
  assert (Hbt' : bytes_ok t) by (apply Forall_firstn; assumption).
  induction k as [|k IH]; intros c Hok Hn Hb He.
  - exists c. repeat (split; [first [reflexivity|assumption]|]). assumption.
  - cbn [fin_iter repeat concat]. destruct (md_finish_full c t (skipn (Z.to_nat (zlen t0)) (fin_last t0 lenf)) lenf) as (-> & Hok'); try assumption.
    { lia. } { lia. } { congruence. } { rewrite <- Hsp. apply fin_len; assumption. }
    cbn [obind]. destruct (IH (MD (fold_left g (chunks B (fin_in t lenf)) (md_state c)) (md_hi c) (md_lo c) (zlen t) (fin_last t lenf))) as (c' & E & H1 & H2 & H3);
      cbn [md_state md_num md_buf md_hi md_lo]; try assumption.
    exists c'. split; [exact E|]. split; [assumption|]. split; [|assumption]. rewrite H2. cbn [md_state]. rewrite fold_left_app. reflexivity.
Qed.

Lemma md_again_ok iv c msg k : md_inv B W g okS iv c msg ->
  exists c', fin_iter (S k) c = Ret c' /\ md_state c' = fold_left g (chunks B (md_pad B L enc msg ++ concat (repeat (md_again B L enc msg) k))) iv /\ okS (md_state c').
Proof.
  intros (Hbm & blks & t & junk & Em & Hbl & Ht & Hok & Es & En & Ebuf & Hlen & Hlok).
  assert (Hbt : bytes_ok t) by (rewrite Em in Hbm; apply bytes_ok_app in Hbm; apply Hbm).
  set (lenf := enc (Z.to_nat L) (8 * zlen msg)).
  assert (Elen : enc_length (md_hi c) (md_lo c) = lenf).
  { destruct Hlok as (Hhi & Hlo & El). rewrite enc_ok by assumption. unfold lenf. rewrite <- enc_mod, El, Z.mod_mod; [apply enc_mod|].
    assert (0 < 2 ^ W) by (apply Z.pow_pos_nonneg; lia). nia. }
  assert (Hlenf : zlen lenf = L) by apply enc_len. assert (Hblf : bytes_ok lenf) by apply enc_bytes.
  assert (Hc : exists q, zlen (concat blks) = q * B).
  { clear - Hbl. induction Hbl as [|b l Hb Hl IH]; [exists 0; reflexivity|]. destruct IH as (q & IH).
    exists (q + 1). cbn [concat]. rewrite zlen_app, IH, Hb. lia. }
  destruct Hc as (q & Hq).
  assert (Hmz : (- (zlen msg + 1 + L)) mod B = (- (zlen t + 1 + L)) mod B).
  { rewrite Em, zlen_app, Hq. replace (- (q * B + zlen t + 1 + L)) with (- (zlen t + 1 + L) + (- q) * B) by lia. apply Z_mod_plus_full. }
  assert (Hmt : zlen msg mod B = zlen t).
  { rewrite Em, zlen_app, Hq, Z.add_comm, Z_mod_plus_full. apply Z.mod_small. pose proof (zlen_nonneg t). lia. }
  assert (Ep : md_pad B L enc msg = concat blks ++ fin_in t lenf).
  { unfold md_pad, fin_in. fold lenf. rewrite Hmz. rewrite Em at 1. rewrite <- app_assoc. reflexivity. }
  destruct (fin_chunks t lenf Ht Hlenf) as (bl & Ec & Hbl' & Ecc).
  assert (Ech : chunks B (md_pad B L enc msg) = blks ++ bl ++ [fin_last t lenf]).
  { rewrite Ep, chunks_concat, Ec by assumption. reflexivity. }
  destruct (fin_last_again t lenf Ht Hlenf) as (Et & El). cbn zeta in Et, El.
  set (t' := firstn (Z.to_nat (zlen t)) (fin_last t lenf)) in *.
  assert (Ea : md_again B L enc msg = fin_in t' lenf).
  { unfold md_again. rewrite Ech, (app_assoc blks), last_last, Hmt, Hmz. fold t' lenf. unfold fin_in. rewrite Et. reflexivity. }
  destruct (fin_chunks t' lenf ltac:(lia) Hlenf) as (bl2 & Ec2 & Hbl2 & Ecc2).
  destruct (md_finish_full c t junk lenf) as (E1 & Hok1); try assumption. { rewrite Es; assumption. }
  cbn [fin_iter]. rewrite E1. cbn [obind]. rewrite Es in Hok1 |- *.
  destruct (fin_iter_ok lenf t Ht Hlenf Hblf Hbt k (MD (fold_left g (chunks B (fin_in t lenf)) (fold_left g blks iv)) (md_hi c) (md_lo c) (zlen t) (fin_last t lenf)))
    as (c' & E2 & Hok2 & Est & _); cbn [md_state md_num md_buf md_hi md_lo]; try assumption; try reflexivity.
  exists c'. split; [exact E2|]. split; [|exact Hok2]. rewrite Est. cbn [md_state]. fold t'. rewrite Ea.
  assert (Ek : concat (repeat (fin_in t' lenf) k) = concat (concat (repeat (bl2 ++ [fin_last t' lenf]) k))).
  { rewrite Ecc2. clear. induction k as [|k IH]; [reflexivity|]. cbn [repeat concat]. rewrite IH. rewrite (concat_app (bl2 ++ _)). reflexivity. }
  assert (Ef : Forall (fun b => zlen b = B) (concat (repeat (bl2 ++ [fin_last t' lenf]) k))).
  { assert (F : Forall (fun b => zlen b = B) (bl2 ++ [fin_last t' lenf])) by (apply Forall_app; split; [assumption|constructor; [apply fin_len; lia|constructor]]).
    clear - F. induction k as [|k IH]; [constructor|]. cbn [repeat concat]. apply Forall_app. split; assumption. }
  assert (Ef1 : Forall (fun b => zlen b = B) (blks ++ bl ++ [fin_last t lenf])).
  { repeat (apply Forall_app; split); try assumption. constructor; [apply fin_len; lia|constructor]. }
  rewrite Ec, Ec2, Ek, Ep, Ecc, <- (concat_app blks), (chunks_concat B (blks ++ _)) by assumption. rewrite (chunks_concat0 B (concat _)) by assumption.
  rewrite !fold_left_app. reflexivity.
Qed.

Lemma md_nth_result iv c msg size output k : md_inv B W g okS iv c msg ->
  nth_result (c_hash md_ctx size (md_add_data B W f) (md_final B W f enc_length output) md_wipe) c k = Ret (output (md_results B L enc iv g msg k)) /\
  okS (md_results B L enc iv g msg k).
Proof.
  intros HR. destruct (md_again_ok iv c msg k HR) as (c' & E & Es & Hok). unfold md_results. rewrite <- Es. split; [|exact Hok]. clear HR Es Hok.
  revert c E. induction k as [|k IH]; intros c E.
  - cbn [fin_iter] in E. cbn [nth_result c_hash h_result]. unfold md_final. destruct (md_finish B W f enc_length c); cbn [obind] in E; try discriminate.
    injection E as ->. reflexivity.
  - cbn [nth_result]. change (fin_iter (S (S k)) c) with (olet c := md_finish B W f enc_length c in fin_iter (S k) c) in E.
    cbn [c_hash h_result]. unfold md_final. destruct (md_finish B W f enc_length c) as [c1| | |] eqn:E1; cbn [obind] in E; try discriminate.
    cbn [fst]. apply IH. exact E.
Qed.
End MD.

Lemma be_again n f g (okS : list Z -> Prop) iv size output c msg k : n = 4 \/ n = 8 ->
  (forall st b, okS st -> zlen b = 16 * n -> bytes_ok b -> f st b = g st b /\ okS (g st b)) ->
  md_inv (16 * n) (8 * n) g okS iv c msg ->
  nth_result (c_hash md_ctx size (md_add_data (16 * n) (8 * n) f) (md_final (16 * n) (8 * n) f (enc_length_be n) output) md_wipe) c k =
    Ret (output (md_results (16 * n) (2 * n) to_be iv g msg k)) /\
  okS (md_results (16 * n) (2 * n) to_be iv g msg k).
Proof.
  intros Hn Hfg HR. assert (E8 : 8 * n / 8 = n) by (rewrite Z.mul_comm; apply Z.div_mul; lia).
  assert (E : 2 * (8 * n / 8) = 2 * n) by (rewrite E8; reflexivity).
  rewrite <- E. apply md_nth_result with (okS := okS); rewrite ?E; try assumption; try lia.
  - intros hi lo _ Hlo. apply enc_length_be_ok; [lia|assumption].
  - intros x. apply enc_be_mod. lia.
  - intros x. rewrite zlen_to_be. lia.
  - intros x. apply bytes_ok_to_be.
Qed.

Lemma himpl_state P H D R (I : himpl P H D R) s ops : R s [] -> Forall hop_valid ops -> P (added ops) ->
  R (fst (h_run H s ops)) (added ops).
Proof.
  intros HR Hv HP. destruct (h_run_ok P H D R I ops s [] HR Hv HP) as (s' & -> & H'). exact H'.
Qed.

Lemma sha1_again fresh ops k : (forall n, 0 <= n -> zlen (fresh n) = n) -> Forall hop_valid ops ->
  results_from (sha1_obj fresh) ops k = Ret (concat (map (to_be 4) (md_results 64 8 to_be sha1_IV sha1_compress (added ops) k))).
Proof.
  intros Hf Hv. pose proof (himpl_state _ _ _ _ sha1_himpl _ ops (sha1_init fresh Hf) Hv Logic.I) as HR.
  destruct (be_again 4 sha1_transform sha1_compress ok5 sha1_IV 20 (fun st => copy_and_swap 4 (store_words 4 (firstn 5 st))) _ _ k ltac:(lia) sha1_transform_ok HR) as (E & Hok).
  refine (eq_trans E _). rewrite sha1_output_ok by exact Hok. reflexivity.
Qed.
Lemma sha256_again iv size words s ops k : ok8 32 iv -> sha256_R iv s [] -> Forall hop_valid ops ->
  let H := c_hash md_ctx size sha256_add_data (sha256_final words) md_wipe in
  nth_result H (fst (h_run H s ops)) k =
  Ret (firstn (words * 4) (concat (map (to_be 4) (md_results 64 8 to_be iv (sha2_compress p256) (added ops) k)))).
Proof.
  intros Hiv Hs Hv. cbn zeta. pose proof (himpl_state _ _ _ _ (sha256_himpl_gen iv size words Hiv) _ ops Hs Hv Logic.I) as HR.
  destruct (be_again 4 sha256_transform (sha2_compress p256) (ok8 32) iv size (sha2_output 32 words) _ _ k ltac:(lia) sha256_transform_ok HR) as (E & _).
  refine (eq_trans E _). rewrite sha2_output_ok by reflexivity. reflexivity.
Qed.
Lemma sha512_again iv size words s ops k : ok8 64 iv -> sha512_R iv s [] -> Forall hop_valid ops ->
  let H := c_hash md_ctx size sha512_add_data (sha512_final words) md_wipe in
  nth_result H (fst (h_run H s ops)) k =
  Ret (firstn (words * 8) (concat (map (to_be 8) (md_results 128 16 to_be iv (sha2_compress p512) (added ops) k)))).
Proof.
  intros Hiv Hs Hv. cbn zeta. pose proof (himpl_state _ _ _ _ (sha512_himpl_gen iv size words Hiv) _ ops Hs Hv Logic.I) as HR.
  destruct (be_again 8 sha512_transform (sha2_compress p512) (ok8 64) iv size (sha2_output 64 words) _ _ k ltac:(lia) sha512_transform_ok HR) as (E & _).
  refine (eq_trans E _). rewrite sha2_output_ok by reflexivity. reflexivity.
Qed.
Lemma rmd_again fresh ops k : (forall n, 0 <= n -> zlen (fresh n) = n) -> Forall hop_valid ops ->
  results_from (ripemd160_obj fresh) ops k = Ret (concat (map (to_le 4) (md_results 64 8 to_le rmd_iv rmd160_compress (added ops) k))).
Proof.
  intros Hf Hv. pose proof (himpl_state _ _ _ _ rmd_himpl _ ops (rmd_init fresh Hf) Hv Logic.I) as HR.
  destruct (md_nth_result 64 32 rmd_compress rmd160_compress ok5 (enc_length_le 4) to_le) with (iv := rmd_iv) (size := 32) (output := fun st => store_words 4 (firstn 5 st))
    (c := fst (h_run ripemd160_class (md_init rmd_iv (fresh 64)) ops)) (msg := added ops) (k := k) as (E & Hok); try lia.
  - exact rmd_compress_ok.
  - intros. apply enc_length_le_ok; assumption.
  - exact enc_le_mod.
  - intros x. rewrite zlen_to_le. reflexivity.
  - intros x. apply bytes_ok_to_le.
  - exact HR.
  - refine (eq_trans E _). change (2 * (32 / 8)) with 8 in *. rewrite firstn_all2 by (rewrite (proj1 Hok); lia). reflexivity.
Qed.

(* BLAKE3: result does not change the context *)
Lemma b3_again key sz o ops k : blake3_obj key sz = Ret o -> results_from o ops k = results_from o ops 0.
Proof.
  unfold blake3_obj. destruct (_ && _ && _); [|discriminate]. intros E. injection E as <-. unfold results_from.
  set (s := fst (h_run _ _ _)). cbn [ho_class] in *. clearbody s. cbn in s. induction k as [|k IH]; [reflexivity|].
  cbn [nth_result] in *. rewrite <- IH. cbn [blake3_class c_hash h_result b3_fin]. destruct s; reflexivity.
Qed.

(* ---- SHA-3 and Keccak ---- *)
Section Sponge.
Variables rsiz hsiz : Z.
Hypothesis Hr : 0 < rsiz <= 144.
Hypothesis Hr8 : rsiz mod 8 = 0.
Let absorb A blk := keccak_f (xor_block A blk).
Let st0 := repeat 0 25.
Lemma k_extract_again suffix c msg : suffix = [] \/ suffix = [false; true] -> k_inv rsiz hsiz c msg ->
  exists c' st, k_inv rsiz hsiz c' (sponge_again (8 * rsiz) suffix msg) /\ ok25 st /\ st = sponge (8 * rsiz) suffix msg /\
    SHA3_extract (suffix_byte suffix) c = (let o := k_output st hsiz in if zlen o >? hsiz then Undef else Ret (c', o)).
Proof.
  intros Hs (Hbm & blks & tail & junk & Em & Hbl & Ht & Hok & Es & En & Ebuf & Hlen & Er & Eh).
  change (k_state c = fold_left absorb blks st0) in Es. change (ok25 (fold_left absorb blks st0)) in Hok.
  pose proof (zlen_nonneg tail) as Htl. unfold SHA3_extract. rewrite En, Ebuf, Es, Er, Eh.
  assert (Hbtail : bytes_ok tail) by (rewrite Em in Hbm; apply bytes_ok_app in Hbm; apply Hbm).
  set (sb := suffix_byte suffix) in *. assert (Hsb : byte_ok sb /\ byte_ok (Z.lor sb 128)) by (unfold sb; destruct Hs as [-> | ->]; cbn; unfold byte_ok; lia).
  rewrite zlen_app in Hlen.
  rewrite c_memcpy_ok by (rewrite ?zlen_app; change (zlen [sb]) with 1; lia). cbn [obind]. rewrite splice_app_mid by reflexivity. cbn [length].
  set (k := rsiz - zlen tail).
  assert (Hc : exists q, zlen (concat blks) = q * rsiz).
  { clear - Hbl. induction Hbl as [|b l Hb Hl IH]; [exists 0; reflexivity|]. destruct IH as (q & IH).
    exists (q + 1). cbn [concat]. rewrite zlen_app, IH, Hb. lia. }
  destruct Hc as (q & Hq).
  set (lst := if k =? 1 then [Z.lor sb 128] else [sb] ++ zeros (k - 2) ++ [128]).
  assert (Hlst : zlen lst = k).
  { unfold lst. destruct (Z.eqb_spec k 1); [cbn; lia|]. rewrite !zlen_app, zlen_zeros by lia. change (zlen [sb]) with 1. change (zlen [128]) with 1. lia. }
  assert (HI : sponge_input (8 * rsiz) suffix msg = msg ++ lst).
  { rewrite (sponge_input_ok rsiz suffix msg k Hs Hbm); [reflexivity|unfold k; lia|].
    rewrite Em, zlen_app, Hq. replace (q * rsiz + zlen tail + k) with ((q + 1) * rsiz) by (unfold k; lia). apply Z.mod_mul. lia. }
  assert (HA : sponge_again (8 * rsiz) suffix msg = concat (blks ++ [tail ++ lst]) ++ tail).
  { unfold sponge_again. rewrite HI. replace (8 * rsiz / 8) with rsiz by (rewrite Z.mul_comm; symmetry; apply Z.div_mul; lia).
    rewrite Em, zlen_app, Hq. rewrite Z.div_add_l, (Z.div_small (zlen tail)), Z.add_0_r, <- Hq by lia. unfold zlen at 1. rewrite Nat2Z.id.
    rewrite skipn_app, skipn_all, Nat.sub_diag. cbn [skipn app]. rewrite concat_app. cbn [concat]. rewrite app_nil_r, <- !app_assoc. reflexivity. }
  assert (HS : sponge (8 * rsiz) suffix msg = absorb (fold_left absorb blks st0) (tail ++ lst)).
  { unfold sponge. rewrite (sponge_input_ok rsiz suffix msg k Hs Hbm).
    - fold sb. fold lst. replace (8 * rsiz / 8) with rsiz by (rewrite Z.mul_comm; symmetry; apply Z.div_mul; lia).
      rewrite Em, <- app_assoc, chunks_concat by (assumption || lia). rewrite fold_left_app.
      rewrite (chunks_short rsiz (tail ++ lst)) by (rewrite zlen_app; lia). reflexivity.
    - unfold k. lia.
    - rewrite Em, zlen_app, Hq. replace (q * rsiz + zlen tail + k) with ((q + 1) * rsiz) by (unfold k; lia). apply Z.mod_mul. lia. }
  rewrite c_memset0_ok by (rewrite ?zlen_app, ?zlen_skipn; change (zlen [sb]) with 1; unfold zlen in *; lia). cbn [obind].
  rewrite app_assoc, splice_app_mid by (rewrite zlen_app; reflexivity).
  set (buf2 := (tail ++ [sb]) ++ zeros (rsiz - (zlen tail + 1)) ++ skipn (length (zeros (rsiz - (zlen tail + 1)))) (skipn 1 junk)).
  set (rest := skipn (length (zeros (rsiz - (zlen tail + 1)))) (skipn 1 junk)) in *.
  assert (Hrest : zlen rest = 144 - rsiz).
  { unfold rest. rewrite !zlen_skipn. unfold zeros. rewrite repeat_length. cbn [length]. unfold zlen in *. lia. }
  assert (Hbuf2 : zlen buf2 = 144) by (unfold buf2; rewrite !zlen_app, zlen_zeros by lia; change (zlen [sb]) with 1; lia).
  rewrite c_memcpy_ok by (change (zlen [_]) with 1; lia). cbn [obind].
  set (x := nth (Z.to_nat (rsiz - 1)) buf2 0).
  assert (E3 : splice buf2 (rsiz - 1) [Z.lor x 128] = (tail ++ lst) ++ rest).
  { unfold lst. destruct (Z.eqb_spec k 1) as [Ek|Ek].
    - assert (Ez : zeros (rsiz - (zlen tail + 1)) = []) by (replace (rsiz - (zlen tail + 1)) with 0 by (unfold k in Ek; lia); reflexivity).
      unfold buf2, x, buf2. rewrite Ez. cbn [app]. rewrite <- app_assoc.
      rewrite app_nth2 by (unfold k, zlen in *; lia). replace (Z.to_nat (rsiz - 1) - length tail)%nat with O by (unfold k, zlen in *; lia). cbn [nth app].
      rewrite splice_app_mid by (unfold k in Ek; lia). rewrite <- app_assoc. reflexivity.
    - assert (Ez : zeros (rsiz - (zlen tail + 1)) = zeros (k - 2) ++ [0]).
      { unfold zeros. replace (Z.to_nat (rsiz - (zlen tail + 1))) with (Z.to_nat (k - 2) + 1)%nat by (unfold k in *; lia). apply repeat_app. }
      unfold x, buf2. rewrite Ez. replace ((tail ++ [sb]) ++ (zeros (k - 2) ++ [0]) ++ rest) with (((tail ++ [sb]) ++ zeros (k - 2)) ++ [0] ++ rest) by (rewrite <- !app_assoc; reflexivity).
      assert (Hpre : zlen ((tail ++ [sb]) ++ zeros (k - 2)) = rsiz - 1) by (rewrite !zlen_app, zlen_zeros by lia; change (zlen [sb]) with 1; unfold k; lia).
      rewrite app_nth2 by (unfold zlen in *; lia). replace (Z.to_nat (rsiz - 1) - length ((tail ++ [sb]) ++ zeros (k - 2)))%nat with O by (unfold zlen in *; lia). cbn [nth app].
      rewrite splice_app_mid by lia. change (Z.lor 0 128) with 128. cbn [length skipn app]. rewrite <- !app_assoc. cbn [app]. rewrite <- ?app_assoc. reflexivity. }
  rewrite E3. assert (Ef : firstn (Z.to_nat rsiz) ((tail ++ lst) ++ rest) = tail ++ lst).
  { assert (zlen (tail ++ lst) = rsiz) by (rewrite zlen_app; unfold k in *; lia).
    rewrite firstn_app, firstn_all2 by (unfold zlen in *; lia).
    replace (Z.to_nat rsiz - length (tail ++ lst))%nat with O by (unfold zlen in *; lia). apply app_nil_r. }
  rewrite Ef.
  assert (Hblst : bytes_ok (tail ++ lst)).
  { apply bytes_ok_app. split; [assumption|]. unfold lst. destruct (k =? 1); [repeat constructor; apply Hsb|].
    apply bytes_ok_app. split; [repeat constructor; apply Hsb|]. apply bytes_ok_app. split; [apply bytes_ok_zeros|]. repeat constructor; unfold byte_ok; lia. }
  assert (Hzl : zlen (tail ++ lst) = rsiz) by (rewrite zlen_app; unfold k in *; lia).
  assert (EB : KeccakAbsorb (fold_left absorb blks st0) (tail ++ lst) = absorb (fold_left absorb blks st0) (tail ++ lst) /\ ok25 (absorb (fold_left absorb blks st0) (tail ++ lst)))
    by (apply (block_ok rsiz Hr Hr8); assumption).
  rewrite <- HS in EB. destruct EB as (-> & Hok'). exists (KC (sponge (8 * rsiz) suffix msg) ((tail ++ lst) ++ rest) (zlen tail) rsiz hsiz). exists (sponge (8 * rsiz) suffix msg).
  split; [|split; [assumption|split; reflexivity]]. rewrite HA. split.
  { rewrite Em in Hbm. apply bytes_ok_app in Hbm. rewrite concat_app. cbn [concat]. rewrite app_nil_r. repeat (apply bytes_ok_app; split); apply Hbm || assumption || (apply bytes_ok_app in Hblst; apply Hblst). }
  exists (blks ++ [tail ++ lst]), tail, (lst ++ rest). rewrite fold_left_app. cbn [fold_left k_state k_num k_buf k_rsiz k_hsiz].
  change (keccak_f (xor_block (fold_left (fun A blk => keccak_f (xor_block A blk)) blks (repeat 0 25)) (tail ++ lst))) with (absorb (fold_left absorb blks st0) (tail ++ lst)). rewrite <- HS.
  split; [reflexivity|]. split; [apply Forall_app; split; [assumption|repeat constructor; assumption]|]. split; [assumption|]. split; [assumption|].
  split; [reflexivity|]. split; [reflexivity|]. split; [rewrite app_assoc; reflexivity|]. split; [rewrite app_assoc, zlen_app; lia|]. split; reflexivity.
Qed.
End Sponge.

Lemma Nat_iter_comm {A} (f : A -> A) k x : Nat.iter k f (f x) = f (Nat.iter k f x).
Proof. induction k as [|k IH]; [reflexivity|]. cbn [Nat.iter nat_rect]. change (f (Nat.iter k f (f x)) = f (f (Nat.iter k f x))). rewrite IH. reflexivity. Qed.

Lemma sha3_init_R fresh sz : (forall n, 0 <= n -> zlen (fresh n) = n) -> sz = 224 \/ sz = 256 \/ sz = 384 \/ sz = 512 ->
  sha3_R sz (Some (SHA3_init sz (fresh 144))) [].
Proof.
  intros Hf Hsz. exists (SHA3_init sz (fresh 144)). split; [reflexivity|]. split; [constructor|]. exists [], [], (fresh 144).
  cbn [SHA3_init k_state k_num k_buf k_rsiz k_hsiz concat app fold_left].
  assert (0 < 200 - 2 * (sz / 8)) by (destruct Hsz as [-> | [-> | [-> | ->]]]; vm_compute; reflexivity).
  split; [reflexivity|]. split; [constructor|]. split; [assumption|]. split.
  { split; [reflexivity|]. apply Forall_forall. intros x Hx. apply repeat_spec in Hx. subst x. unfold word_ok. lia. }
  split; [reflexivity|]. split; [reflexivity|]. split; [reflexivity|]. split; [apply Hf; lia|]. split; reflexivity.
Qed.

Lemma sha3_again fresh sz official o ops k : (forall n, 0 <= n -> zlen (fresh n) = n) -> sha3_new fresh sz official = Ret o -> Forall hop_valid ops ->
  let suffix := if official then [false; true] else [] in
  results_from o ops k = Ret (keccak_digest suffix sz (Nat.iter k (sponge_again (1600 - 2 * sz) suffix) (added ops))).
Proof.
  intros Hf Ho Hv. cbn zeta. unfold sha3_new in Ho. destruct ((sz =? 224) || (sz =? 256) || (sz =? 384) || (sz =? 512)) eqn:Es; [|discriminate].
  injection Ho as <-. assert (Hsz : sz = 224 \/ sz = 256 \/ sz = 384 \/ sz = 512) by lia. clear Es.
  assert (Hr : 0 < 200 - 2 * (sz / 8) <= 144 /\ (200 - 2 * (sz / 8)) mod 8 = 0 /\ 0 <= sz / 8 <= 100 /\ (sz / 8) mod 4 = 0 /\ 8 * (200 - 2 * (sz / 8)) = 1600 - 2 * sz).
  { destruct Hsz as [-> | [-> | [-> | ->]]]; vm_compute; intuition congruence. }
  destruct Hr as (Hr1 & Hr2 & Hh & Hh4 & Hrr).
  assert (HR : sha3_R sz (fst (h_run (sha3_class sz official) (Some (SHA3_init sz (fresh 144))) ops)) (added ops)).
  { refine (himpl_state _ _ _ _ (sha3_himpl sz official Hsz) _ ops _ Hv Logic.I). apply sha3_init_R; assumption. }
  unfold results_from. cbn [ho_class ho_st]. set (s := fst (h_run _ _ _)) in *. clearbody s. generalize dependent (added ops). clear ops Hv.
  set (suffix := if official then [false; true] else [] : list bool).
  assert (Hs : suffix = [] \/ suffix = [false; true]) by (unfold suffix; destruct official; auto).
  assert (Ef : forall s m, sha3_R sz s m -> exists s', h_result (sha3_class sz official) s = (s', Ret (keccak_digest suffix sz m)) /\ sha3_R sz s' (sponge_again (1600 - 2 * sz) suffix m)).
  { clear s. intros s m (c & -> & Hc). cbn [sha3_class c_hash h_result]. unfold sha3_fin.
    replace (if official then 6 else 1) with (suffix_byte suffix) by (unfold suffix; destruct official; reflexivity).
    destruct (k_extract_again _ _ Hr1 Hr2 suffix c m Hs Hc) as (c' & st & Hinv & Hst & Est & ->). cbv zeta.
    destruct (k_output_ok st (sz / 8) (proj1 Hst) Hh Hh4) as (E1 & E2). rewrite E2.
    assert (sz / 8 >? sz / 8 = false) as -> by lia. exists (Some c'). rewrite Hrr in *. split; [rewrite E1, Est; reflexivity|]. exists c'. split; [reflexivity|exact Hinv]. }
  revert s. induction k as [|k IH]; intros s m HR; destruct (Ef s m HR) as (s' & E & HR'); cbn [nth_result]; rewrite E; cbn [fst snd]; [reflexivity|].
  rewrite (IH _ _ HR'). cbn [Nat.iter]. rewrite Nat_iter_comm. reflexivity.
Qed.

Section Sha2.
Variable fresh : Z -> bytes.
Hypothesis Hf : forall n, 0 <= n -> zlen (fresh n) = n.
Let out2 P iv len ops k := firstn len (concat (map (to_be (Z.to_nat (s2_w P / 8))) (md_results (2 * s2_w P) (s2_w P / 4) to_be iv (sha2_compress P) (added ops) k))).
Lemma sha2_again ops k : Forall hop_valid ops ->
  results_from (sha224_obj fresh) ops k = Ret (out2 p256 sha224_IV 28 ops k) /\
  results_from (sha256_obj fresh) ops k = Ret (out2 p256 sha256_IV 32 ops k) /\
  results_from (sha384_obj fresh) ops k = Ret (out2 p512 sha384_IV 48 ops k) /\
  results_from (sha512_obj fresh) ops k = Ret (out2 p512 sha512_IV 64 ops k).
Proof.
  intros Hv. unfold out2. rewrite iv224_ok, iv256_ok, iv384_ok, iv512_ok.
  split; [exact (sha256_again (sha256_iv 224) 24 7 _ ops k ok8_iv224 (sha256_init fresh _ Hf ok8_iv224) Hv)|].
  split; [exact (sha256_again (sha256_iv 256) 32 8 _ ops k ok8_iv256 (sha256_init fresh _ Hf ok8_iv256) Hv)|].
  split; [exact (sha512_again (sha512_iv 384) 48 6 _ ops k ok8_iv384 (sha512_init fresh _ Hf ok8_iv384) Hv)|].
  exact (sha512_again (sha512_iv 512) 64 8 _ ops k ok8_iv512 (sha512_init fresh _ Hf ok8_iv512) Hv).
Qed.
End Sha2.

(* SHA-1 of the empty message, twice *)
Lemma again_differs : exists fresh o ops, (forall n, 0 <= n -> zlen (fresh n) = n) /\ o = sha1_obj fresh /\ Forall hop_valid ops /\
  results_from o ops 1 <> results_from o ops 0.
Proof.
  exists zeros, (sha1_obj zeros), []. split; [exact zlen_zeros|]. split; [reflexivity|]. split; [constructor|]. vm_compute. discriminate.
Qed.
