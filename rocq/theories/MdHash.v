(* The buffering code of the SHA and RIPEMD files computes the padded,
   iterated compression function. *)
From Verif Require Import Prelude PreludeFacts BytesNum Word SpecBlock BlockTotal SpecHash HashModel MdModel HashSpec HashFacts.

Lemma splice_app_mid {A} (a b l : list A) n : n = zlen a -> splice (a ++ b) n l = a ++ l ++ skipn (length l) b.
Proof.
  intros ->. unfold splice, zlen. rewrite Nat2Z.id, firstn_app, firstn_all, Nat.sub_diag. cbn [firstn]. rewrite app_nil_r.
  rewrite skipn_app, skipn_all2 by lia. cbn [app]. repeat f_equal. lia.
Qed.
Lemma splice_0 {A} (b l : list A) : splice b 0 l = l ++ skipn (length l) b.
Proof. reflexivity. Qed.
Lemma zlen_skipn {A} (l : list A) n : zlen (skipn n l) = Z.max 0 (zlen l - Z.of_nat n).
Proof. unfold zlen. rewrite skipn_length. lia. Qed.
Lemma zlen_firstn {A} (l : list A) n : zlen (firstn n l) = Z.min (Z.of_nat n) (zlen l).
Proof. unfold zlen. rewrite firstn_length. lia. Qed.
Lemma c_memcpy_ok dst ofs src : 0 <= ofs -> ofs + zlen src <= zlen dst -> c_memcpy dst ofs src = Ret (splice dst ofs src).
Proof. intros H1 H2. unfold c_memcpy. rewrite (proj2 (in_range_true _ _ _)); [reflexivity|]. pose proof (zlen_nonneg src). lia. Qed.
Lemma c_memset0_ok dst ofs n : 0 <= ofs -> 0 <= n -> ofs + n <= zlen dst -> c_memset0 dst ofs n = Ret (splice dst ofs (zeros n)).
Proof. intros H1 H2 H3. unfold c_memset0. rewrite (proj2 (in_range_true _ _ _)); [reflexivity|]. lia. Qed.

Lemma mod_square M h l : 0 < M -> 0 <= l < M -> (h * M + l) mod (M * M) = h mod M * M + l.
Proof.
  intros HM Hl. symmetry. apply Z.mod_unique_pos with (h / M).
  - pose proof (Z.mod_pos_bound h M HM). nia.
  - pose proof (Z.div_mod h M ltac:(lia)). nia.
Qed.

Section MD.
Variables B W : Z.
Variables f g : list Z -> bytes -> list Z.    (* model and spec compression *)
Variable okS : list Z -> Prop.
Variable enc_length : Z -> Z -> bytes.
Variable enc : nat -> Z -> bytes.
Let L := 2 * (W / 8).
Hypothesis HB : 0 < B.
Hypothesis HW : 8 <= W <= 64.
Hypothesis HLB : L < B.
Hypothesis f_g : forall st b, okS st -> zlen b = B -> bytes_ok b -> f st b = g st b /\ okS (g st b).
Hypothesis enc_ok : forall hi lo, word_ok W hi -> word_ok W lo -> enc_length hi lo = enc (Z.to_nat L) (hi * 2 ^ W + lo).
Hypothesis enc_mod : forall x, enc (Z.to_nat L) (x mod (2 ^ W * 2 ^ W)) = enc (Z.to_nat L) x.
Hypothesis enc_len : forall x, zlen (enc (Z.to_nat L) x) = L.
Hypothesis enc_bytes : forall x, bytes_ok (enc (Z.to_nat L) x).

Lemma add_length_ok hi lo n len : word_ok W hi -> word_ok W lo -> 0 <= len ->
  hi * 2 ^ W + lo = n mod (2 ^ W * 2 ^ W) ->
  word_ok W (fst (md_add_length W hi lo len)) /\ word_ok W (snd (md_add_length W hi lo len)) /\
  fst (md_add_length W hi lo len) * 2 ^ W + snd (md_add_length W hi lo len) = (n + 8 * len) mod (2 ^ W * 2 ^ W).
Proof.
  intros Hhi Hlo Hlen E. unfold md_add_length, c_add, c_shl, c_shr. cbn [fst snd].
  assert (HM : 0 < 2 ^ W) by (apply Z.pow_pos_nonneg; lia).
  split; [apply Z.mod_pos_bound; assumption|]. split; [apply Z.mod_pos_bound; assumption|].
  assert (E64 : (Z.shiftl len 3 mod 2 ^ 64) mod 2 ^ W = (8 * len) mod 2 ^ W).
  { rewrite Z.shiftl_mul_pow2 by lia. replace (2 ^ 64) with (2 ^ W * 2 ^ (64 - W)) by (rewrite <- Z.pow_add_r by lia; f_equal; lia).
    rewrite Z.rem_mul_r by (try apply Z.pow_pos_nonneg; try lia; apply Z.pow_nonzero; lia).
    rewrite (Z.mul_comm (2 ^ W)), Z_mod_plus_full, Z.mod_mod by lia. f_equal. lia. }
  assert (E1 : Z.shiftr len (W - 3) = (8 * len) / 2 ^ W).
  { rewrite Z.shiftr_div_pow2 by lia. replace (2 ^ W) with (8 * 2 ^ (W - 3)).
    2:{ change 8 with (2 ^ 3). rewrite <- Z.pow_add_r by lia. f_equal; lia. }
    rewrite Z.div_mul_cancel_l; [reflexivity| |lia]. apply Z.pow_nonzero; lia. }
  rewrite E64, E1. clear E64 E1. set (M := 2 ^ W) in *. unfold word_ok in *. fold M in Hhi, Hlo.
  assert (Ex : n + 8 * len = (n / (M * M)) * (M * M) + (hi * M + lo) + ((8 * len) / M * M + (8 * len) mod M)).
  { rewrite E. pose proof (Z.div_mod n (M * M)). pose proof (Z.div_mod (8 * len) M). nia. }
  rewrite Ex. clear Ex E. set (q := n / (M * M)). set (x1 := 8 * len / M). set (x0 := (8 * len) mod M).
  assert (Hx0 : 0 <= x0 < M) by (apply Z.mod_pos_bound; assumption). clearbody q x1 x0 M. clear n len Hlen.
  set (c := if (lo + x0) mod M <? lo then 1 else 0).
  assert (El : lo + x0 = c * M + (lo + x0) mod M).
  { unfold c. destruct (Z.lt_ge_cases (lo + x0) M).
    - rewrite Z.mod_small by lia. destruct (lo + x0 <? lo) eqn:E; lia.
    - assert (Em : (lo + x0) mod M = lo + x0 - M).
      { symmetry. apply Z.mod_unique_pos with 1; lia. }
      rewrite Em. destruct (lo + x0 - M <? lo) eqn:E; lia. }
  pose proof (Z.mod_pos_bound (lo + x0) M HM) as Hl'.
  replace (q * (M * M) + (hi * M + lo) + (x1 * M + x0)) with ((hi + x1 + c) * M + (lo + x0) mod M + q * (M * M)) by lia.
  rewrite Z_mod_plus_full, mod_square by assumption. f_equal. f_equal.
  unfold c. destruct ((lo + x0) mod M <? lo).
  - rewrite <- Z.add_mod by lia. f_equal. lia.
  - rewrite Z.add_mod_idemp_r by lia. f_equal. lia.
Qed.

(* the length words count the bits of msg *)
Definition len_ok (hi lo : Z) (msg : bytes) : Prop :=
  word_ok W hi /\ word_ok W lo /\ hi * 2 ^ W + lo = (8 * zlen msg) mod (2 ^ W * 2 ^ W).

(* the context has absorbed msg *)
Definition md_inv (iv : list Z) (c : md_ctx) (msg : bytes) : Prop :=
  bytes_ok msg /\ exists blks tail junk, msg = concat blks ++ tail /\ Forall (fun b => zlen b = B) blks /\ zlen tail < B /\
    okS (fold_left g blks iv) /\ md_state c = fold_left g blks iv /\ md_num c = zlen tail /\
    md_buf c = tail ++ junk /\ zlen (tail ++ junk) = B /\
    len_ok (md_hi c) (md_lo c) msg.

Lemma len_ok_add hi lo msg data : len_ok hi lo msg ->
  len_ok (fst (md_add_length W hi lo (zlen data))) (snd (md_add_length W hi lo (zlen data))) (msg ++ data).
Proof.
  intros (H1 & H2 & H3). destruct (add_length_ok _ _ _ (zlen data) H1 H2 (zlen_nonneg _) H3) as (H4 & H5 & H6).
  split; [assumption|]. split; [assumption|]. rewrite H6, zlen_app. f_equal. lia.
Qed.

Lemma md_blocks_ok iv fuel : forall blks buf data, (length data < fuel)%nat ->
  okS (fold_left g blks iv) -> Forall (fun b => zlen b = B) blks -> zlen buf = B -> bytes_ok data ->
  exists blks' tail junk, md_blocks B f fuel (fold_left g blks iv) buf data = Ret (fold_left g blks' iv, zlen tail, tail ++ junk) /\
    concat blks ++ data = concat blks' ++ tail /\ Forall (fun b => zlen b = B) blks' /\ zlen tail < B /\
    okS (fold_left g blks' iv) /\ zlen (tail ++ junk) = B.
Proof.
  induction fuel as [|fuel IH]; intros blks buf data Hf Hok Hbl Hbuf Hb; [lia|]. cbn [md_blocks].
  pose proof (zlen_nonneg data) as Hd. destruct (zlen data >=? B) eqn:E.
  - assert (H1 : zlen (firstn (Z.to_nat B) data) = B) by (rewrite zlen_firstn; lia).
    rewrite c_memcpy_ok by lia. cbn [obind]. rewrite splice_all by lia.
    destruct (f_g (fold_left g blks iv) (firstn (Z.to_nat B) data) Hok H1 (Forall_firstn _ _ _ Hb)) as (-> & Hok').
    destruct (IH (blks ++ [firstn (Z.to_nat B) data]) (firstn (Z.to_nat B) data) (skipn (Z.to_nat B) data)) as (blks' & tail & junk & E1 & E2 & H3).
    { rewrite skipn_length. unfold zlen in *. lia. }
    { rewrite fold_left_app. assumption. }
    { apply Forall_app; split; [assumption|]. repeat constructor; assumption. }
    { assumption. } { apply Forall_skipn; assumption. }
    rewrite fold_left_app in E1. cbn [fold_left] in E1. exists blks', tail, junk. split; [exact E1|]. split; [|assumption].
    rewrite <- E2, concat_app. cbn [concat]. rewrite app_nil_r, <- app_assoc, firstn_skipn. reflexivity.
  - rewrite c_memcpy_ok by lia. cbn [obind]. rewrite splice_0.
    exists blks, data, (skipn (length data) buf). repeat split; try assumption; try lia.
    rewrite zlen_app, zlen_skipn. unfold zlen in *. lia.
Qed.

Lemma md_add_data_ok iv c msg data : md_inv iv c msg -> bytes_ok data ->
  exists c', md_add_data B W f c data = Ret c' /\ md_inv iv c' (msg ++ data).
Proof.
  intros (Hbm & blks & tail & junk & Em & Hbl & Ht & Hok & Es & En & Ebuf & Hlen & El) Hb.
  pose proof (zlen_nonneg data) as Hd. pose proof (zlen_nonneg tail) as Htl.
  pose proof (len_ok_add _ _ _ data El) as El'. clear El.
  unfold md_add_data. destruct (md_add_length W (md_hi c) (md_lo c) (zlen data)) as [hi lo]. cbn [fst snd] in *.
  assert (Hbm' : bytes_ok (msg ++ data)) by (apply bytes_ok_app; split; assumption).
  rewrite En, Ebuf, Es. assert (Hbtail : bytes_ok tail) by (rewrite Em in Hbm; apply bytes_ok_app in Hbm; apply Hbm).
  destruct (zlen tail =? 0) eqn:E0; cbn [negb].
  - assert (tail = []) as -> by (apply zlen_0; lia). cbn [app] in *.
    destruct (md_blocks_ok iv (S (length data)) blks junk data) as (blks' & tail' & junk' & -> & E2 & H4 & H5 & H6 & H7);
      [lia|assumption|assumption|assumption|assumption|]. cbn [obind]. eexists. split; [reflexivity|].
    split; [assumption|]. exists blks', tail', junk'. cbn [md_state md_num md_buf md_hi md_lo].
    repeat (split; try assumption; try reflexivity). rewrite Em, app_nil_r. assumption.
  - destruct (zlen data <? B - zlen tail) eqn:E1.
    + rewrite c_memcpy_ok by lia. cbn [obind]. eexists. split; [reflexivity|]. rewrite splice_app_mid by reflexivity.
      split; [assumption|]. exists blks, (tail ++ data), (skipn (length data) junk). cbn [md_state md_num md_buf md_hi md_lo].
      rewrite <- app_assoc, !zlen_app, zlen_skipn. rewrite zlen_app in Hlen.
      split; [rewrite Em, app_assoc; reflexivity|]. split; [assumption|]. split; [lia|]. split; [assumption|].
      split; [reflexivity|]. split; [reflexivity|]. split; [reflexivity|]. split; [|assumption]. clear - E1 Hlen Htl. unfold zlen in *. lia.
    + set (d1 := firstn (Z.to_nat (B - zlen tail)) data). set (d2 := skipn (Z.to_nat (B - zlen tail)) data).
      assert (Ed : data = d1 ++ d2) by (symmetry; apply firstn_skipn).
      assert (Hd1 : zlen d1 = B - zlen tail) by (unfold d1; rewrite zlen_firstn; lia).
      rewrite c_memcpy_ok by lia. cbn [obind]. rewrite splice_app_mid by reflexivity.
      rewrite skipn_all2 by (rewrite zlen_app in Hlen; unfold zlen in *; lia). rewrite app_nil_r.
      assert (Hbd : bytes_ok d1 /\ bytes_ok d2) by (apply bytes_ok_app; rewrite <- Ed; assumption).
      assert (Hblk : zlen (tail ++ d1) = B) by (rewrite zlen_app; lia).
      destruct (f_g (fold_left g blks iv) (tail ++ d1) Hok Hblk) as (-> & Hok').
      { apply bytes_ok_app. split; [assumption|apply Hbd]. }
      destruct (md_blocks_ok iv (S (length d2)) (blks ++ [tail ++ d1]) (tail ++ d1) d2) as (blks' & tail' & junk' & E4 & E5 & H4 & H5 & H6 & H7).
      { lia. } { rewrite fold_left_app. assumption. } { apply Forall_app; split; [assumption|repeat constructor; assumption]. }
      { assumption. } { apply Hbd. }
      rewrite fold_left_app in E4. cbn [fold_left] in E4. rewrite E4. cbn [obind]. eexists. split; [reflexivity|].
      split; [assumption|]. exists blks', tail', junk'. cbn [md_state md_num md_buf md_hi md_lo].
      repeat (split; try assumption; try reflexivity). rewrite <- E5, Em, concat_app. cbn [concat].
      rewrite app_nil_r, <- !app_assoc. rewrite <- Ed. reflexivity.
Qed.

Lemma md_finish_ok iv c msg : md_inv iv c msg ->
  exists c', md_finish B W f enc_length c = Ret c' /\ md_state c' = md_digest B L enc iv g msg /\ okS (md_state c').
Proof.
  intros (Hbm & blks & tail & junk & Em & Hbl & Ht & Hok & Es & En & Ebuf & Hlen & Hlok).
  pose proof (zlen_nonneg tail) as Htl. unfold md_finish. fold L. rewrite En, Ebuf, Es.
  assert (Hbtail : bytes_ok tail) by (rewrite Em in Hbm; apply bytes_ok_app in Hbm; apply Hbm).
  rewrite zlen_app in Hlen.
  assert (HL : 0 <= L) by (unfold L; lia).
  rewrite c_memcpy_ok by (rewrite ?zlen_app; change (zlen [128]) with 1; lia). cbn [obind].
  rewrite splice_app_mid by reflexivity. cbn [length].
  set (lenf := enc (Z.to_nat L) (8 * zlen msg)).
  assert (Elen : enc_length (md_hi c) (md_lo c) = lenf).
  { destruct Hlok as (Hhi & Hlo & El). rewrite enc_ok by assumption. unfold lenf. rewrite <- enc_mod, El, Z.mod_mod; [apply enc_mod|].
    assert (0 < 2 ^ W) by (apply Z.pow_pos_nonneg; lia). nia. }
  assert (Hlenf : zlen lenf = L) by apply enc_len. clear Hlok. clearbody L.
  assert (Em' : md_pad B L enc msg = concat blks ++ (tail ++ [128] ++ zeros ((- (zlen tail + 1 + L)) mod B) ++ lenf)).
  { unfold md_pad. fold lenf. rewrite Em at 1. rewrite <- app_assoc. do 2 f_equal. f_equal. f_equal. f_equal.
    rewrite Em, zlen_app. assert (Hc : exists k, zlen (concat blks) = k * B).
    { clear - Hbl. induction Hbl as [|b l Hb Hl IH]; [exists 0; reflexivity|]. destruct IH as (k & IH).
      exists (k + 1). cbn [concat]. rewrite zlen_app, IH, Hb. lia. }
    destruct Hc as (k & ->). replace (- (k * B + zlen tail + 1 + L)) with (- (zlen tail + 1 + L) + (- k) * B) by lia.
    apply Z_mod_plus_full. }
  unfold md_digest. rewrite Em', chunks_concat by assumption. rewrite fold_left_app.
  assert (Hz : bytes_ok [128]) by (repeat constructor; unfold byte_ok; lia).
  destruct (zlen tail + 1 >? B - L) eqn:Ei.
  - (* two blocks *)
    assert (Ek : (- (zlen tail + 1 + L)) mod B = (B - zlen tail - 1) + (B - L)).
    { symmetry. apply Z.mod_unique_pos with (-2); lia. }
    assert (Ez : zeros ((- (zlen tail + 1 + L)) mod B) = zeros (B - zlen tail - 1) ++ zeros (B - L)).
    { rewrite Ek. unfold zeros. rewrite Z2Nat.inj_add, repeat_app by lia. reflexivity. }
    rewrite Ez. set (b1 := tail ++ [128] ++ zeros (B - zlen tail - 1)). set (b2 := zeros (B - L) ++ lenf).
    replace (tail ++ [128] ++ (zeros (B - zlen tail - 1) ++ zeros (B - L)) ++ lenf) with (b1 ++ b2) by (unfold b1, b2; rewrite <- !app_assoc; reflexivity).
    assert (Hb1 : zlen b1 = B) by (unfold b1; rewrite !zlen_app, zlen_zeros, zlen_one by lia; lia).
    assert (Hb2 : zlen b2 = B) by (unfold b2; rewrite !zlen_app, zlen_zeros by lia; lia).
    rewrite chunks_cons by assumption. rewrite (chunks_short B b2) by lia. cbn [fold_left].
    rewrite c_memset0_ok by (rewrite ?zlen_app, ?zlen_skipn; change (zlen [128]) with 1; unfold zlen in *; lia). cbn [obind].
    assert (Eb : splice (tail ++ [128] ++ skipn 1 junk) (zlen tail + 1) (zeros (B - (zlen tail + 1))) = b1).
    { rewrite app_assoc, splice_app_mid by (rewrite zlen_app; reflexivity). rewrite skipn_all2.
      - rewrite app_nil_r, <- app_assoc. unfold b1. replace (B - (zlen tail + 1)) with (B - zlen tail - 1) by lia. reflexivity.
      - rewrite skipn_length. unfold zeros. rewrite repeat_length. unfold zlen in *. lia. }
    rewrite Eb. destruct (f_g _ b1 Hok Hb1) as (-> & Hok1).
    { unfold b1. apply bytes_ok_app; split; [assumption|]. apply bytes_ok_app; split; [assumption|apply bytes_ok_zeros]. }
    cbn [obind]. rewrite c_memset0_ok by lia. cbn [obind]. rewrite splice_0.
    rewrite Elen, c_memcpy_ok.
    2: lia.
    2:{ rewrite zlen_app, zlen_skipn, zlen_zeros by lia. unfold zeros. rewrite repeat_length. lia. }
    cbn [obind].
    assert (Eb2 : splice (zeros (B - L - 0) ++ skipn (length (zeros (B - L - 0))) b1) (B - L) lenf = b2).
    { rewrite splice_app_mid by (rewrite zlen_zeros; lia). rewrite skipn_all2.
      - rewrite app_nil_r. unfold b2. replace (B - L - 0) with (B - L) by lia. reflexivity.
      - rewrite skipn_length. unfold zeros. rewrite repeat_length. unfold zlen in *. lia. }
    rewrite Eb2. destruct (f_g _ b2 Hok1 Hb2) as (-> & Hok2).
    { unfold b2. apply bytes_ok_app; split; [apply bytes_ok_zeros|apply enc_bytes]. }
    eexists. split; [reflexivity|]. cbn [md_state]. split; [reflexivity|assumption].
  - (* one block *)
    assert (Ek : (- (zlen tail + 1 + L)) mod B = B - L - zlen tail - 1).
    { symmetry. apply Z.mod_unique_pos with (-1); lia. }
    rewrite Ek. set (b1 := tail ++ [128] ++ zeros (B - L - zlen tail - 1) ++ lenf).
    assert (Hb1 : zlen b1 = B) by (unfold b1; rewrite !zlen_app, zlen_zeros, zlen_one by lia; lia).
    rewrite (chunks_short B b1) by lia. cbn [fold_left obind].
    rewrite c_memset0_ok by (rewrite ?zlen_app, ?zlen_skipn; change (zlen [128]) with 1; unfold zlen in *; lia). cbn [obind].
    rewrite app_assoc, splice_app_mid by (rewrite zlen_app; reflexivity).
    rewrite Elen. rewrite c_memcpy_ok.
    2: lia.
    2:{ rewrite !zlen_app, zlen_skipn, zlen_skipn, zlen_zeros by lia. change (zlen [128]) with 1. unfold zeros. rewrite repeat_length. lia. }
    cbn [obind]. rewrite app_assoc, splice_app_mid.
    2:{ rewrite !zlen_app, zlen_zeros by lia. change (zlen [128]) with 1. lia. }
    rewrite skipn_all2.
    2:{ rewrite !skipn_length. unfold zeros. rewrite repeat_length. unfold zlen in *. lia. }
    rewrite app_nil_r, <- !app_assoc. replace (B - L - (zlen tail + 1)) with (B - L - zlen tail - 1) by lia. fold b1.
    destruct (f_g _ b1 Hok Hb1) as (-> & Hok1).
    { unfold b1. apply bytes_ok_app; split; [assumption|]. apply bytes_ok_app; split; [assumption|]. apply bytes_ok_app; split; [apply bytes_ok_zeros|apply enc_bytes]. }
    eexists. split; [reflexivity|]. cbn [md_state]. split; [reflexivity|assumption].
Qed.

Lemma md_init_inv iv buf : okS iv -> zlen buf = B -> md_inv iv (md_init iv buf) [].
Proof using HB HW.
  clear enc_ok enc_mod enc_len enc_bytes f_g HLB f enc_length enc.
  intros Hok Hb. split; [constructor|]. exists [], [], buf. cbn [md_init md_state md_num md_buf md_hi md_lo concat app fold_left].
  assert (0 < 2 ^ W) by (apply Z.pow_pos_nonneg; lia).
  split; [reflexivity|]. split; [constructor|]. split; [rewrite zlen_nil; lia|]. split; [assumption|]. split; [reflexivity|].
  split; [reflexivity|]. split; [reflexivity|]. split; [assumption|]. split; [split; lia|]. split; [split; lia|]. change (8 * zlen (@nil Z)) with 0. rewrite Z.mod_0_l by nia. reflexivity.
Qed.

Lemma md_himpl iv size output :
  himpl (fun _ => True) (c_hash md_ctx size (md_add_data B W f) (md_final B W f enc_length output) md_wipe)
    (fun m => Ret (output (md_digest B L enc iv g m))) (md_inv iv).
Proof.
  apply c_hash_himpl.
  - trivial.
  - intros k m d HR Hb _ _. apply md_add_data_ok; assumption.
  - intros k m HR _. unfold md_final. destruct (md_finish_ok iv k m HR) as (c' & -> & E & _). cbn [snd]. rewrite E. reflexivity.
Qed.

Lemma md_digest_ok iv msg : okS iv -> bytes_ok msg -> (forall n, 0 <= n -> exists b : bytes, zlen b = n) -> okS (md_digest B L enc iv g msg).
Proof.
  intros Hok Hb Hex. destruct (Hex B ltac:(lia)) as (buf & Hbuf).
  destruct (md_add_data_ok iv _ [] msg (md_init_inv iv buf Hok Hbuf) Hb) as (c & _ & Hc). cbn [app] in Hc.
  destruct (md_finish_ok iv c msg Hc) as (c' & _ & E & Hok'). rewrite <- E. exact Hok'.
Qed.
End MD.
