(* C91: what the code computes on machines of either byte order, with a long of 32 or 64 bits. *)
From Verif Require Import Prelude PreludeFacts BytesNum Word SpecBlock BlockTotal SpecHash SpecRipemd SpecKeccak HashModel MdModel ShaModel RipemdModel KeccakModel HashSpec HashFacts MdHash Sha Ripemd KeccakHash.
From Verif Require Import EncModel BlockModel BlockObj CipherModel SpecStream StreamModel StreamObj Rc4 Chacha SpecBlowfish BlowfishModel Blowfish SpecPlatform PlatformModel.

(* ---- bytes of words ---- *)
Lemma chunks_swap n b : 0 < n -> chunks n (concat (map (@rev Z) (chunks n b))) = map (@rev Z) (chunks n b).
Proof.
  intros Hn. destruct (split_blocks n b Hn) as (blks & tail & E & H1 & H2 & H3 & _).
  assert (Hr : Forall (fun c : bytes => zlen c = n) (map (@rev Z) blks)) by (apply Forall_map; eapply Forall_impl; [|exact H1]; intros a Ha; rewrite zlen_rev; exact Ha).
  pose proof (zlen_nonneg tail) as Hz. destruct (Z.eq_dec (zlen tail) 0) as [Ht|Ht].
  - apply zlen_0 in Ht. subst tail. rewrite app_nil_r in E. subst b. rewrite (chunks_concat0 n blks) by assumption. apply chunks_concat0; assumption.
  - subst b. rewrite chunks_concat by assumption. rewrite (chunks_short n tail) by lia. rewrite map_app, concat_app, chunks_concat by assumption.
    cbn [map concat]. rewrite app_nil_r, chunks_short by (rewrite zlen_rev; lia). reflexivity.
Qed.
Lemma le_rev b : le (rev b) = be b.
Proof. reflexivity. Qed.
Lemma sha_words_on e n b : 0 < n -> read_words e n (sha_copy_and_swap e n b) = load_words n (copy_and_swap n b).
Proof.
  intros Hn. unfold load_words, copy_and_swap. rewrite chunks_swap, map_map by assumption.
  destruct e; unfold read_words, sha_copy_and_swap, host_read; [unfold swap_words; rewrite chunks_swap, map_map by assumption; reflexivity|reflexivity].
Qed.
Lemma be_rev b : be (rev b) = le b.
Proof. unfold be. rewrite rev_involutive. reflexivity. Qed.
Lemma rmd_words_on e n b : 0 < n -> read_words e n (rmd_copy_and_swap e n b) = load_words n b.
Proof.
  intros Hn. destruct e; [reflexivity|]. unfold read_words, rmd_copy_and_swap, host_read, swap_words, load_words.
  rewrite chunks_swap, map_map by assumption. apply map_ext. intros x. apply be_rev.
Qed.
Lemma write_words_rev n l : 0 < n -> swap_words n (write_words Big n l) = store_words n l.
Proof.
  intros Hn. unfold swap_words, write_words, store_words. rewrite chunks_concat0; [|assumption|].
  - rewrite map_map. f_equal. apply map_ext. intros x. cbn [host_write]. unfold to_be. apply rev_involutive.
  - apply Forall_map. apply Forall_forall. intros x _. cbn [host_write]. rewrite zlen_to_be. lia.
Qed.
Lemma sha_store_on e n l : 0 < n -> sha_copy_and_swap e n (write_words e n l) = copy_and_swap n (store_words n l).
Proof. intros Hn. destruct e; [reflexivity|]. rewrite store_words_be by assumption. reflexivity. Qed.
Lemma rmd_store_on e n l : 0 < n -> rmd_copy_and_swap e n (write_words e n l) = store_words n l.
Proof. intros Hn. destruct e; [reflexivity|]. apply write_words_rev. assumption. Qed.

Lemma sha1_transform_same e st b : sha1_transform_on e st b = sha1_transform st b.
Proof. unfold sha1_transform_on, sha1_transform, sha1_words. rewrite sha_words_on by lia. reflexivity. Qed.
Lemma sha256_transform_same e st b : sha256_transform_on e st b = sha256_transform st b.
Proof. unfold sha256_transform_on, sha256_transform, sha2_transform, sha2_words. rewrite sha_words_on by lia. reflexivity. Qed.
Lemma sha512_transform_same e st b : sha512_transform_on e st b = sha512_transform st b.
Proof. unfold sha512_transform_on, sha512_transform, sha2_transform, sha2_words. rewrite sha_words_on by lia. reflexivity. Qed.
Lemma rmd_compress_same e st b : rmd_compress_on e st b = rmd_compress st b.
Proof. unfold rmd_compress_on, rmd_compress, rmd_words. rewrite rmd_words_on by lia. reflexivity. Qed.

(* ---- the buffering code ---- *)
Lemma zlen_taken U d : zlen (taken U d) = zlen d mod 2 ^ U.
Proof.
  unfold taken. rewrite zlen_firstn. pose proof (zlen_nonneg d). destruct (Z.lt_ge_cases U 0) as [HU|HU].
  - rewrite Z.pow_neg_r by assumption. rewrite Zmod_0_r. lia.
  - pose proof (Z.pow_pos_nonneg 2 U). pose proof (Z.mod_pos_bound (zlen d) (2 ^ U)). pose proof (Z.mod_le (zlen d) (2 ^ U)). lia.
Qed.
Lemma add_length_on W U hi lo len : (W = 32 /\ (U = 32 \/ U = 64)) \/ (W = 64 /\ U = 64) -> 0 <= len ->
  md_add_length_on U W hi lo len = md_add_length W hi lo len.
Proof.
  intros H Hl. unfold md_add_length_on, md_add_length. replace (c_shl U len 3 mod 2 ^ W) with (c_shl 64 len 3 mod 2 ^ W); [reflexivity|].
  destruct H as [(-> & [-> | ->]) | (-> & ->)]; try reflexivity. unfold c_shl.
  change (2 ^ 64) with (2 ^ 32 * 2 ^ 32). rewrite Zmod_mod. rewrite <- Znumtheory.Zmod_div_mod; [reflexivity|lia|lia|]. exists (2 ^ 32). lia.
Qed.
Section Ext.
Variables B W : Z.
Variables f' f : list Z -> bytes -> list Z.
Hypothesis Hf : forall st b, f' st b = f st b.
Lemma md_blocks_ext fuel : forall st buf data, md_blocks B f' fuel st buf data = md_blocks B f fuel st buf data.
Proof.
  induction fuel as [|fuel IH]; intros st buf data; [reflexivity|]. cbn [md_blocks]. destruct (zlen data >=? B); [|reflexivity].
  destruct (c_memcpy buf 0 (firstn (Z.to_nat B) data)); cbn [obind]; try reflexivity. rewrite Hf. apply IH.
Qed.
Lemma md_finish_ext enc' enc c : (forall hi lo, enc' hi lo = enc hi lo) -> md_finish B W f' enc' c = md_finish B W f enc c.
Proof.
  intros He. unfold md_finish. destruct (c_memcpy (md_buf c) (md_num c) [128]) as [buf| | |]; cbn [obind]; try reflexivity.
  destruct (md_num c + 1 >? B - 2 * (W / 8)).
  - destruct (c_memset0 buf (md_num c + 1) (B - (md_num c + 1))) as [buf1| | |]; cbn [obind]; try reflexivity. rewrite Hf.
    destruct (c_memset0 buf1 0 (B - 2 * (W / 8) - 0)) as [buf2| | |]; cbn [obind]; try reflexivity. rewrite He.
    destruct (c_memcpy buf2 (B - 2 * (W / 8)) (enc (md_hi c) (md_lo c))) as [buf3| | |]; cbn [obind]; try reflexivity. rewrite Hf. reflexivity.
  - cbn [obind]. destruct (c_memset0 buf (md_num c + 1) (B - 2 * (W / 8) - (md_num c + 1))) as [buf2| | |]; cbn [obind]; try reflexivity. rewrite He.
    destruct (c_memcpy buf2 (B - 2 * (W / 8)) (enc (md_hi c) (md_lo c))) as [buf3| | |]; cbn [obind]; try reflexivity. rewrite Hf. reflexivity.
Qed.
Lemma md_final_ext enc' enc out' out c : (forall hi lo, enc' hi lo = enc hi lo) -> (forall st, out' st = out st) ->
  md_final B W f' enc' out' c = md_final B W f enc out c.
Proof. intros He Ho. unfold md_final. rewrite (md_finish_ext enc' enc c He). destruct (md_finish B W f enc c); try reflexivity. rewrite Ho. reflexivity. Qed.

Lemma add_data_on U c d : (W = 32 /\ (U = 32 \/ U = 64)) \/ (W = 64 /\ U = 64) ->
  md_add_data_on U B W f' c d = md_add_data B W f c (taken U d).
Proof.
  intros H. unfold md_add_data_on, md_add_data. rewrite zlen_taken. fold (taken U d).
  rewrite add_length_on by (assumption || (apply Z.mod_pos_bound; destruct H as [(_ & [-> | ->]) | (_ & ->)]; lia)).
  destruct (md_add_length W (md_hi c) (md_lo c) (zlen d mod 2 ^ U)) as [hi lo].
  destruct (negb (md_num c =? 0)); [destruct (zlen d mod 2 ^ U <? B - md_num c); [reflexivity|]|].
  - destruct (c_memcpy (md_buf c) (md_num c) (firstn (Z.to_nat (B - md_num c)) (taken U d))) as [buf| | |]; cbn [obind]; try reflexivity. rewrite md_blocks_ext, Hf. reflexivity.
  - rewrite md_blocks_ext. reflexivity.
Qed.
End Ext.

(* ---- histories of calls, piece by piece ---- *)
Lemma run_pieces K size upd fin wipe (R : K -> list bytes -> Prop) :
  (forall k ps d, R k ps -> bytes_ok d -> zlen d <= max_string_length -> exists k', upd k d = Ret k' /\ R k' (ps ++ [d])) ->
  forall ops k ps, Forall hop_valid ops -> R k ps ->
  exists k', h_run (c_hash K size upd fin wipe) k ops = (k', Ret tt) /\ R k' (ps ++ map hop_bytes ops).
Proof.
  intros Hu.
  assert (S : forall k ps src, R k ps -> bytes_ok src -> zlen src <= max_string_length -> exists k', c_update upd k src 0 (zlen src) = (k', Ret tt) /\ R k' (ps ++ [src])).
  { intros k ps src HR Hb Hl. unfold c_update.
    assert (in_range src 0 (zlen src) = true) as -> by (apply in_range_true; pose proof (zlen_nonneg src); lia).
    rewrite sub_0_all by reflexivity. destruct (Hu k ps src HR Hb Hl) as (k' & -> & HR'). exists k'. split; [reflexivity|assumption]. }
  assert (One : forall k ps o, R k ps -> hop_valid o -> exists k', h_step (c_hash K size upd fin wipe) k o = (k', Ret tt) /\ R k' (ps ++ [hop_bytes o])).
  { intros k ps o HR Hv. destruct o as [src ofs len|s|c|n]; cbn [h_step hop_bytes c_hash h_add_substring h_add_string h_add_char h_add_byte] in *.
    - destruct Hv as (Hb & Hl & Hr). pose proof (proj1 (in_range_true _ _ _) Hr).
      destruct ((ofs <? 0) || (len <? 0) || (ofs >? zlen src - len)) eqn:E; [lia|]. unfold c_update. rewrite Hr.
      destruct (Hu k ps (sub src ofs len) HR Hb) as (k' & -> & HR').
      { rewrite zlen_sub by lia. lia. }
      exists k'. split; [reflexivity|assumption].
    - destruct Hv. apply S; assumption.
    - apply S; [assumption|repeat constructor; apply Hv|rewrite zlen_one; unfold max_string_length; lia].
    - apply S; [assumption|repeat constructor; apply Z.mod_pos_bound; lia|rewrite zlen_one; unfold max_string_length; lia]. }
  induction ops as [|o ops IH]; intros k ps Hv HR.
  - exists k. split; [reflexivity|]. cbn [map]. rewrite app_nil_r. assumption.
  - apply Forall_cons_iff in Hv as (Hv1 & Hv2). destruct (One k ps o HR Hv1) as (k1 & E & HR1). cbn [h_run map]. rewrite E. cbn [bind].
    destruct (IH k1 _ Hv2 HR1) as (k2 & E2 & HR2). exists k2. split; [exact E2|]. rewrite <- app_assoc in HR2. exact HR2.
Qed.

Lemma taken_ok U d : bytes_ok d -> bytes_ok (taken U d).
Proof. intros H. unfold taken. apply Forall_firstn. assumption. Qed.
Lemma taken_le U d : zlen (taken U d) <= zlen d.
Proof. unfold taken. rewrite zlen_firstn. lia. Qed.

(* the update sees the string cut to U bits of length *)
Lemma answers_taken K size upd' upd fin' fin wipe D R0 U k0 : 0 <= U ->
  himpl (fun _ => True) (c_hash K size upd fin wipe) (fun m => Ret (D m)) R0 ->
  (forall k d, upd' k d = upd k (taken U d)) -> (forall k, snd (fin' k) = snd (fin k)) -> R0 k0 [] ->
  forall ops, Forall hop_valid ops -> answers (HObj (c_hash K size upd' fin' wipe) k0) ops (D (taken_all U ops)).
Proof.
  intros HU I Hu Hf H0 ops Hv.
  destruct (run_pieces K size upd' fin' wipe (fun k ps => R0 k (concat (map (taken U) ps)))) with (ops := ops) (k := k0) (ps := @nil bytes) as (k' & E & HR); try assumption.
  - intros k ps d HR Hb Hl. rewrite Hu.
    destruct (hi_op _ _ _ _ I k _ (HString (taken U d)) HR) as (s' & E & HR').
    { split; [apply taken_ok; assumption|]. pose proof (taken_le U d). lia. } { exact Logic.I. }
    cbn [h_step c_hash h_add_string hop_bytes] in E, HR'. unfold c_update in E. destruct (in_range (taken U d) 0 (zlen (taken U d))); [|discriminate E].
    rewrite sub_0_all in E by reflexivity. destruct (upd k (taken U d)) as [k'| | |]; try discriminate E. exists k'. split; [reflexivity|].
    apply (f_equal fst) in E. cbn [fst] in E. subst s'. rewrite map_app, concat_app. cbn [map concat]. rewrite app_nil_r. exact HR'.
  - unfold answers. cbn [ho_class ho_st]. rewrite E. cbn [fst snd]. split; [reflexivity|]. cbn [c_hash h_result]. rewrite Hf.
    pose proof (hi_res _ _ _ _ I k' _ HR Logic.I) as Hr. cbn [c_hash h_result] in Hr. cbn [app] in Hr. rewrite map_map in Hr. exact Hr.
Qed.

(* ---- SHA-1, SHA-224, SHA-256, RIPEMD-160, SHA-3, Keccak ---- *)
Lemma sha_length_same e n hi lo : 0 < n -> sha_length_on e n hi lo = enc_length_be n hi lo.
Proof. intros H. unfold sha_length_on, enc_length_be. apply sha_store_on. assumption. Qed.
Lemma sha_output_same e n words st : 0 < n -> sha_output_on e n words st = copy_and_swap n (store_words n (firstn words st)).
Proof. intros H. unfold sha_output_on. apply sha_store_on. assumption. Qed.
Lemma rmd_length_same e n hi lo : 0 < n -> rmd_length_on e n hi lo = enc_length_le n hi lo.
Proof. intros H. unfold rmd_length_on, enc_length_le. apply rmd_store_on. assumption. Qed.
Lemma rmd_output_same e st : rmd_output_on e st = store_words 4 (firstn 5 st).
Proof. unfold rmd_output_on. apply rmd_store_on. lia. Qed.

Lemma sha1_final_same e k : md_final 64 32 (sha1_transform_on e) (sha_length_on e 4) (sha_output_on e 4 5) k = sha1_final k.
Proof.
  unfold sha1_final. apply (md_final_ext 64 32 (sha1_transform_on e) sha1_transform (sha1_transform_same e) (sha_length_on e 4) (enc_length_be 4)
    (sha_output_on e 4 5) (fun st => copy_and_swap 4 (store_words 4 (firstn 5 st))) k); intros; [apply sha_length_same; lia|apply sha_output_same; lia].
Qed.
Lemma sha256_final_same e w k : md_final 64 32 (sha256_transform_on e) (sha_length_on e 4) (sha_output_on e 4 w) k = sha256_final w k.
Proof.
  unfold sha256_final. apply (md_final_ext 64 32 (sha256_transform_on e) sha256_transform (sha256_transform_same e) (sha_length_on e 4) (enc_length_be 4)
    (sha_output_on e 4 w) (sha2_output 32 w) k); intros; [apply sha_length_same; lia|apply sha_output_same; lia].
Qed.
Lemma sha512_final_same e w k : md_final 128 64 (sha512_transform_on e) (sha_length_on e 8) (sha_output_on e 8 w) k = sha512_final w k.
Proof.
  unfold sha512_final. apply (md_final_ext 128 64 (sha512_transform_on e) sha512_transform (sha512_transform_same e) (sha_length_on e 8) (enc_length_be 8)
    (sha_output_on e 8 w) (sha2_output 64 w) k); intros; [apply sha_length_same; lia|apply sha_output_same; lia].
Qed.
Lemma rmd_final_same e k : md_final 64 32 (rmd_compress_on e) (rmd_length_on e 4) (rmd_output_on e) k = rmd_final k.
Proof.
  unfold rmd_final. apply (md_final_ext 64 32 (rmd_compress_on e) rmd_compress (rmd_compress_same e) (rmd_length_on e 4) (enc_length_le 4)
    (rmd_output_on e) (fun st => store_words 4 (firstn 5 st)) k); intros; [apply rmd_length_same; lia|apply rmd_output_same].
Qed.
Opaque sha1_transform sha256_transform sha512_transform rmd_compress sha1_transform_on sha256_transform_on sha512_transform_on rmd_compress_on.

Lemma sha3_init_R fresh sz : (forall n, 0 <= n -> zlen (fresh n) = n) -> sz = 224 \/ sz = 256 \/ sz = 384 \/ sz = 512 -> sha3_R sz (Some (SHA3_init sz (fresh 144))) [].
Proof.
  intros Hf Hsz. exists (SHA3_init sz (fresh 144)). split; [reflexivity|]. split; [constructor|]. exists [], [], (fresh 144).
  cbn [SHA3_init k_state k_num k_buf k_rsiz k_hsiz concat app fold_left].
  assert (0 < 200 - 2 * (sz / 8)) by (destruct Hsz as [-> | [-> | [-> | ->]]]; vm_compute; reflexivity).
  splits; try reflexivity; try assumption; try (constructor; fail).
  - split; [reflexivity|]. apply Forall_forall. intros x Hx. apply repeat_spec in Hx. subst x. unfold word_ok. lia.
  - apply Hf. lia.
Qed.

Lemma machine_taken p fresh o d : platform_ok p -> (forall n, 0 <= n -> zlen (fresh n) = n) -> machine_hash p fresh o d ->
  forall ops, Forall hop_valid ops -> answers o ops (d (taken_all (p_long p) ops)).
Proof.
  intros Hp Hf Ho. destruct p as [e U]. unfold platform_ok in Hp. cbn [p_long] in *. assert (HU : 0 <= U) by lia.
  assert (HW : 32 = 32 /\ (U = 32 \/ U = 64) \/ 32 = 64 /\ U = 64) by (left; split; [reflexivity|assumption]).
  destruct Ho as [ | | | |sz Hsz|sz Hsz].
  - apply (answers_taken _ _ _ sha1_add_data _ sha1_final md_wipe sha1 sha1_R U); [assumption|exact sha1_himpl| | |apply sha1_init; assumption].
    + intros k m. apply add_data_on; [exact (sha1_transform_same e)|assumption].
    + intros k. f_equal. apply sha1_final_same.
  - apply (answers_taken _ _ _ sha256_add_data _ (sha256_final 7) md_wipe sha224 (sha256_R (sha256_iv 224)) U); [assumption|exact sha224_himpl| | |apply sha256_init; [assumption|exact ok8_iv224]].
    + intros k m. apply add_data_on; [exact (sha256_transform_same e)|assumption].
    + intros k. f_equal. apply sha256_final_same.
  - apply (answers_taken _ _ _ sha256_add_data _ (sha256_final 8) md_wipe sha256 (sha256_R (sha256_iv 256)) U); [assumption|exact sha256_himpl| | |apply sha256_init; [assumption|exact ok8_iv256]].
    + intros k m. apply add_data_on; [exact (sha256_transform_same e)|assumption].
    + intros k. f_equal. apply sha256_final_same.
  - apply (answers_taken _ _ _ rmd_add_data _ rmd_final md_wipe ripemd160 rmd_R U); [assumption|exact rmd_himpl| | |apply rmd_init; assumption].
    + intros k m. apply add_data_on; [exact (rmd_compress_same e)|assumption].
    + intros k. f_equal. apply rmd_final_same.
  - apply (answers_taken _ _ _ sha3_upd _ (sha3_fin true) (fun _ => None) (sha3_spec sz) (sha3_R sz) U); [assumption|exact (sha3_himpl sz true Hsz)| | |apply sha3_init_R; assumption]; reflexivity.
  - apply (answers_taken _ _ _ sha3_upd _ (sha3_fin false) (fun _ => None) (keccak_spec sz) (sha3_R sz) U); [assumption|exact (sha3_himpl sz false Hsz)| | |apply sha3_init_R; assumption]; reflexivity.
Qed.

(* ---- SHA-384 and SHA-512 ---- *)
Definition with_len (hi lo : Z) (r : out md_ctx) : out md_ctx :=
  olet c := r in Ret (MD (md_state c) hi lo (md_num c) (md_buf c)).
Lemma add_data_len U B W f' f : (forall st b, f' st b = f st b) -> forall c c0 d,
  md_state c = md_state c0 -> md_num c = md_num c0 -> md_buf c = md_buf c0 ->
  let l := md_add_length_on U W (md_hi c) (md_lo c) (zlen d mod 2 ^ U) in
  md_add_data_on U B W f' c d = with_len (fst l) (snd l) (md_add_data B W f c0 (taken U d)).
Proof.
  intros Hf c c0 d E1 E2 E3. cbn zeta. unfold md_add_data_on, md_add_data. rewrite zlen_taken. fold (taken U d).
  destruct (md_add_length_on U W (md_hi c) (md_lo c) (zlen d mod 2 ^ U)) as [hi lo]. cbn [fst snd].
  destruct (md_add_length W (md_hi c0) (md_lo c0) (zlen d mod 2 ^ U)) as [hi0 lo0]. rewrite E1, E2, E3.
  destruct (negb (md_num c0 =? 0)); [destruct (zlen d mod 2 ^ U <? B - md_num c0)|].
  - destruct (c_memcpy (md_buf c0) (md_num c0) (taken U d)); reflexivity.
  - destruct (c_memcpy (md_buf c0) (md_num c0) (firstn (Z.to_nat (B - md_num c0)) (taken U d))) as [buf| | |]; cbn [obind with_len]; try reflexivity.
    rewrite (md_blocks_ext B f' f Hf), Hf. destruct (md_blocks B f _ _ _ _) as [((st & num) & buf')| | |]; reflexivity.
  - rewrite (md_blocks_ext B f' f Hf). destruct (md_blocks B f _ _ _ _) as [((st & num) & buf')| | |]; reflexivity.
Qed.
Lemma finish_len B W f enc c c0 :
  md_state c = md_state c0 -> md_num c = md_num c0 -> md_buf c = md_buf c0 ->
  md_finish B W f enc c = with_len (md_hi c) (md_lo c) (md_finish B W f (fun _ _ => enc (md_hi c) (md_lo c)) c0).
Proof.
  intros E1 E2 E3. unfold md_finish. rewrite E1, E2, E3.
  destruct (c_memcpy (md_buf c0) (md_num c0) [128]) as [buf| | |]; cbn [obind with_len]; try reflexivity.
  destruct (md_num c0 + 1 >? B - 2 * (W / 8)).
  - destruct (c_memset0 buf (md_num c0 + 1) (B - (md_num c0 + 1))) as [buf1| | |]; cbn [obind with_len]; try reflexivity.
    destruct (c_memset0 buf1 0 (B - 2 * (W / 8) - 0)) as [buf2| | |]; cbn [obind with_len]; try reflexivity.
    destruct (c_memcpy buf2 (B - 2 * (W / 8)) (enc (md_hi c) (md_lo c))) as [buf3| | |]; reflexivity.
  - cbn [obind]. destruct (c_memset0 buf (md_num c0 + 1) (B - 2 * (W / 8) - (md_num c0 + 1))) as [buf2| | |]; cbn [obind with_len]; try reflexivity.
    destruct (c_memcpy buf2 (B - 2 * (W / 8)) (enc (md_hi c) (md_lo c))) as [buf3| | |]; reflexivity.
Qed.

Definition count (U : Z) (ps : list bytes) : Z := fold_right (fun s n => (8 * zlen (taken U s)) mod 2 ^ U + n) 0 ps.
Lemma count_ops U ops : count U (map hop_bytes ops) = bits_counted U ops.
Proof. induction ops as [|o ops IH]; [reflexivity|]. cbn [map count fold_right bits_counted]. fold (count U (map hop_bytes ops)). rewrite IH. reflexivity. Qed.
Lemma count_snoc U ps d : count U (ps ++ [d]) = count U ps + (8 * zlen (taken U d)) mod 2 ^ U.
Proof. induction ps as [|s ps IH]; [cbn; lia|]. cbn [app count fold_right]. fold (count U (ps ++ [d])). fold (count U ps). lia. Qed.

Lemma add_length_32 hi lo n t : word_ok 64 hi -> word_ok 64 lo -> hi * 2 ^ 64 + lo = n mod (2 ^ 64 * 2 ^ 64) -> 0 <= t < 2 ^ 32 ->
  let l := md_add_length_on 32 64 hi lo t in
  word_ok 64 (fst l) /\ word_ok 64 (snd l) /\ fst l * 2 ^ 64 + snd l = (n + (8 * t) mod 2 ^ 32) mod (2 ^ 64 * 2 ^ 64).
Proof.
  intros Hh Hl Hn Ht. cbn zeta. unfold md_add_length_on. cbn [fst snd]. unfold word_ok in *.
  replace (c_shl 32 t 3) with ((8 * t) mod 2 ^ 32) by (unfold c_shl; f_equal; rewrite ?Z.shiftl_mul_pow2 by lia; lia).
  assert (Hx : 0 <= (8 * t) mod 2 ^ 32 < 2 ^ 32) by (apply Z.mod_pos_bound; lia).
  set (x := (8 * t) mod 2 ^ 32) in *. rewrite (Z.mod_small x (2 ^ 64)) by lia.
  replace (c_shr t (64 - 3)) with 0.
  2:{ unfold c_shr. rewrite ?Z.shiftr_div_pow2 by lia. symmetry. apply Z.div_small. lia. }
  rewrite Z.mod_0_l by lia.
  rewrite <- Zplus_mod_idemp_l, <- Hn. unfold c_add. rewrite Z.add_0_r.
  pose proof (Z.div_mod (lo + x) (2 ^ 64) ltac:(lia)) as D. pose proof (Z.mod_pos_bound (lo + x) (2 ^ 64) ltac:(lia)).
  assert (Hq : (lo + x) / 2 ^ 64 = 0 \/ (lo + x) / 2 ^ 64 = 1).
  { pose proof (Z.div_le_mono (lo + x) (2 ^ 64 + 2 ^ 32) (2 ^ 64) ltac:(lia) ltac:(lia)). pose proof (Z.div_pos (lo + x) (2 ^ 64)).
    change ((2 ^ 64 + 2 ^ 32) / 2 ^ 64) with 1 in *. lia. }
  destruct Hq as [Hq|Hq]; rewrite Hq in D.
  - replace ((lo + x) mod 2 ^ 64 <? lo) with false by lia. rewrite (Z.mod_small hi) by lia.
    split; [lia|split; [lia|]]. rewrite Z.mod_small by lia. lia.
  - replace ((lo + x) mod 2 ^ 64 <? lo) with true by lia. rewrite Zmod_mod. pose proof (Z.mod_pos_bound (hi + 1) (2 ^ 64) ltac:(lia)).
    split; [lia|split; [lia|]].
    replace (hi * 2 ^ 64 + lo + x) with ((hi + 1) * 2 ^ 64 + (lo + x) mod 2 ^ 64) by lia. rewrite mod_square by lia. reflexivity.
Qed.

Lemma sha512_len_answers e iv size words ops fresh : (forall n, 0 <= n -> zlen (fresh n) = n) -> ok8 64 iv -> Forall hop_valid ops ->
  answers (HObj (c_hash md_ctx size (sha512_add_data_on (Platform e 32)) (sha512_final_on (Platform e 32) words) md_wipe) (md_init iv (fresh 128)))
    ops (sha2_with_length iv (words * 8) (bits_counted 32 ops) (taken_all 32 ops)).
Proof.
  intros Hf Hiv Hv. set (R0 := sha512_R iv).
  set (R := fun (k : md_ctx) (ps : list bytes) => exists k0, R0 k0 (concat (map (taken 32) ps)) /\ md_state k = md_state k0 /\ md_num k = md_num k0 /\ md_buf k = md_buf k0 /\
    word_ok 64 (md_hi k) /\ word_ok 64 (md_lo k) /\ md_hi k * 2 ^ 64 + md_lo k = count 32 ps mod (2 ^ 64 * 2 ^ 64)).
  destruct (run_pieces md_ctx size (sha512_add_data_on (Platform e 32)) (sha512_final_on (Platform e 32) words) md_wipe R) with (ops := ops) (k := md_init iv (fresh 128)) (ps := @nil bytes) as (k & E & HR); try assumption.
  - intros k ps d (k0 & H0 & E1 & E2 & E3 & Hh & Hl & Hn) Hb _.
    assert (Hb' : bytes_ok (taken 32 d)) by (apply taken_ok; assumption).
    destruct (md_add_data_ok 128 64 sha512_transform (sha2_compress p512) (ok8 64) (enc_length_be 8) to_be) with (iv := iv) (c := k0) (msg := concat (map (taken 32) ps)) (data := taken 32 d) as (k0' & Ek & Hk0'); try assumption; try lia.
    + exact sha512_transform_ok.
    + intros hi lo _ Hlo. exact (enc_length_be_ok 8 hi lo ltac:(lia) Hlo).
    + intros x. apply (enc_be_mod 8 x). lia.
    + intros x. rewrite zlen_to_be. lia.
    + intros x. apply bytes_ok_to_be.
    + unfold sha512_add_data_on. cbn [p_long p_order]. rewrite (add_data_len 32 128 64 _ sha512_transform (sha512_transform_same e) k k0 d E1 E2 E3). rewrite Ek.
      cbn [with_len obind]. eexists. split; [reflexivity|]. exists k0'. rewrite map_app, concat_app. cbn [map concat]. rewrite app_nil_r.
      cbn [md_state md_num md_buf md_hi md_lo]. split; [exact Hk0'|]. split; [reflexivity|]. split; [reflexivity|]. split; [reflexivity|].
      rewrite count_snoc, zlen_taken. apply add_length_32; try assumption. apply Z.mod_pos_bound. lia.
  - exists (md_init iv (fresh 128)). split; [apply sha512_init; assumption|]. split; [reflexivity|]. split; [reflexivity|]. split; [reflexivity|].
    cbn [md_init md_hi md_lo count fold_right]. unfold word_ok. split; [lia|]. split; [lia|]. reflexivity.
  - unfold answers. cbn [ho_class ho_st]. rewrite E. cbn [fst snd c_hash h_result]. split; [reflexivity|].
    cbn [app] in HR. destruct HR as (k0 & H0 & E1 & E2 & E3 & Hh & Hl & Hn). rewrite count_ops in Hn. rewrite map_map in H0. fold (taken_all 32 ops) in H0.
    unfold sha512_final_on. cbn [p_order]. rewrite sha512_final_same.
    unfold sha512_final, md_final. rewrite (finish_len _ _ _ _ k k0 E1 E2 E3).
    assert (Ee : enc_length_be 8 (md_hi k) (md_lo k) = to_be 16 (bits_counted 32 ops)).
    { rewrite enc_length_be_ok by (lia || exact Hl). change (8 * 8) with 64. rewrite Hn. apply (enc_be_mod 8). lia. }
    rewrite Ee.
    destruct (md_finish_ok 128 64 sha512_transform (sha2_compress p512) (ok8 64) (fun _ _ => to_be 16 (bits_counted 32 ops)) (fun _ _ => to_be 16 (bits_counted 32 ops))) with (iv := iv) (c := k0) (msg := taken_all 32 ops) as (k1 & Ek & Es & _); try assumption; try lia.
    + exact sha512_transform_ok.
    + reflexivity.
    + reflexivity.
    + intros _. rewrite zlen_to_be. reflexivity.
    + intros _. apply bytes_ok_to_be.
    + rewrite Ek. cbn [with_len obind md_state snd]. rewrite sha2_output_ok by (vm_compute; reflexivity). rewrite Es. reflexivity.
Qed.
