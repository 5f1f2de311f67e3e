(* The chaining-mode classes compute the block functions of SpecModes. *)
From Verif Require Import Prelude PreludeFacts BytesNum SpecBlock SpecModes SpecModesFacts
  BlockModel BlockCipher Padding.
Ltac Zify.zify_post_hook ::= Z.div_mod_to_equations.

(* ---- increment_counter ---- *)
Lemma sub_eq_firstn {A} (l : list A) n : sub l 0 n = firstn (Z.to_nat n) l.
Proof. reflexivity. Qed.

Lemma splice_1_eq (l : bytes) i x : 0 <= i < zlen l ->
  splice l i [x] = sub l 0 i ++ x :: sub l (i + 1) (zlen l - (i + 1)).
Proof.
  intros H. unfold splice, sub, zlen in *. cbn [skipn app Z.to_nat length].
  do 2 f_equal. rewrite Nat.add_comm. change (1 + Z.to_nat i)%nat with (S (Z.to_nat i)).
  replace (Z.to_nat (i + 1)) with (S (Z.to_nat i)) by lia.
  symmetry. apply firstn_all2. rewrite skipn_length. lia.
Qed.

Lemma increment_counter_loop_ok w : forall c lim pos, 0 <= lim -> lim + Z.of_nat w = pos + 1 ->
  pos < zlen c -> bytes_ok c ->
  forall fuel, (w < fuel)%nat ->
  increment_counter_loop fuel c lim pos =
  Ret (sub c 0 lim ++ to_be w (be (sub c lim (Z.of_nat w)) + 1) ++ sub c (pos + 1) (zlen c - (pos + 1))).
Proof.
  induction w as [|w IH]; intros c lim pos Hlim Hw Hpos Hok fuel Hf; (destruct fuel as [|fuel]; [lia|]);
    cbn [increment_counter_loop].
  - replace (pos >=? lim) with false by lia. f_equal. cbn [to_be to_le rev app].
    rewrite <- (sub_0_all c (zlen c) eq_refl) at 1.
    replace (zlen c) with (lim + (zlen c - (pos + 1))) at 1 by lia.
    rewrite sub_app_split by lia. f_equal. f_equal. lia.
  - replace (pos >=? lim) with true by lia. rewrite bytes_get_ok by lia.
    set (x := nthZ c pos).
    assert (Hx : byte_ok x) by (apply nthZ_byte; exact Hok). unfold byte_ok in Hx.
    rewrite bytes_set_ok by lia.
    assert (Ebe : be (sub c lim (Z.of_nat (S w))) = be (sub c lim (Z.of_nat w)) * 256 + x).
    { replace (Z.of_nat (S w)) with (Z.of_nat w + 1) by lia. rewrite sub_snoc by lia.
      rewrite be_snoc. unfold x. do 2 f_equal. lia. }
    rewrite Ebe, to_be_S.
    assert (Esp : forall y, splice c pos [y] = sub c 0 lim ++ sub c lim (Z.of_nat w) ++ y :: sub c (pos + 1) (zlen c - (pos + 1))).
    { intros y. rewrite splice_1_eq by lia. rewrite app_assoc. f_equal.
      replace pos with (lim + Z.of_nat w) at 1 by lia. rewrite sub_app_split by lia. reflexivity. }
    destruct (1 + x =? 256) eqn:E.
    + assert (x = 255) by lia.
      assert (Hz : zlen (splice c pos [(1 + x) mod 256]) = zlen c) by (rewrite zlen_splice; rewrite ?zlen_one; lia).
      rewrite IH; try lia.
      2:{ apply bytes_ok_splice; [exact Hok|]. constructor; [unfold byte_ok; lia|constructor]. }
      f_equal. rewrite Hz.
      rewrite !sub_splice_before by (rewrite ?zlen_one; lia). f_equal.
      replace ((be (sub c lim (Z.of_nat w)) * 256 + x + 1) / 256) with (be (sub c lim (Z.of_nat w)) + 1) by lia.
      rewrite <- app_assoc. f_equal.
      replace (pos - 1 + 1) with pos by lia.
      replace (zlen c - pos) with (1 + (zlen c - (pos + 1))) by lia.
      rewrite sub_app_split by lia.
      rewrite sub_splice_same by (rewrite ?zlen_one; lia).
      rewrite sub_splice_after by (rewrite ?zlen_one; lia).
      cbn [app]. f_equal. lia.
    + f_equal. rewrite Esp. f_equal.
      replace ((be (sub c lim (Z.of_nat w)) * 256 + x + 1) / 256) with (be (sub c lim (Z.of_nat w))) by lia.
      assert (L : length (sub c lim (Z.of_nat w)) = w) by (rewrite length_sub; lia).
      rewrite <- L at 2. rewrite to_be_be by (apply bytes_ok_sub, Hok).
      rewrite <- app_assoc. cbn [app]. do 2 f_equal. lia.
Qed.

Lemma increment_counter_ok w c : (w <= length c)%nat -> bytes_ok c ->
  increment_counter c (zlen c - Z.of_nat w) (zlen c - 1) = Ret (ctr_block w c 1).
Proof.
  intros Hw Hok. unfold increment_counter.
  rewrite (increment_counter_loop_ok w) by (unfold zlen in *; lia || assumption).
  f_equal. unfold ctr_block.
  assert (Z.to_nat (zlen c - Z.of_nat w) = (length c - w)%nat) as E by (unfold zlen; lia).
  unfold sub at 1. cbn [Z.to_nat skipn]. rewrite E. f_equal.
  replace (zlen c - (zlen c - 1 + 1)) with 0 by lia. rewrite sub_0_len, app_nil_r.
  do 3 f_equal. unfold sub. rewrite E, Nat2Z.id. apply firstn_all2. rewrite skipn_length. lia.
Qed.

Section Modes.
Variable fresh : Z -> bytes.
Hypothesis fresh_len : forall n, 0 <= n -> zlen (fresh n) = n.
Variables (C : block_cipher) (E : bytes -> bytes) (good : bc_st C -> Prop).
Let bs := bc_blocksize C.
Hypothesis bs_pos : 0 < bs.
Hypothesis HC : bc_implements C (ecb_fn E) (fun s _ => good s).

Lemma call_ok s src so dst d :
  good s -> in_range src so bs = true -> in_range dst d bs = true -> bytes_ok (sub src so bs) ->
  zlen (E (sub src so bs)) = bs /\ bytes_ok (E (sub src so bs)) /\
  exists s', bc_transform C s src so dst d = ((s', splice dst d (E (sub src so bs))), Ret tt) /\ good s'.
Proof.
  intros Hg H1 H2 Hb. destruct (HC s tt src so dst d Hg H1 H2 Hb) as (s' & dst' & Ht & Hg' & Hl & Hd).
  cbn [ecb_fn bf_step fst snd] in *. destruct (Hd _ eq_refl) as (-> & Hlb & Hok).
  repeat split; try assumption. exists s'. split; assumption.
Qed.

Definition mode_R (s : mode_st C) (iv : bytes) : Prop :=
  ms_iv s = iv /\ zlen iv = bs /\ bytes_ok iv /\ zlen (ms_tmp s) = bs /\ good (ms_c s).

Lemma mode_init_ok max iv c0 : good c0 ->
  (forall v, iv = Some v -> bytes_ok v) ->
  match iv with Some v => zlen v = bs | None => True end ->
  exists s, mode_init fresh C max iv c0 = Ret s /\ ms_max s = max /\
    mode_R s (match iv with Some v => v | None => zeros bs end).
Proof.
  intros Hg Hok Hl. unfold mode_init, make_initial_iv. fold bs.
  destruct iv as [v|].
  - replace (zlen v =? bs) with true by lia. cbn [obind].
    eexists; split; [reflexivity|]. split; [reflexivity|]. unfold mode_R. cbn.
    repeat split; auto. apply fresh_len. lia.
  - cbn [obind]. eexists; split; [reflexivity|]. split; [reflexivity|]. unfold mode_R. cbn.
    repeat split; auto; [apply zlen_zeros; lia|apply bytes_ok_zeros|apply fresh_len; lia].
Qed.

Lemma xor_bytes_ok src so dst d n : 0 <= n -> 0 <= so -> so + n <= zlen src -> 0 <= d -> d + n <= zlen dst ->
  xor_bytes src so dst d n = Ret (splice dst d (xorb (sub src so n) (sub dst d n))).
Proof.
  intros. unfold xor_bytes. replace (in_range src so n) with true by (symmetry; apply in_range_true; lia).
  replace (in_range dst d n) with true by (symmetry; apply in_range_true; lia). reflexivity.
Qed.

Lemma splice_splice_same {A} (d : list A) o a b : 0 <= o -> o + zlen a <= zlen d -> zlen a = zlen b ->
  splice (splice d o a) o b = splice d o b.
Proof.
  intros Ho Hl Hab. unfold splice at 1 3.
  assert (L : length a = length b) by (unfold zlen in Hab; lia).
  assert (E1 : firstn (Z.to_nat o) (splice d o a) = firstn (Z.to_nat o) d).
  { change (sub (splice d o a) 0 o = sub d 0 o). apply sub_splice_before; lia. }
  rewrite E1. do 2 f_equal.
  replace (Z.to_nat o + length b)%nat with (Z.to_nat (o + zlen b)) by (unfold zlen in *; lia).
  apply skipn_splice_after; lia.
Qed.

Ltac ir := match goal with H : in_range _ _ _ = true |- _ => apply in_range_true in H end.
Ltac solve_ir := apply in_range_true; lia.

Lemma cbc_encrypt_implements : bc_implements (cbc_encrypt C) (cbc_enc_fn E) mode_R.
Proof.
  intros s iv src so dst d HR H1 H2 Hb. cbn zeta. cbn [cbc_encrypt bc_blocksize bc_transform] in *.
  fold bs in H1, H2, Hb |- *. destruct HR as (Hiv & Hl & Hok & Ht & Hg).
  assert (Hl' : zlen (ms_iv s) = bs) by (rewrite Hiv; exact Hl). repeat ir. cbn [fst snd].
  rewrite xor_bytes_ok by lia. cbn [to_iv bind fst snd]. rewrite Hiv.
  rewrite (sub_0_all iv bs) by lia.
  set (x := xorb (sub src so bs) iv).
  assert (Hx : zlen x = bs) by (unfold x; rewrite zlen_xorb; rewrite zlen_sub; lia).
  assert (Hxok : bytes_ok x) by (apply bytes_ok_xorb; assumption).
  rewrite splice_all by lia.
  unfold c_transform_dst, set_iv. cbn [fst snd ms_iv ms_tmp ms_max ms_c].
  destruct (call_ok (ms_c s) x 0 dst d Hg) as (He1 & He2 & s' & Hc & Hg');
    [solve_ir|solve_ir|rewrite sub_0_all by lia; exact Hxok|].
  rewrite sub_0_all in * by lia.
  rewrite Hc. cbn [fst snd bind]. unfold set_c. cbn [ms_iv ms_tmp ms_max ms_c].
  rewrite blit_ok by (rewrite ?zlen_splice; lia). cbn [to_iv fst snd set_iv ms_iv ms_tmp ms_max ms_c].
  rewrite sub_splice_same by lia. rewrite splice_all by lia.
  cbn [cbc_enc_fn bf_step fst snd]. fold x.
  do 2 eexists. split; [reflexivity|]. split.
  { unfold mode_R. cbn. repeat split; assumption. }
  split; [rewrite zlen_splice; lia|]. intros blk Hblk. injection Hblk as <-.
  repeat split; assumption.
Qed.

Lemma cbc_decrypt_implements : bc_implements (cbc_decrypt C) (cbc_dec_fn E) mode_R.
Proof.
  intros s iv src so dst d HR H1 H2 Hb. cbn zeta. cbn [cbc_decrypt bc_blocksize bc_transform] in *.
  fold bs in H1, H2, Hb |- *. destruct HR as (Hiv & Hl & Hok & Ht & Hg).
  assert (Hl' : zlen (ms_iv s) = bs) by (rewrite Hiv; exact Hl).
  repeat ir. cbn [fst snd].
  rewrite blit_ok by lia. cbn [to_tmp bind fst snd].
  assert (Hz : zlen (sub src so bs) = bs) by (apply zlen_sub; lia).
  rewrite splice_all by lia.
  unfold c_transform_dst, set_tmp. cbn [fst snd ms_iv ms_tmp ms_max ms_c].
  destruct (call_ok (ms_c s) src so dst d Hg) as (He1 & He2 & s' & Hc & Hg');
    [solve_ir|solve_ir|exact Hb|].
  rewrite Hc. cbn [fst snd bind]. unfold set_c. cbn [ms_iv ms_tmp ms_max ms_c].
  rewrite Hiv.
  rewrite xor_bytes_ok by (rewrite ?zlen_splice; lia).
  rewrite (sub_0_all iv bs) by lia. rewrite sub_splice_same by lia.
  cbn [to_dst bind fst snd set_iv ms_iv ms_tmp ms_max ms_c].
  rewrite blit_ok by lia. rewrite sub_0_all by lia. rewrite splice_all by lia.
  cbn [to_iv fst snd set_iv ms_iv ms_tmp ms_max ms_c cbc_dec_fn bf_step].
  assert (Hx : zlen (xorb iv (E (sub src so bs))) = bs) by (rewrite zlen_xorb; lia).
  rewrite splice_splice_same by lia.
  do 2 eexists. split; [reflexivity|]. split.
  { unfold mode_R. cbn. repeat split; assumption. }
  split; [rewrite zlen_splice; lia|]. intros blk Hblk. injection Hblk as <-.
  rewrite xorb_comm in *. repeat split; try assumption. apply bytes_ok_xorb; assumption.
Qed.

(* cipher#transform iv 0 out 0 *)
Lemma iv_tmp_ok s iv (dst : bytes) : mode_R s iv ->
  zlen (E iv) = bs /\ bytes_ok (E iv) /\
  exists c', c_transform_iv_tmp C (s, dst) = ((MS iv (E iv) (ms_max s) c', dst), Ret tt) /\ good c'.
Proof.
  intros (Hiv & Hl & Hok & Ht & Hg).
  assert (Hl' : zlen (ms_iv s) = bs) by (rewrite Hiv; exact Hl).
  destruct (call_ok (ms_c s) (ms_iv s) 0 (ms_tmp s) 0 Hg) as (He1 & He2 & s' & Hc & Hg');
    [solve_ir|solve_ir|rewrite sub_0_all by lia; rewrite Hiv; exact Hok|].
  rewrite Hiv in *. rewrite sub_0_all in * by lia.
  split; [exact He1|]. split; [exact He2|]. exists s'.
  split; [|exact Hg']. unfold c_transform_iv_tmp. cbn [fst snd]. rewrite Hiv, Hc. cbn [fst snd].
  rewrite splice_all by lia. unfold set_tmp, set_c. cbn [ms_iv ms_tmp ms_max ms_c]. rewrite Hiv.
  reflexivity.
Qed.

Section Chunk.
Variable n : nat.
Let chunk := Z.of_nat n.
Hypothesis chunk_range : 0 < chunk <= bs.

Lemma firstn_sub_0 {A} (l : list A) : sub l 0 chunk = firstn n l.
Proof. unfold sub, chunk. rewrite Nat2Z.id. reflexivity. Qed.

(* the shift of the feedback register: two blits *)
Lemma shift_iv (iv c : bytes) : zlen iv = bs -> zlen c = chunk ->
  splice (splice iv 0 (sub iv chunk (bs - chunk))) (bs - chunk) c = skipn n iv ++ c.
Proof.
  intros Hl Hc.
  assert (Hz : zlen (sub iv chunk (bs - chunk)) = bs - chunk) by (apply zlen_sub; lia).
  rewrite splice_to_end by (rewrite ?zlen_splice; lia).
  f_equal. rewrite sub_splice_same by lia.
  unfold sub. replace (Z.to_nat chunk) with n by lia. apply firstn_all2.
  rewrite skipn_length. unfold zlen in *. lia.
Qed.

Lemma cfb_encrypt_implements : bc_implements (cfb_encrypt C chunk) (cfb_enc_fn E n) mode_R.
Proof.
  intros s iv src so dst d HR H1 H2 Hb. cbn zeta. cbn [cfb_encrypt bc_blocksize bc_transform] in *.
  fold bs in H1, H2, Hb |- *. destruct (iv_tmp_ok s iv dst HR) as (He1 & He2 & c' & Hc & Hg').
  destruct HR as (Hiv & Hl & Hok & Ht & Hg).
  assert (Hl' : zlen (ms_iv s) = bs) by (rewrite Hiv; exact Hl). repeat ir. cbn [fst snd].
  rewrite Hc. cbn [bind fst snd]. rewrite blit_ok by lia. cbn [to_dst bind fst snd set_iv ms_iv ms_tmp ms_max ms_c].
  assert (Hz : zlen (sub src so chunk) = chunk) by (apply zlen_sub; lia).
  rewrite xor_bytes_ok by (rewrite ?zlen_splice; lia).
  rewrite sub_splice_same by lia. cbn [to_dst bind fst snd set_iv ms_iv ms_tmp ms_max ms_c].
  rewrite firstn_sub_0.
  assert (Hf : zlen (firstn n (E iv)) = chunk) by (rewrite <- firstn_sub_0; apply zlen_sub; lia).
  set (c := xorb (firstn n (E iv)) (sub src so chunk)).
  assert (Hcz : zlen c = chunk) by (unfold c; rewrite zlen_xorb; lia).
  assert (Hcok : bytes_ok c) by (apply bytes_ok_xorb; [apply Forall_firstn|]; assumption).
  rewrite splice_splice_same by lia.
  rewrite blit_ok by lia. cbn [to_iv bind fst snd set_iv ms_iv ms_tmp ms_max ms_c].
  assert (Hz2 : zlen (sub iv chunk (bs - chunk)) = bs - chunk) by (apply zlen_sub; lia).
  rewrite blit_ok by (rewrite ?zlen_splice; lia). rewrite sub_splice_same by lia.
  cbn [to_iv fst snd set_iv ms_iv ms_tmp ms_max ms_c]. rewrite shift_iv by lia.
  cbn [cfb_enc_fn bf_step fst snd]. rewrite (xorb_comm (sub src so chunk)). fold c.
  do 2 eexists. split; [reflexivity|]. split.
  { unfold mode_R. cbn. repeat split; try assumption.
    - unfold zlen in *. rewrite app_length, skipn_length. lia.
    - apply bytes_ok_app; split; [apply Forall_skipn|]; assumption. }
  split; [rewrite zlen_splice; lia|]. intros blk Hblk. injection Hblk as <-.
  repeat split; assumption.
Qed.

Lemma cfb_decrypt_implements : bc_implements (cfb_decrypt C chunk) (cfb_dec_fn E n) mode_R.
Proof.
  intros s iv src so dst d HR H1 H2 Hb. cbn zeta. cbn [cfb_decrypt bc_blocksize bc_transform] in *.
  fold bs in H1, H2, Hb |- *. destruct (iv_tmp_ok s iv dst HR) as (He1 & He2 & c' & Hc & Hg').
  destruct HR as (Hiv & Hl & Hok & Ht & Hg).
  assert (Hl' : zlen (ms_iv s) = bs) by (rewrite Hiv; exact Hl). repeat ir. cbn [fst snd].
  rewrite Hc. cbn [bind fst snd ms_iv].
  assert (Hz : zlen (sub src so chunk) = chunk) by (apply zlen_sub; lia).
  rewrite blit_ok by lia. cbn [to_iv bind fst snd set_iv ms_iv ms_tmp ms_max ms_c].
  assert (Hz2 : zlen (sub iv chunk (bs - chunk)) = bs - chunk) by (apply zlen_sub; lia).
  rewrite blit_ok by (rewrite ?zlen_splice; lia).
  cbn [to_iv bind fst snd set_iv ms_iv ms_tmp ms_max ms_c]. rewrite shift_iv by lia.
  rewrite blit_ok by lia. cbn [to_dst bind fst snd set_iv ms_iv ms_tmp ms_max ms_c].
  rewrite xor_bytes_ok by (rewrite ?zlen_splice; lia).
  rewrite sub_splice_same by lia. cbn [to_dst bind fst snd set_iv ms_iv ms_tmp ms_max ms_c].
  rewrite firstn_sub_0.
  assert (Hf : zlen (firstn n (E iv)) = chunk) by (rewrite <- firstn_sub_0; apply zlen_sub; lia).
  set (c := xorb (firstn n (E iv)) (sub src so chunk)).
  assert (Hcz : zlen c = chunk) by (unfold c; rewrite zlen_xorb; lia).
  assert (Hcok : bytes_ok c) by (apply bytes_ok_xorb; [apply Forall_firstn|]; assumption).
  rewrite splice_splice_same by lia.
  cbn [cfb_dec_fn bf_step fst snd]. rewrite (xorb_comm (sub src so chunk)). fold c.
  do 2 eexists. split; [reflexivity|]. split.
  { unfold mode_R. cbn. repeat split; try assumption.
    - unfold zlen in *. rewrite app_length, skipn_length. lia.
    - apply bytes_ok_app; split; [apply Forall_skipn|]; assumption. }
  split; [rewrite zlen_splice; lia|]. intros blk Hblk. injection Hblk as <-.
  repeat split; assumption.
Qed.

Lemma ofb_implements : bc_implements (ofb C chunk) (ofb_fn E n) mode_R.
Proof.
  intros s iv src so dst d HR H1 H2 Hb. cbn zeta. cbn [ofb bc_blocksize bc_transform] in *.
  fold bs in H1, H2, Hb |- *. destruct HR as (Hiv & Hl & Hok & Ht & Hg).
  assert (Hl' : zlen (ms_iv s) = bs) by (rewrite Hiv; exact Hl). repeat ir. cbn [fst snd].
  destruct (call_ok (ms_c s) (ms_iv s) 0 (ms_iv s) 0 Hg) as (He1 & He2 & s' & Hc & Hg');
    [solve_ir|solve_ir|rewrite sub_0_all by lia; rewrite Hiv; exact Hok|].
  rewrite Hiv in *. rewrite sub_0_all in * by lia.
  unfold c_transform_iv_iv. cbn [fst snd]. rewrite Hiv, Hc. cbn [fst snd bind].
  rewrite splice_all by lia. unfold set_iv, set_c. cbn [ms_iv ms_tmp ms_max ms_c].
  assert (Hz : zlen (sub src so chunk) = chunk) by (apply zlen_sub; lia).
  rewrite blit_ok by lia. cbn [to_dst bind fst snd set_iv ms_iv ms_tmp ms_max ms_c].
  rewrite xor_bytes_ok by (rewrite ?zlen_splice; lia).
  rewrite sub_splice_same by lia. cbn [to_dst bind fst snd set_iv ms_iv ms_tmp ms_max ms_c].
  rewrite firstn_sub_0.
  assert (Hf : zlen (firstn n (E iv)) = chunk) by (rewrite <- firstn_sub_0; apply zlen_sub; lia).
  set (c := xorb (firstn n (E iv)) (sub src so chunk)).
  assert (Hcz : zlen c = chunk) by (unfold c; rewrite zlen_xorb; lia).
  assert (Hcok : bytes_ok c) by (apply bytes_ok_xorb; [apply Forall_firstn|]; assumption).
  rewrite splice_splice_same by lia.
  cbn [ofb_fn bf_step fst snd]. rewrite (xorb_comm (sub src so chunk)). fold c.
  do 2 eexists. split; [reflexivity|]. split.
  { unfold mode_R. cbn. repeat split; assumption. }
  split; [rewrite zlen_splice; lia|]. intros blk Hblk. injection Hblk as <-.
  repeat split; assumption.
Qed.

Definition ctr_R (s : mode_st C) (sg : bytes * Z) : Prop :=
  mode_R s (fst sg) /\ 1 <= snd sg <= 2 ^ 64 /\ ms_max s = snd sg mod 2 ^ 64.

Lemma ctr_init_R s iv : mode_R s iv -> ms_max s = ctr_max chunk -> ctr_R s (iv, ctr_limit n).
Proof.
  intros HR Hm. unfold ctr_R. cbn [fst snd]. split; [exact HR|].
  unfold ctr_max, ctr_limit, chunk in *.
  assert (B : 1 <= 256 ^ Z.of_nat (Nat.min n 8) <= 2 ^ 64).
  { change 256 with (2 ^ 8). rewrite <- Z.pow_mul_r by lia.
    split; [pose proof (Z.pow_pos_nonneg 2 (8 * Z.of_nat (Nat.min n 8))); lia|].
    apply Z.pow_le_mono_r; lia. }
  split; [exact B|]. rewrite Hm. destruct (Z.of_nat n <? 8) eqn:E1.
  - replace (Nat.min n 8) with n by lia. change 256 with (2 ^ 8).
    rewrite <- Z.pow_mul_r by lia.
    rewrite Z.mod_small. { f_equal; lia. }
    split; [apply Z.pow_nonneg; lia|]. apply Z.pow_lt_mono_r; lia.
  - replace (Nat.min n 8) with 8%nat by lia. reflexivity.
Qed.

Lemma ctr_implements : bc_implements (ctr C chunk) (ctr_fn E n) ctr_R.
Proof.
  intros s [t room] src so dst d HR H1 H2 Hb. cbn zeta. cbn [ctr bc_blocksize bc_transform] in *.
  fold bs in H1, H2, Hb |- *. destruct HR as (HR & Hroom & Hmax). cbn [fst snd] in *.
  destruct (iv_tmp_ok s t dst HR) as (He1 & He2 & c' & Hc & Hg').
  destruct HR as (Hiv & Hl & Hok & Ht & Hg).
  assert (Hl' : zlen (ms_iv s) = bs) by (rewrite Hiv; exact Hl). repeat ir. cbn [fst snd].
  rewrite Hc. cbn [bind fst snd]. rewrite blit_ok by lia. cbn [to_dst bind fst snd set_iv ms_iv ms_tmp ms_max ms_c].
  assert (Hz : zlen (sub src so bs) = bs) by (apply zlen_sub; lia).
  rewrite xor_bytes_ok by (rewrite ?zlen_splice; lia).
  rewrite sub_splice_same by lia. cbn [to_dst bind fst snd set_iv ms_iv ms_tmp ms_max ms_c].
  rewrite (sub_0_all (E t) bs) by lia.
  set (c := xorb (E t) (sub src so bs)).
  assert (Hcz : zlen c = bs) by (unfold c; rewrite zlen_xorb; lia).
  assert (Hcok : bytes_ok c) by (apply bytes_ok_xorb; assumption).
  rewrite splice_splice_same by lia.
  assert (Hn : (n <= length t)%nat) by (unfold chunk, zlen in *; lia).
  replace (bs - chunk) with (zlen t - Z.of_nat n) by (unfold chunk; lia).
  replace (bs - 1) with (zlen t - 1) by lia.
  rewrite increment_counter_ok by assumption.
  cbn [to_iv bind fst snd set_iv ms_iv ms_tmp ms_max ms_c].
  rewrite Hmax. rewrite Zminus_mod_idemp_l.
  change (bf_step (ctr_fn E n) (t, room) (sub src so bs)) with
      (if room =? 1 then ((ctr_block n t 1, room), @None bytes)
       else ((ctr_block n t 1, room - 1), Some (xorb (sub src so bs) (E t)))).
  assert (Hmr : forall m, (forall c, mode_R (MS (ctr_block n t 1) (E t) m c) (ctr_block n t 1) <-> good c)).
  { intros m c0. unfold mode_R. cbn [ms_iv ms_tmp ms_c]. rewrite zlen_ctr_block by assumption.
    split; [tauto|]. intros. repeat split; try assumption. apply bytes_ok_ctr_block; assumption. }
  destruct (room =? 1) eqn:E1.
  - assert (room = 1) by lia. subst room. change ((1 - 1) mod 2 ^ 64 =? 0) with true. cbn iota.
    cbn [fst snd]. do 2 eexists. split; [reflexivity|]. split.
    { unfold ctr_R. cbn [fst snd ms_max]. split; [apply Hmr; exact Hg'|]. split; [lia|reflexivity]. }
    split; [rewrite zlen_splice; lia|]. discriminate.
  - rewrite (Z.mod_small (room - 1)) by lia. replace (room - 1 =? 0) with false by lia.
    cbn [fst snd]. do 2 eexists. split; [reflexivity|]. split.
    { unfold ctr_R. cbn [fst snd ms_max]. split; [apply Hmr; exact Hg'|].
      split; [lia|]. rewrite Z.mod_small; lia. }
    split; [rewrite zlen_splice; lia|]. intros blk Hblk. injection Hblk as <-.
    rewrite (xorb_comm (sub src so bs)). fold c. repeat split; assumption.
Qed.
End Chunk.
End Modes.

(* primitive classes *)
Lemma raw_implements K bs prim wipe k E : 0 <= bs ->
  (forall b, zlen b = bs -> bytes_ok b -> prim k b = Ret (E b) /\ zlen (E b) = bs /\ bytes_ok (E b)) ->
  bc_implements (raw_cipher K bs prim wipe) (ecb_fn E) (fun s _ => s = k).
Proof.
  intros Hbs HE s sg src so dst d -> H1 H2 Hb. cbn zeta.
  cbn [raw_cipher bc_blocksize bc_transform ecb_fn bf_step fst snd] in *.
  apply in_range_true in H1. apply in_range_true in H2.
  replace ((so <? 0) || (so >? zlen src - bs) || (d <? 0) || (d >? zlen dst - bs)) with false by lia.
  destruct (HE (sub src so bs)) as (-> & Hl & Hok); [rewrite zlen_sub; lia|exact Hb|].
  do 2 eexists. split; [reflexivity|]. split; [reflexivity|].
  split; [rewrite zlen_splice; lia|]. intros blk Hblk. injection Hblk as <-. auto.
Qed.
