(* Bounds of single-block transforms: ranges outside the arrays, and the
   part of the destination that does not change. *)
From Verif Require Import Prelude PreludeFacts BytesNum SpecBlock SpecModes SpecModesFacts
  BlockModel BlockCipher Modes.
Ltac Zify.zify_post_hook ::= Z.div_mod_to_equations.

(* b is a except possibly in positions d .. d+n-1 *)
Definition frame (d n : Z) (a b : bytes) : Prop :=
  length b = length a /\
  forall i, Z.of_nat i < d \/ d + n <= Z.of_nat i -> nth_error b i = nth_error a i.

Lemma frame_refl d n a : frame d n a a.
Proof. split; auto. Qed.
Lemma frame_trans d n a b c : frame d n a b -> frame d n b c -> frame d n a c.
Proof. intros (L1 & H1) (L2 & H2). split; [congruence|]. intros i Hi. rewrite H2, H1; auto. Qed.

Lemma frame_splice a d l : 0 <= d -> d + zlen l <= zlen a -> frame d (zlen l) a (splice a d l).
Proof.
  intros Hd Hl. unfold zlen in *. split.
  - unfold splice. rewrite !app_length, firstn_length, skipn_length. lia.
  - intros i Hi. unfold splice.
    assert (F : length (firstn (Z.to_nat d) a) = Z.to_nat d) by (rewrite firstn_length; lia).
    destruct (Z.lt_ge_cases (Z.of_nat i) d) as [H|H].
    + rewrite nth_error_app1 by lia. rewrite <- (firstn_skipn (Z.to_nat d) a) at 2.
      rewrite nth_error_app1 by lia. reflexivity.
    + destruct Hi as [Hi|Hi]; [lia|]. rewrite nth_error_app2 by lia. rewrite nth_error_app2 by lia. rewrite F.
      rewrite <- (firstn_skipn (Z.to_nat d + length l) a) at 2.
      assert (F2 : length (firstn (Z.to_nat d + length l) a) = (Z.to_nat d + length l)%nat) by (rewrite firstn_length; lia).
      rewrite nth_error_app2 by lia. f_equal. lia.
Qed.

Lemma frame_blit src so dst d n b : blit src so dst d n = Ret b -> frame d n dst b.
Proof.
  unfold blit. destruct (in_range src so n) eqn:E1, (in_range dst d n) eqn:E2; try discriminate.
  intros H. injection H as <-. apply in_range_true in E1, E2.
  replace n with (zlen (sub src so n)) at 1 by (apply zlen_sub; lia). apply frame_splice; rewrite ?zlen_sub; lia.
Qed.
Lemma frame_xor src so dst d n b : xor_bytes src so dst d n = Ret b -> frame d n dst b.
Proof.
  unfold xor_bytes. destruct (in_range src so n) eqn:E1, (in_range dst d n) eqn:E2; try discriminate.
  intros H. injection H as <-. apply in_range_true in E1, E2.
  assert (Hz : zlen (xorb (sub src so n) (sub dst d n)) = n) by (rewrite zlen_xorb; rewrite ?zlen_sub; lia).
  rewrite <- Hz at 1. apply frame_splice; lia.
Qed.

(* the transform method never changes dst outside its range *)
Definition bc_frame (C : block_cipher) : Prop := forall s src so dst d,
  frame d (bc_blocksize C) dst (snd (fst (bc_transform C s src so dst d))).

Section Frame.
Variable C : block_cipher.
Hypothesis HC : bc_frame C.
Let St := (mode_st C * bytes)%type.

Lemma frame_bind {A B} n d (dst : bytes) (r : St * out A) (k : St -> A -> St * out B) :
  frame d n dst (snd (fst r)) -> (forall s a, frame d n dst (snd s) -> frame d n dst (snd (fst (k s a)))) ->
  frame d n dst (snd (fst (bind r k))).
Proof. destruct r as [s [a|e| |]]; cbn; auto. Qed.
Lemma to_dst_frame d n dst (s : St) r : frame d n dst (snd s) ->
  (forall b, r = Ret b -> frame d n (snd s) b) -> frame d n dst (snd (fst (to_dst C s r))).
Proof. intros H H2. destruct r as [a|e| |]; cbn; auto. eapply frame_trans; eauto. Qed.
Lemma to_iv_frame d n dst (s : St) r : frame d n dst (snd s) -> frame d n dst (snd (fst (to_iv C s r))).
Proof. destruct r; auto. Qed.
Lemma to_tmp_frame d n dst (s : St) r : frame d n dst (snd s) -> frame d n dst (snd (fst (to_tmp C s r))).
Proof. destruct r; auto. Qed.
Lemma c_dst_frame d dst (s : St) src so : frame d (bc_blocksize C) dst (snd s) ->
  frame d (bc_blocksize C) dst (snd (fst (c_transform_dst C s src so d))).
Proof. intros H. eapply frame_trans; [exact H|]. apply HC. Qed.

Ltac fr := repeat first
  [ apply frame_bind; [|intros ? ? ?]
  | apply to_iv_frame | apply to_tmp_frame | apply c_dst_frame
  | apply to_dst_frame; [|intros ? ?; eauto using frame_blit, frame_xor]
  | assumption | apply frame_refl ].

Lemma cbc_encrypt_frame : bc_frame (cbc_encrypt C).
Proof. intros s src so dst d. cbn [cbc_encrypt bc_transform bc_blocksize]. fr. Qed.
Lemma cbc_decrypt_frame : bc_frame (cbc_decrypt C).
Proof. intros s src so dst d. cbn [cbc_decrypt bc_transform bc_blocksize]. fr. Qed.
Lemma cfb_encrypt_frame n : bc_frame (cfb_encrypt C n).
Proof. intros s src so dst d. cbn [cfb_encrypt bc_transform bc_blocksize]. fr. Qed.
Lemma cfb_decrypt_frame n : bc_frame (cfb_decrypt C n).
Proof. intros s src so dst d. cbn [cfb_decrypt bc_transform bc_blocksize]. fr. Qed.
Lemma ofb_frame n : bc_frame (ofb C n).
Proof. intros s src so dst d. cbn [ofb bc_transform bc_blocksize]. fr. Qed.
Lemma ctr_frame n : bc_frame (ctr C n).
Proof.
  intros s src so dst d. cbn [ctr bc_transform bc_blocksize]. fr.
  destruct (_ =? 0); assumption.
Qed.
End Frame.

Lemma raw_frame K bs prim wipe : 0 <= bs ->
  (forall k b r, prim k b = Ret r -> zlen r = bs) -> bc_frame (raw_cipher K bs prim wipe).
Proof.
  intros Hbs Hp k src so dst d. cbn [raw_cipher bc_transform bc_blocksize].
  destruct ((so <? 0) || (so >? zlen src - bs) || (d <? 0) || (d >? zlen dst - bs)) eqn:E; [apply frame_refl|].
  destruct (prim k (sub src so bs)) as [r|e| |] eqn:Er; cbn [fst snd]; try apply frame_refl.
  apply Hp in Er. rewrite <- Er. apply frame_splice; lia.
Qed.

(* one of the two ranges is outside its array *)
Definition bad_ranges (bs : Z) (src : bytes) (so : Z) (dst : bytes) (d : Z) : Prop :=
  in_range src so bs && in_range dst d bs = false.

(* ranges outside the arrays are refused, the destination is unchanged *)
Definition bc_checks (C : block_cipher) (good : bc_st C -> Prop) : Prop := forall s src so dst d,
  good s -> bad_ranges (bc_blocksize C) src so dst d ->
  exists s', bc_transform C s src so dst d = ((s', dst), Raise Invalid_argument).

Lemma raw_checks K bs prim wipe : 0 <= bs -> bc_checks (raw_cipher K bs prim wipe) (fun _ => True).
Proof.
  intros Hbs k src so dst d _. unfold bad_ranges. cbn [raw_cipher bc_blocksize bc_transform]. intros H.
  replace ((so <? 0) || (so >? zlen src - bs) || (d <? 0) || (d >? zlen dst - bs)) with true
    by (unfold in_range in H; lia). eauto.
Qed.

Section Checks.
Variable fresh : Z -> bytes.
Hypothesis fresh_len : forall n, 0 <= n -> zlen (fresh n) = n.
Variables (C : block_cipher) (E : bytes -> bytes) (good : bc_st C -> Prop).
Let bs := bc_blocksize C.
Hypothesis bs_pos : 0 < bs.
Hypothesis HC : bc_implements C (ecb_fn E) (fun s _ => good s).
Hypothesis HS : bc_checks C good.

Definition mode_good (s : mode_st C) : Prop := exists iv, mode_R C good s iv.

Lemma blit_bad_ranges src so dst d n : bad_ranges n src so dst d -> blit src so dst d n = Raise Invalid_argument.
Proof. unfold bad_ranges, blit. intros ->. reflexivity. Qed.

Lemma cbc_decrypt_checks : bc_checks (cbc_decrypt C) mode_good.
Proof.
  intros s src so dst d (iv & HR) Hb. cbn [cbc_decrypt bc_blocksize bc_transform] in *. fold bs in Hb |- *.
  destruct HR as (Hiv & Hl & Hok & Ht & Hg). fold bs in Hl, Ht. cbn [fst snd].
  destruct (in_range src so bs) eqn:E1.
  - apply in_range_true in E1. rewrite blit_ok by lia. cbn [to_tmp bind fst snd].
    unfold c_transform_dst. cbn [fst snd set_tmp ms_c].
    destruct (HS (ms_c s) src so dst d Hg Hb) as (s' & ->). cbn [bind fst snd]. eauto.
  - unfold blit. rewrite E1. cbn [andb to_tmp bind]. eauto.
Qed.

Lemma cbc_encrypt_checks_dst s src so dst d : mode_good s -> in_range src so bs = true ->
  in_range dst d bs = false ->
  exists s', bc_transform (cbc_encrypt C) s src so dst d = ((s', dst), Raise Invalid_argument).
Proof.
  intros (iv & HR) H1 H2. cbn [cbc_encrypt bc_blocksize bc_transform]. fold bs.
  destruct HR as (Hiv & Hl & Hok & Ht & Hg). fold bs in Hl, Ht. cbn [fst snd]. apply in_range_true in H1.
  assert (Hl' : zlen (ms_iv s) = bs) by (rewrite Hiv; exact Hl).
  rewrite (xor_bytes_ok fresh fresh_len C) by lia. cbn [to_iv bind fst snd]. unfold c_transform_dst, set_iv. cbn [fst snd ms_iv ms_tmp ms_max ms_c].
  set (x := splice _ _ _).
  destruct (HS (ms_c s) x 0 dst d Hg) as (s' & ->).
  { unfold bad_ranges. fold bs. rewrite H2. apply andb_false_r. }
  cbn [bind fst snd]. eauto.
Qed.

(* cbc_encrypt xors src without any check *)
Lemma cbc_encrypt_unchecked s src so dst d : in_range src so bs = false ->
  snd (bc_transform (cbc_encrypt C) s src so dst d) = Undef.
Proof.
  intros H. cbn [cbc_encrypt bc_blocksize bc_transform]. fold bs. unfold xor_bytes.
  cbn [fst snd]. rewrite H. reflexivity.
Qed.

Section Chunk.
Variable n : nat.
Let chunk := Z.of_nat n.
Hypothesis chunk_range : 0 < chunk <= bs.

Lemma cfb_encrypt_checks : bc_checks (cfb_encrypt C chunk) mode_good.
Proof.
  intros s src so dst d (iv & HR) Hb. cbn [cfb_encrypt bc_blocksize bc_transform] in *. fold bs.
  destruct (iv_tmp_ok fresh fresh_len C E good bs_pos HC s iv dst HR) as (He1 & He2 & c' & Hc & Hg').
  rewrite Hc. cbn [bind fst snd]. rewrite blit_bad_ranges by exact Hb. cbn [to_dst bind]. eauto.
Qed.

Lemma cfb_decrypt_checks : bc_checks (cfb_decrypt C chunk) mode_good.
Proof.
  intros s src so dst d (iv & HR) Hb. cbn [cfb_decrypt bc_blocksize bc_transform] in *. fold bs.
  destruct (iv_tmp_ok fresh fresh_len C E good bs_pos HC s iv dst HR) as (He1 & He2 & c' & Hc & Hg').
  destruct HR as (Hiv & Hl & Hok & Ht & Hg). fold bs in Hl, Ht.
  rewrite Hc. cbn [bind fst snd ms_iv]. rewrite blit_ok by lia.
  cbn [to_iv bind fst snd set_iv ms_iv ms_tmp ms_max ms_c].
  assert (Hz2 : zlen (sub iv chunk (bs - chunk)) = bs - chunk) by (apply zlen_sub; lia).
  destruct (in_range src so chunk) eqn:E1.
  - apply in_range_true in E1. rewrite blit_ok by (rewrite ?zlen_splice; lia).
    cbn [to_iv bind fst snd set_iv ms_iv ms_tmp ms_max ms_c].
    rewrite blit_bad_ranges by exact Hb. cbn [to_dst bind]. eauto.
  - rewrite (blit_bad_ranges src so); [cbn [to_iv bind]; eauto|]. unfold bad_ranges. rewrite E1. reflexivity.
Qed.

Lemma ofb_checks : bc_checks (ofb C chunk) mode_good.
Proof.
  intros s src so dst d (iv & HR) Hb. cbn [ofb bc_blocksize bc_transform] in *. fold bs.
  destruct HR as (Hiv & Hl & Hok & Ht & Hg). fold bs in Hl, Ht.
  assert (Hl' : zlen (ms_iv s) = bs) by (rewrite Hiv; exact Hl).
  destruct (call_ok C E good HC (ms_c s) (ms_iv s) 0 (ms_iv s) 0 Hg) as (He1 & He2 & s' & Hc & Hg');
    [apply in_range_true; fold bs; lia|apply in_range_true; fold bs; lia|
     fold bs; rewrite sub_0_all by lia; rewrite Hiv; exact Hok|].
  unfold c_transform_iv_iv. cbn [fst snd]. rewrite Hc. cbn [fst snd bind].
  rewrite blit_bad_ranges by exact Hb. cbn [to_dst bind]. eauto.
Qed.

Lemma ctr_checks : bc_checks (ctr C chunk) mode_good.
Proof.
  intros s src so dst d (iv & HR) Hb. cbn [ctr bc_blocksize bc_transform] in *. fold bs in Hb |- *.
  destruct (iv_tmp_ok fresh fresh_len C E good bs_pos HC s iv dst HR) as (He1 & He2 & c' & Hc & Hg').
  rewrite Hc. cbn [bind fst snd]. rewrite blit_bad_ranges by exact Hb. cbn [to_dst bind]. eauto.
Qed.
End Chunk.
End Checks.
