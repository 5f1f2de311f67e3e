(* Consequences for users of AEAD.aes_gcm and AEAD.chacha20_poly1305. *)
From Verif Require Import LibTransform Prelude PreludeFacts BytesNum Word BufOutModel BufOut EncModel SpecTransducer SpecBlock TransformModel BlockModel BlockObj CipherModel History EncApi SpecAes AesModel AesniModel Aes AesField AesApi
  SpecStream StreamModel StreamObj Chacha StreamApi SpecHash SpecPoly PolyModel Poly SpecGhash BlockTotal AuthModel AeadModel Auth SpecAead Gcm GcmObj ChaPoly AuthHash
  SpecRipemd HashModel HashSpec ShaModel RipemdModel Sha Ripemd HashSize HashLib.
Ltac Zify.zify_post_hook ::= Z.div_mod_to_equations.

(* class Block.aes_encrypt, in software or with the AES instructions *)
Definition aes_class (fresh : Z -> bytes) (nb : bytes -> out bobj) : Prop := nb = new_aes fresh Encrypt \/ nb = new_aesni fresh Encrypt.
(* the two variants of Poly1305, over any arithmetic right on the results that fit *)
Definition poly_class (P : poly_impl) : Prop :=
  exists w, (forall n x, 0 <= x < 2 ^ n -> w n x = x) /\ (P = poly64 w \/ P = poly32 w).

Lemma max_small60 : max_string_length < 2 ^ 60. Proof. reflexivity. Qed.

Lemma blk_ghash_str H X : blk (ghash_str H X).
Proof.
  unfold ghash_str, ghash. assert (G : forall l y, blk y -> blk (fold_left (fun y x => block_mult (xorb y x) H) l y)).
  { induction l as [|b l IH]; intros y Hy; [exact Hy|]. cbn [fold_left]. apply IH, blk_block_mult. }
  apply G, blk_zeros.
Qed.
Lemma blk_J0 E iv : bytes_ok iv -> blk (gcm_J0 E iv).
Proof.
  intros BI. unfold gcm_J0. destruct (zlen iv =? 12) eqn:Ei; [|apply blk_ghash_str].
  split; [rewrite zlen_app; change (zlen [0; 0; 0; 1]) with 4; lia|]. apply bytes_ok_app. split; [exact BI|repeat constructor; unfold byte_ok; lia].
Qed.

Lemma gcm_obj fresh accel nb key A iv d : (forall n, 0 <= n -> zlen (fresh n) = n) -> aes_class fresh nb ->
  aes_key_size key -> bytes_ok key -> bytes_ok A -> bytes_ok iv -> zlen A <= max_string_length -> zlen iv <= max_string_length ->
  exists o, aes_gcm fresh accel nb A iv key d = Ret o /\
  forall msg, bytes_ok msg -> zlen msg + 128 <= max_string_length ->
    auth_whole o msg (gcm_res (aes_E key) A iv d msg) /\ auth_checks o 16 (gcm_res (aes_E key) A iv d) msg.
Proof.
  intros F Hnb K BK BA BI LA LI. pose proof max_small60 as M60.
  destruct (aes_gcm_lawful fresh accel nb key (aes_E key) A iv d F) as (o & M & Fin & sg & Eo & Ts & L & R); try assumption; try (eapply Z.le_lt_trans; eassumption).
  - destruct Hnb as [->| ->].
    + destruct (new_aes_computes fresh Encrypt key F K BK) as (b & Eb & Cb & _). exists b. auto.
    + destruct (new_aesni_computes fresh Encrypt key F K BK) as (b & Eb & Cb & _). exists b. auto.
  - intros b (Hb & Bb). apply aes_E_blk; assumption.
  - exists o. split; [exact Eo|]. intros msg Hm Hs.
    assert (L60 : zlen msg < 2 ^ 60) by (eapply Z.le_lt_trans; [|exact M60]; lia). split.
    + rewrite <- R by exact L60. apply (auth_lawful_whole _ _ _ _ _ _ _ L Hm). lia.
    + pose proof (auth_lawful_checks _ _ _ _ _ _ msg L Hm) as C. rewrite Ts in C. destruct (C ltac:(lia) ltac:(lia)) as (C1 & C2). split; [exact C1|].
      intros Hl. specialize (C2 Hl). rewrite R in C2; [exact C2|]. rewrite zlen_sub by lia. eapply Z.le_lt_trans; [|exact L60]. lia.
Qed.

Lemma gcm_round fresh accel nb accel' nb' key A iv : (forall n, 0 <= n -> zlen (fresh n) = n) -> aes_class fresh nb -> aes_class fresh nb' ->
  aes_key_size key -> bytes_ok key -> bytes_ok A -> bytes_ok iv -> zlen A <= max_string_length -> zlen iv <= max_string_length ->
  exists e d, aes_gcm fresh accel nb A iv key Encrypt = Ret e /\ aes_gcm fresh accel' nb' A iv key Decrypt = Ret d /\
  forall msg, bytes_ok msg -> zlen msg + 144 <= max_string_length -> zlen msg <= gcm_max ->
  exists s, auth_string e msg = Ret s /\ zlen s = zlen msg + 16 /\ auth_check d s = Ret (Some msg) /\
  forall t, bytes_ok t -> zlen t = 16 -> firstn (length msg) s ++ t <> s -> auth_check d (firstn (length msg) s ++ t) = Ret None.
Proof.
  intros F Hnb Hnb' K BK BA BI LA LI.
  destruct (gcm_obj fresh accel nb key A iv Encrypt F Hnb K BK BA BI LA LI) as (e & Ee & He).
  destruct (gcm_obj fresh accel' nb' key A iv Decrypt F Hnb' K BK BA BI LA LI) as (d & Ed & Hd).
  exists e, d. split; [exact Ee|]. split; [exact Ed|]. intros msg Hm Hs Hmax.
  destruct (He msg Hm ltac:(lia)) as ((_ & W & _) & _). cbn [gcm_res] in W. replace (zlen msg <=? gcm_max) with true in W by lia. cbn [obind fst snd] in W.
  set (E := aes_E key) in *. set (C := gcm_C E iv msg) in *. set (T := gcm_T E iv A C) in *.
  assert (HE : forall b, blk b -> blk (E b)) by (intros b (Hb & Bb); apply aes_E_blk; assumption).
  assert (L60 : zlen iv < 2 ^ 60) by (pose proof max_small60; eapply Z.le_lt_trans; eassumption).
  assert (HJ : blk (gcm_J0 E iv)) by (apply blk_J0; exact BI).
  assert (HI : blk (inc32 (gcm_J0 E iv))) by apply (inc32_ok _ HJ).
  destruct (gctr_facts E HE (inc32 (gcm_J0 E iv)) msg HI) as (_ & LC & Inv). fold (gcm_C E iv msg) in LC, Inv. fold C in LC, Inv.
  assert (BC : bytes_ok C) by (apply gctr_ok; assumption).
  assert (LT : zlen T = 16 /\ bytes_ok T).
  { unfold T, gcm_T. set (S := ghash_str _ _). assert (HS : blk S) by apply blk_ghash_str.
    destruct (gctr_facts E HE (gcm_J0 E iv) S HJ) as (_ & L & _). split; [rewrite L; apply HS|apply gctr_ok; [assumption..|apply HS]]. }
  destruct LT as (LT & BT).
  exists (C ++ T). split; [exact W|]. split; [rewrite zlen_app; lia|].
  assert (Ck : forall t, bytes_ok t -> zlen t = 16 -> (T = t -> auth_check d (C ++ t) = Ret (Some msg)) /\ (T <> t -> auth_check d (C ++ t) = Ret None)).
  { intros t Bt Lt. destruct (Hd (C ++ t)) as (_ & _ & C2); [apply bytes_ok_app; auto|rewrite zlen_app; lia|].
    specialize (C2 ltac:(rewrite zlen_app; pose proof (zlen_nonneg C); lia)). destruct (split_tag C t 16 Lt) as (F1 & F2). rewrite F1, F2 in C2. cbn [gcm_res] in C2.
    fold T in C2. unfold gcm_C in C2 at 1. rewrite Inv in C2. exact C2. }
  split; [apply (Ck T BT LT); reflexivity|]. intros t Bt Lt.
  replace (firstn (length msg) (C ++ T)) with C.
  - intros Hne. apply (Ck t Bt Lt). congruence.
  - symmetry. rewrite firstn_app. replace (length msg - length C)%nat with 0%nat by (unfold zlen in LC; lia). cbn [firstn]. rewrite app_nil_r. apply firstn_all2. unfold zlen in LC; lia.
Qed.

(* ---- keystream blocks of GCM ---- *)
Fixpoint inc32s (n : nat) (b : bytes) : bytes := match n with O => b | S n => inc32s n (inc32 b) end.
Lemma inc32s_tail n : forall b, blk b -> firstn 12 (inc32s n b) = firstn 12 b /\ be (skipn 12 (inc32s n b)) = (be (skipn 12 b) + Z.of_nat n) mod 2 ^ 32.
Proof.
  induction n as [|n IH]; intros b Hb.
  - cbn [inc32s]. split; [reflexivity|]. rewrite Z.add_0_r, Z.mod_small; [reflexivity|]. destruct Hb as (Hl & Hb).
    pose proof (be_bound (skipn 12 b) ltac:(apply Forall_skipn, Hb)) as B. unfold zlen in B, Hl. rewrite skipn_length in B. replace (Z.of_nat (length b - 12)) with 4 in B by lia. exact B.
  - cbn [inc32s]. assert (Hi : blk (inc32 b)) by apply (inc32_ok _ Hb). destruct (IH _ Hi) as (E1 & E2). destruct Hb as (Hl & Hb). rewrite E1, E2. unfold inc32.
    assert (L12 : length (firstn 12 b) = 12%nat) by (rewrite firstn_length; unfold zlen in Hl; lia).
    rewrite firstn_app, skipn_app, L12, Nat.sub_diag, firstn_firstn, (skipn_all2 (n := 12) (firstn 12 b)) by (rewrite L12; apply le_n). cbn [Nat.min firstn skipn app]. rewrite app_nil_r, be_to_be. split; [reflexivity|].
    change (256 ^ Z.of_nat 4) with (2 ^ 32). rewrite Z.mod_mod by lia. rewrite Zplus_mod_idemp_l. f_equal. lia.
Qed.
Lemma gctr_blocks_nth E X : forall c i, (i < length X)%nat -> nth i (gctr_blocks E c X) [] = xorb (nth i X []) (firstn (length (nth i X [])) (E (inc32s i c))).
Proof.
  induction X as [|x X IH]; intros c i Hi; [cbn in Hi; lia|]. destruct i as [|i]; [reflexivity|]. cbn [gctr_blocks nth inc32s]. apply IH. cbn in Hi. lia.
Qed.
Lemma chunks_count msg : Z.of_nat (length (chunks 16 msg)) <= (zlen msg + 15) / 16.
Proof.
  destruct msg as [|x m]; [cbn; lia|]. destruct (chunks_last (x :: m) ltac:(discriminate)) as (bl & b & E & El & HF & H1 & H2). rewrite El at 2. rewrite E, app_length. cbn [length].
  rewrite zlen_app, (zlen_concat 16) by exact HF. unfold zlen at 1. lia.
Qed.
(* the counter block of the tag is number 0, that of data block i is number i + 1 *)
Lemma gcm_keystream E iv msg : (forall b, blk b -> blk (E b)) -> bytes_ok iv -> zlen msg <= gcm_max ->
  let J := gcm_J0 E iv in let N := length (chunks 16 msg) in
  (forall i, (i < N)%nat -> nth i (chunks 16 (gcm_C E iv msg)) [] = xorb (nth i (chunks 16 msg) []) (firstn (length (nth i (chunks 16 msg) [])) (E (inc32s (S i) J)))) /\
  (forall i j, (i < j <= N)%nat -> inc32s i J <> inc32s j J).
Proof.
  intros HE BI Hmax J N.
  assert (HJ : blk J) by (apply blk_J0; exact BI).
  split.
  - intros i Hi. destruct (gctr_facts E HE (inc32 J) msg) as (G1 & _); [apply (inc32_ok _ HJ)|]. unfold gcm_C. fold J. rewrite G1. cbn [inc32s]. apply gctr_blocks_nth. exact Hi.
  - intros i j Hij He. destruct (inc32s_tail i J HJ) as (_ & Ei). destruct (inc32s_tail j J HJ) as (_ & Ej). rewrite He, Ej in Ei.
    pose proof (chunks_count msg) as HN. fold N in HN. unfold gcm_max in Hmax. clear - Ei Hij HN Hmax.
    set (x := be (skipn 12 J)) in *. change (2 ^ 32) with 4294967296 in Ei. change (2 ^ 36 - 32) with 68719476704 in Hmax. clearbody x. lia.
Qed.

(* ------------------------------------------------------------------ *)
Lemma chapoly_obj fresh P header iv key d : (forall n, 0 <= n -> zlen (fresh n) = n) -> poly_class P ->
  zlen key = 16 \/ zlen key = 32 -> zlen iv = 8 \/ zlen iv = 12 -> bytes_ok key -> bytes_ok iv -> bytes_ok header -> zlen header <= max_string_length ->
  exists o, chacha20_poly1305 fresh P header iv key d = Ret o /\
  forall msg, bytes_ok msg -> zlen msg <= max_string_length ->
    auth_whole o msg (aead_res key iv header d msg) /\ auth_checks o 16 (aead_res key iv header d) msg.
Proof.
  intros F (w & Hw & HP) K I BK BI BH LH. pose proof max_small60 as M60. assert (M64 : 2 ^ 60 < 2 ^ 64) by reflexivity.
  assert (HO : inhabited (poly_ok P)) by (destruct HP as [->| ->]; constructor; [exact (poly64_ok w Hw)|exact (poly32_ok w Hw)]). destruct HO as [O].
  destruct (chapoly_lawful fresh P O header iv key d F K I BK BI BH ltac:(clear - LH M60 M64; lia)) as (o & M & Fin & sg & Eo & Ts & L & R).
  exists o. split; [exact Eo|]. intros msg Hm Hs.
  assert (L64 : zlen msg < 2 ^ 64) by (clear - Hs M60 M64; lia). split.
  - rewrite <- R by exact L64. apply (auth_lawful_whole _ _ _ _ _ _ _ L Hm). lia.
  - pose proof (auth_lawful_checks _ _ _ _ _ _ msg L Hm) as C. rewrite Ts in C. destruct (C ltac:(lia) ltac:(lia)) as (C1 & C2). split; [exact C1|].
    intros Hl. specialize (C2 Hl). rewrite R in C2; [exact C2|]. rewrite zlen_sub by lia. eapply Z.le_lt_trans; [|exact L64]. lia.
Qed.
Lemma aead_C_twice key iv msg : (forall n, byte_ok (chacha20 key 1 iv n)) -> aead_C key iv (aead_C key iv msg) = msg.
Proof. intros. unfold aead_C. apply ks_xor_twice. Qed.
Lemma poly1305_size k m : zlen (poly1305 k m) = 16 /\ bytes_ok (poly1305 k m).
Proof. unfold poly1305. split; [apply zlen_to_le|apply bytes_ok_to_le]. Qed.
Lemma chapoly_round fresh P P' header iv key : (forall n, 0 <= n -> zlen (fresh n) = n) -> poly_class P -> poly_class P' ->
  zlen key = 16 \/ zlen key = 32 -> zlen iv = 8 \/ zlen iv = 12 -> bytes_ok key -> bytes_ok iv -> bytes_ok header -> zlen header <= max_string_length ->
  exists e d, chacha20_poly1305 fresh P header iv key Encrypt = Ret e /\ chacha20_poly1305 fresh P' header iv key Decrypt = Ret d /\
  forall msg, bytes_ok msg -> zlen msg + 16 <= max_string_length -> (zlen iv = 12 -> zlen msg <= 2 ^ 38) ->
  exists s, auth_string e msg = Ret s /\ zlen s = zlen msg + 16 /\ auth_check d s = Ret (Some msg) /\
  forall t, bytes_ok t -> zlen t = 16 -> firstn (length msg) s ++ t <> s -> auth_check d (firstn (length msg) s ++ t) = Ret None.
Proof.
  intros F HP HP' K I BK BI BH LH.
  destruct (chapoly_obj fresh P header iv key Encrypt F HP K I BK BI BH LH) as (e & Ee & He).
  destruct (chapoly_obj fresh P' header iv key Decrypt F HP' K I BK BI BH LH) as (d & Ed & Hd).
  exists e, d. split; [exact Ee|]. split; [exact Ed|]. intros msg Hm Hs Hmax.
  destruct (He msg Hm ltac:(lia)) as ((_ & W & _) & _). cbn [aead_res] in W.
  replace ((zlen iv =? 12) && (zlen msg >? 2 ^ 38)) with false in W.
  2:{ symmetry. destruct (zlen iv =? 12) eqn:Ei; cbn [andb]; [|reflexivity]. specialize (Hmax ltac:(lia)). clear - Hmax. lia. }
  cbn [obind fst snd] in W. set (C := aead_C key iv msg) in *. set (T := aead_T key iv header C) in *.
  pose proof (ks1_byte key iv K I BK BI) as Hks.
  assert (LC : zlen C = zlen msg) by apply ks_xor_zlen.
  assert (Inv : aead_C key iv C = msg) by (apply aead_C_twice; exact Hks).
  assert (BC : bytes_ok C) by (apply ks_xor_ok; assumption).
  destruct (poly1305_size (aead_key key iv) (pad16 header ++ pad16 C ++ to_le 8 (zlen header) ++ to_le 8 (zlen C))) as (LT & BT).
  change (zlen T = 16) in LT. change (bytes_ok T) in BT.
  exists (C ++ T). split; [exact W|]. split; [rewrite zlen_app; lia|].
  assert (Ck : forall t, bytes_ok t -> zlen t = 16 -> (T = t -> auth_check d (C ++ t) = Ret (Some msg)) /\ (T <> t -> auth_check d (C ++ t) = Ret None)).
  { intros t Bt Lt. destruct (Hd (C ++ t)) as (_ & _ & C2); [apply bytes_ok_app; auto|rewrite zlen_app; lia|].
    specialize (C2 ltac:(rewrite zlen_app; pose proof (zlen_nonneg C); lia)). destruct (split_tag C t 16 Lt) as (F1 & F2). rewrite F1, F2 in C2. cbn [aead_res] in C2.
    fold T in C2. rewrite Inv in C2. exact C2. }
  split; [apply (Ck T BT LT); reflexivity|]. intros t Bt Lt.
  replace (firstn (length msg) (C ++ T)) with C.
  - intros Hne. apply (Ck t Bt Lt). congruence.
  - symmetry. rewrite firstn_app. replace (length msg - length C)%nat with 0%nat by (unfold zlen in LC; lia). cbn [firstn]. rewrite app_nil_r. apply firstn_all2. unfold zlen in LC; lia.
Qed.

(* ---- keystream blocks of ChaCha20-Poly1305 ---- *)
Lemma ks_xor_nth ks l : forall m n, (n < length l)%nat -> nth n (ks_xor ks m l) 0 = Z.lxor (nth n l 0) (ks (m + n)%nat).
Proof.
  induction l as [|c l IH]; intros m k Hk; [cbn in Hk; lia|]. rewrite ks_xor_cons. destruct k as [|k].
  - cbn [nth]. rewrite Nat.add_0_r. reflexivity.
  - cbn [nth]. cbn [length] in Hk. rewrite IH by lia. do 2 f_equal. lia.
Qed.
(* the counter of the one-time key is 0, that of data byte n is 1 + n / 64 *)
Lemma chapoly_keystream key iv msg n : (n < length msg)%nat ->
  nth n (aead_C key iv msg) 0 = Z.lxor (nth n msg 0) (nth (n mod 64) (chacha_block key (1 + Z.of_nat (n / 64)) iv) 0).
Proof. intros H. unfold aead_C. rewrite ks_xor_nth by exact H. reflexivity. Qed.
Lemma to_le_neq k i j : 0 <= i < j -> j < 256 ^ Z.of_nat k -> to_le k i <> to_le k j.
Proof. intros H1 H2 E. apply (f_equal le) in E. rewrite !le_to_le, !Z.mod_small in E by (clear - H1 H2; lia). clear - E H1. lia. Qed.
Lemma le_words_inj n : forall a b, length a = (4 * n)%nat -> length b = (4 * n)%nat -> bytes_ok a -> bytes_ok b -> le_words 4 a = le_words 4 b -> a = b.
Proof.
  induction n as [|n IH]; intros a b Ha Hb Ba Bb E.
  - destruct a, b; try discriminate. reflexivity.
  - destruct a as [|a0 [|a1 [|a2 [|a3 a]]]]; cbn [length] in Ha; try lia. destruct b as [|b0 [|b1 [|b2 [|b3 b]]]]; cbn [length] in Hb; try lia.
    rewrite !le_words4_cons in E. injection E as E1 E2.
    change (a0 :: a1 :: a2 :: a3 :: a) with ([a0; a1; a2; a3] ++ a) in *. change (b0 :: b1 :: b2 :: b3 :: b) with ([b0; b1; b2; b3] ++ b) in *.
    apply bytes_ok_app in Ba. apply bytes_ok_app in Bb. destruct Ba as (Ba1 & Ba2). destruct Bb as (Bb1 & Bb2). f_equal.
    + rewrite <- (to_le_le _ Ba1), <- (to_le_le _ Bb1). cbn [length]. f_equal. exact E1.
    + apply IH; try assumption; lia.
Qed.
Lemma chacha_matrix_neq key iv i j : zlen key = 16 \/ zlen key = 32 -> zlen iv = 8 \/ zlen iv = 12 -> bytes_ok key -> bytes_ok iv ->
  0 <= i < j -> j < 256 ^ (16 - zlen iv) -> chacha_matrix key i iv <> chacha_matrix key j iv.
Proof.
  intros K I BK BI Hi Hj E. unfold chacha_matrix in E.
  set (k2 := if Nat.eqb (length key) 32 then key else key ++ key) in *.
  assert (Lk : length k2 = 32%nat) by (unfold k2; unfold zlen in K; destruct (Nat.eqb_spec (length key) 32); [assumption|rewrite app_length; lia]).
  assert (Bk : bytes_ok k2) by (unfold k2; destruct (Nat.eqb (length key) 32); [assumption|apply bytes_ok_app; auto]).
  assert (Lc : length (cc_constant (length key)) = 16%nat) by (unfold cc_constant; destruct (Nat.eqb (length key) 32); reflexivity).
  assert (Bc : bytes_ok (cc_constant (length key))).
  { unfold cc_constant. destruct (Nat.eqb (length key) 32); repeat constructor; unfold byte_ok; lia. }
  assert (Li : (length iv <= 16)%nat) by (unfold zlen in I; lia).
  assert (G : forall c, length (cc_constant (length key) ++ k2 ++ to_le (16 - length iv) c ++ iv) = (4 * 16)%nat /\ bytes_ok (cc_constant (length key) ++ k2 ++ to_le (16 - length iv) c ++ iv)).
  { intros c. split; [rewrite !app_length, length_to_le; lia|]. repeat (apply bytes_ok_app; split; [assumption || apply bytes_ok_to_le|]). assumption. }
  apply (le_words_inj 16) in E; try apply G. apply app_inv_head in E. apply app_inv_head in E. apply app_inv_tail in E. revert E. apply to_le_neq; [exact Hi|].
  rewrite Nat2Z.inj_sub by exact Li. exact Hj.
Qed.
Lemma chapoly_distinct key iv (msg : bytes) : zlen key = 16 \/ zlen key = 32 -> zlen iv = 8 \/ zlen iv = 12 -> bytes_ok key -> bytes_ok iv ->
  zlen msg <= max_string_length -> (zlen iv = 12 -> zlen msg <= 2 ^ 38 - 64) ->
  forall i j, 0 <= i < j -> j <= (zlen msg + 63) / 64 -> chacha_matrix key i iv <> chacha_matrix key j iv.
Proof.
  intros K I BK BI Hl H12 i j Hi Hj. apply chacha_matrix_neq; try assumption. pose proof (zlen_nonneg msg) as Hz. destruct I as [I|I]; rewrite I.
  - change (256 ^ (16 - 8)) with (2 ^ 64). pose proof max_small60 as M. assert (2 ^ 60 < 2 ^ 64) by reflexivity. clear - Hz Hl M H Hj Hi. lia.
  - specialize (H12 I). change (256 ^ (16 - 12)) with 4294967296. change (2 ^ 38 - 64) with (64 * 4294967295) in H12. clear - H12 Hj. lia.
Qed.
(* at the limit of 2^38 bytes the last data block is encrypted with the
   keystream block that contains the one-time Poly1305 key *)
Lemma chacha_matrix_wrap key iv c : zlen iv = 12 -> chacha_block key (c + 2 ^ 32) iv = chacha_block key c iv.
Proof.
  intros I. unfold chacha_block, chacha_matrix. replace (16 - length iv)%nat with 4%nat by (unfold zlen in I; lia).
  replace (to_le 4 (c + 2 ^ 32)) with (to_le 4 c); [reflexivity|]. rewrite <- (to_le_mod 4 (c + 2 ^ 32)), <- (to_le_mod 4 c). change (256 ^ Z.of_nat 4) with (2 ^ 32).
  f_equal. rewrite <- (Z.mul_1_l (2 ^ 32)) at 2. rewrite Z_mod_plus_full. reflexivity.
Qed.
Lemma chapoly_reuse fresh P header iv key : (forall n, 0 <= n -> zlen (fresh n) = n) -> poly_class P ->
  zlen key = 16 \/ zlen key = 32 -> zlen iv = 12 -> bytes_ok key -> bytes_ok iv -> bytes_ok header -> zlen header <= max_string_length ->
  exists o, chacha20_poly1305 fresh P header iv key Encrypt = Ret o /\
  forall msg, bytes_ok msg -> zlen msg = 2 ^ 38 -> exists C, auth_detached o msg = Ret (C, aead_T key iv header C) /\
  forall n, (n < 64)%nat -> nth (Z.to_nat (2 ^ 38 - 64) + n) C 0 = Z.lxor (nth (Z.to_nat (2 ^ 38 - 64) + n) msg 0) (nth n (chacha_block key 0 iv) 0).
Proof.
  intros F HP K I BK BI BH LH. destruct (chapoly_obj fresh P header iv key Encrypt F HP K (or_intror I) BK BI BH LH) as (o & Eo & Ho).
  exists o. split; [exact Eo|]. intros msg Hm Hl. destruct (Ho msg Hm) as ((W & _ & _) & _); [rewrite Hl; discriminate|].
  cbn [aead_res] in W. rewrite I, Hl in W. cbn [Z.eqb Pos.eqb] in W. replace (12 =? 12) with true in W by reflexivity. replace (2 ^ 38 >? 2 ^ 38) with false in W by reflexivity. cbn [andb] in W.
  exists (aead_C key iv msg). split; [exact W|]. intros n Hn. set (N := Z.to_nat (2 ^ 38 - 64)) in *.
  assert (EN : Z.of_nat N = 64 * 4294967295) by (unfold N; rewrite Z2Nat.id by discriminate; reflexivity). clearbody N.
  rewrite chapoly_keystream by (unfold zlen in Hl; change (2 ^ 38) with (64 * 4294967296) in Hl; clear - Hl EN Hn; lia).
  assert (M1 : ((N + n) mod 64 = n)%nat) by (apply Nat2Z.inj; rewrite Nat2Z.inj_mod, Nat2Z.inj_add, EN; change (Z.of_nat 64) with 64; clear - Hn; lia).
  assert (M2 : Z.of_nat ((N + n) / 64) = 4294967295) by (rewrite Nat2Z.inj_div, Nat2Z.inj_add, EN; change (Z.of_nat 64) with 64; clear - Hn; lia).
  rewrite M1, M2. change (1 + 4294967295) with (0 + 2 ^ 32). rewrite chacha_matrix_wrap by exact I. reflexivity.
Qed.

(* ---- sizes ---- *)
Lemma gcm_key_size fresh accel nb key A iv d : (forall n, 0 <= n -> zlen (fresh n) = n) -> aes_class fresh nb -> bytes_ok key -> bytes_ok A -> bytes_ok iv ->
  zlen A <= max_string_length -> zlen iv <= max_string_length ->
  (aes_key_size key -> exists o, aes_gcm fresh accel nb A iv key d = Ret o) /\
  (~ aes_key_size key -> aes_gcm fresh accel nb A iv key d = Raise (Error Wrong_key_size)).
Proof.
  intros F Hnb BK BA BI LA LI. split; intros K.
  - destruct (gcm_obj fresh accel nb key A iv d F Hnb K BK BA BI LA LI) as (o & E & _). eauto.
  - destruct (aes_key_sizes fresh Encrypt key F BK) as (_ & N). destruct (N K) as (N1 & N2). unfold aes_gcm. destruct Hnb as [->| ->]; [rewrite N1|rewrite N2]; reflexivity.
Qed.
Lemma chapoly_sizes fresh P header iv key d : (forall n, 0 <= n -> zlen (fresh n) = n) -> poly_class P ->
  bytes_ok key -> bytes_ok iv -> bytes_ok header -> zlen header <= max_string_length ->
  (zlen key = 16 \/ zlen key = 32 -> zlen iv = 8 \/ zlen iv = 12 -> exists o, chacha20_poly1305 fresh P header iv key d = Ret o) /\
  (~ (zlen key = 16 \/ zlen key = 32) -> chacha20_poly1305 fresh P header iv key d = Raise (Error Wrong_key_size)) /\
  (zlen key = 16 \/ zlen key = 32 -> ~ (zlen iv = 8 \/ zlen iv = 12) -> chacha20_poly1305 fresh P header iv key d = Raise (Error Wrong_IV_size)).
Proof.
  intros F HP BK BI BH LH. split; [|split].
  - intros K I. destruct (chapoly_obj fresh P header iv key d F HP K I BK BI BH LH) as (o & E & _). eauto.
  - intros K. unfold chacha20_poly1305, new_chacha20. replace (negb ((zlen key =? 16) || (zlen key =? 32))) with true by lia. reflexivity.
  - intros K I. unfold chacha20_poly1305, new_chacha20. replace (negb ((zlen key =? 16) || (zlen key =? 32))) with false by lia.
    replace ((zlen iv =? 8) || ((zlen iv =? 12) && (0 <? 0x1000000))) with false by lia. reflexivity.
Qed.

(* ---- an invalid range given to a decrypting object ---- *)
Lemma chapoly_decrypt_range fresh P header iv key o src so len : (forall n, 0 <= n -> zlen (fresh n) = n) ->
  chacha20_poly1305 fresh P header iv key Decrypt = Ret o -> in_range src so len = false -> 0 <= len <= max_string_length ->
  snd (a_put_substring (ao_class o) (ao_st o) src so len) = Undef.
Proof.
  intros F Eo Hr Hl. unfold chacha20_poly1305 in Eo.
  destruct (new_chacha20 fresh (Some iv) 0 key) as [cha| | |]; cbn [obind] in Eo; try discriminate.
  destruct (snd (poly1305_init_hash fresh P (so_sc cha) (so_st cha) header)) as [h| | |]; cbn [obind] in Eo; try discriminate.
  injection Eo as <-. cbn [ao_class ao_st auth_of a_put_substring stream_transform t_put_substring]. unfold sct_put_substring, sct_ensure, stream_new, lift. cbn [sct_bo sct_c sct_buf].
  destruct (ensure_capacity_ok fresh F (bo_new fresh 256) len) as (b & E & _); [apply (bo_new_inv fresh F); unfold max_string_length; lia|lia|rewrite bo_new_contents; change (zlen (@nil Z)) with 0; lia|].
  rewrite E. cbn [bind]. unfold sct_transform. cbn [sct_c sct_bo sct_buf chapoly_dec sc_transform]. unfold cp_update. cbn [fst snd cp_h]. unfold poly1305_update. rewrite Hr. reflexivity.
Qed.
Lemma chapoly_decrypt_undef : exists (fresh : Z -> bytes) (P : poly_impl) (header iv key : bytes), (forall n, 0 <= n -> zlen (fresh n) = n) /\ poly_class P /\ exists o, chacha20_poly1305 fresh P header iv key Decrypt = Ret o /\ snd (a_put_substring (ao_class o) (ao_st o) [1; 2; 3] 2 5) = Undef.
Proof.
  assert (F : forall n, 0 <= n -> zlen (zeros n) = n) by (intros; apply zlen_zeros; lia).
  assert (HP : poly_class (poly64 mach)) by (exists mach; split; [exact mach_fits|left; reflexivity]).
  exists zeros, (poly64 mach), [], (zeros 12), (zeros 32). split; [exact F|]. split; [exact HP|].
  destruct (chapoly_obj zeros (poly64 mach) [] (zeros 12) (zeros 32) Decrypt F HP) as (o & Eo & _); try apply bytes_ok_zeros; [right; reflexivity|right; reflexivity|constructor|discriminate|].
  exists o. split; [exact Eo|]. eapply chapoly_decrypt_range; [exact F|exact Eo|reflexivity|unfold max_string_length; lia].
Qed.

(* ---- the forms used in the statements ---- *)
Lemma gcm_encrypts (fresh : Z -> bytes) accel nb key A iv : (forall n, 0 <= n -> zlen (fresh n) = n) -> aes_class fresh nb ->
  aes_key_size key -> bytes_ok key -> bytes_ok A -> bytes_ok iv -> zlen A <= max_string_length -> zlen iv <= max_string_length ->
  exists o, aes_gcm fresh accel nb A iv key Encrypt = Ret o /\
  forall msg, bytes_ok msg -> zlen msg + 128 <= max_string_length ->
  auth_whole o msg (if zlen msg <=? 2 ^ 36 - 32
                    then Ret (gcm_C (aes_E key) iv msg, gcm_T (aes_E key) iv A (gcm_C (aes_E key) iv msg))
                    else Raise (Error Message_too_long)).
Proof.
  intros F Hnb K BK BA BI LA LI. destruct (gcm_obj fresh accel nb key A iv Encrypt F Hnb K BK BA BI LA LI) as (o & Eo & Ho).
  exists o. split; [exact Eo|]. intros msg Hm Hs. apply (Ho msg Hm Hs).
Qed.
Lemma checks_if o size res c t txt tag : auth_checks o size res (c ++ t) -> zlen t = size -> res c = Ret (txt, tag) ->
  auth_check o (c ++ t) = Ret (if list_eq_dec Z.eq_dec t tag then Some txt else None).
Proof.
  intros (_ & C2) Lt Er. specialize (C2 ltac:(rewrite zlen_app; pose proof (zlen_nonneg c); lia)). destruct (split_tag c t size Lt) as (F1 & F2). rewrite F1, F2, Er in C2.
  destruct C2 as (C3 & C4). destruct (list_eq_dec Z.eq_dec t tag) as [e|n]; [apply C3|apply C4]; congruence.
Qed.
Lemma gcm_check (fresh : Z -> bytes) accel nb key A iv : (forall n, 0 <= n -> zlen (fresh n) = n) -> aes_class fresh nb ->
  aes_key_size key -> bytes_ok key -> bytes_ok A -> bytes_ok iv -> zlen A <= max_string_length -> zlen iv <= max_string_length ->
  exists o, aes_gcm fresh accel nb A iv key Decrypt = Ret o /\
  forall c t, bytes_ok c -> bytes_ok t -> zlen t = 16 -> zlen c + 144 <= max_string_length ->
  auth_check o (c ++ t) = Ret (if list_eq_dec Z.eq_dec t (gcm_T (aes_E key) iv A c) then Some (gcm_C (aes_E key) iv c) else None).
Proof.
  intros F Hnb K BK BA BI LA LI. destruct (gcm_obj fresh accel nb key A iv Decrypt F Hnb K BK BA BI LA LI) as (o & Eo & Ho).
  exists o. split; [exact Eo|]. intros c t Bc Bt Lt Hs. destruct (Ho (c ++ t)) as (_ & C); [apply bytes_ok_app; auto|rewrite zlen_app; lia|].
  exact (checks_if _ _ _ _ _ _ _ C Lt eq_refl).
Qed.
Lemma chapoly_check (fresh : Z -> bytes) P header iv key : (forall n, 0 <= n -> zlen (fresh n) = n) -> poly_class P ->
  zlen key = 16 \/ zlen key = 32 -> zlen iv = 8 \/ zlen iv = 12 -> bytes_ok key -> bytes_ok iv -> bytes_ok header -> zlen header <= max_string_length ->
  exists o, chacha20_poly1305 fresh P header iv key Decrypt = Ret o /\
  forall c t, bytes_ok c -> bytes_ok t -> zlen t = 16 -> zlen c + 16 <= max_string_length ->
  auth_check o (c ++ t) = Ret (if list_eq_dec Z.eq_dec t (aead_T key iv header c) then Some (aead_C key iv c) else None).
Proof.
  intros F HP K I BK BI BH LH. destruct (chapoly_obj fresh P header iv key Decrypt F HP K I BK BI BH LH) as (o & Eo & Ho).
  exists o. split; [exact Eo|]. intros c t Bc Bt Lt Hs. destruct (Ho (c ++ t)) as (_ & C); [apply bytes_ok_app; auto|rewrite zlen_app; lia|].
  exact (checks_if _ _ _ _ _ _ _ C Lt eq_refl).
Qed.
Lemma chapoly_encrypts (fresh : Z -> bytes) P header iv key : (forall n, 0 <= n -> zlen (fresh n) = n) -> poly_class P ->
  zlen key = 16 \/ zlen key = 32 -> zlen iv = 8 \/ zlen iv = 12 -> bytes_ok key -> bytes_ok iv -> bytes_ok header -> zlen header <= max_string_length ->
  exists o, chacha20_poly1305 fresh P header iv key Encrypt = Ret o /\
  forall msg, bytes_ok msg -> zlen msg <= max_string_length ->
  auth_whole o msg (if (zlen iv =? 12) && (zlen msg >? 2 ^ 38) then Raise (Error Message_too_long)
                    else Ret (aead_C key iv msg, aead_T key iv header (aead_C key iv msg))).
Proof.
  intros F HP K I BK BI BH LH. destruct (chapoly_obj fresh P header iv key Encrypt F HP K I BK BI BH LH) as (o & Eo & Ho).
  exists o. split; [exact Eo|]. intros msg Hm Hs. apply (Ho msg Hm Hs).
Qed.
Lemma tag_size_16 (fresh : Z -> bytes) P header iv key o :
  (exists accel nb d, aes_gcm fresh accel nb header iv key d = Ret o) \/ (exists d, chacha20_poly1305 fresh P header iv key d = Ret o) -> a_tag_size (ao_class o) = 16.
Proof.
  intros [(accel & nb & d & E)|(d & E)].
  - unfold aes_gcm in E. destruct (nb key) as [aes| | |]; cbn [obind] in E; try discriminate.
    destruct (gcm_setup fresh (b_bc aes) accel header iv (b_st aes)) as [[[h e0] g]| | |]; cbn [obind] in E; try discriminate. injection E as <-. destruct d; reflexivity.
  - unfold chacha20_poly1305 in E. destruct (new_chacha20 fresh (Some iv) 0 key) as [cha| | |]; cbn [obind] in E; try discriminate.
    destruct (snd (poly1305_init_hash fresh P (so_sc cha) (so_st cha) header)) as [h| | |]; cbn [obind] in E; try discriminate. injection E as <-. destruct d; reflexivity.
Qed.
Lemma short_strings (fresh : Z -> bytes) P header iv key o (str : bytes) : (forall n, 0 <= n -> zlen (fresh n) = n) ->
  (exists accel nb d, aes_gcm fresh accel nb header iv key d = Ret o) \/ (exists d, chacha20_poly1305 fresh P header iv key d = Ret o) ->
  zlen str < 16 -> auth_check o str = Raise (Error Wrong_data_length).
Proof.
  intros _ H Hs. apply tag_size_16 in H. unfold auth_check, auth_check_transform_string. rewrite H. replace (zlen str <? 16) with true by lia. reflexivity.
Qed.
Lemma gcm_keystream_aes key iv msg : aes_key_size key -> bytes_ok key -> bytes_ok iv -> zlen msg <= 2 ^ 36 - 32 ->
  let E := aes_E key in let J := gcm_J0 E iv in let N := length (chunks 16 msg) in
  (forall i, (i < N)%nat -> nth i (chunks 16 (gcm_C E iv msg)) [] =
     xorb (nth i (chunks 16 msg) []) (firstn (length (nth i (chunks 16 msg) [])) (E (inc32s (S i) J)))) /\
  (forall i j, (i < j <= N)%nat -> inc32s i J <> inc32s j J).
Proof. intros K BK BI Hm. apply gcm_keystream; [|exact BI|exact Hm]. intros b (Hb & Bb). apply aes_E_blk; assumption. Qed.
Lemma chapoly_keystream_ok key iv (msg : bytes) : zlen key = 16 \/ zlen key = 32 -> zlen iv = 8 \/ zlen iv = 12 -> bytes_ok key -> bytes_ok iv ->
  zlen msg <= max_string_length -> (zlen iv = 12 -> zlen msg <= 2 ^ 38 - 64) ->
  (forall n, (n < length msg)%nat -> nth n (aead_C key iv msg) 0 =
     Z.lxor (nth n msg 0) (nth (n mod 64) (chacha_block key (1 + Z.of_nat (n / 64)) iv) 0)) /\
  (forall i j, 0 <= i < j -> j <= (zlen msg + 63) / 64 -> chacha_matrix key i iv <> chacha_matrix key j iv).
Proof. intros K I BK BI Hl H12. split; [apply chapoly_keystream|apply chapoly_distinct; assumption]. Qed.
Lemma chapoly_reuse_exists : exists (fresh : Z -> bytes) P header iv key o msg,
  zlen iv = 12 /\ chacha20_poly1305 fresh P header iv key Encrypt = Ret o /\ zlen msg = 2 ^ 38 /\
  exists C, auth_detached o msg = Ret (C, aead_T key iv header C) /\
  forall n, (n < 64)%nat -> nth (Z.to_nat (2 ^ 38 - 64) + n) C 0 = Z.lxor (nth (Z.to_nat (2 ^ 38 - 64) + n) msg 0) (nth n (chacha_block key 0 iv) 0).
Proof.
  assert (F : forall n, 0 <= n -> zlen (zeros n) = n) by (intros; apply zlen_zeros; lia).
  assert (HP : poly_class (poly64 mach)) by (exists mach; split; [exact mach_fits|left; reflexivity]).
  destruct (chapoly_reuse zeros (poly64 mach) [] (zeros 12) (zeros 32) F HP (or_intror eq_refl) eq_refl (bytes_ok_zeros 32) (bytes_ok_zeros 12) (Forall_nil _) ltac:(discriminate)) as (o & Eo & Ho).
  exists zeros, (poly64 mach), [], (zeros 12), (zeros 32), o, (zeros (2 ^ 38)). split; [reflexivity|]. split; [exact Eo|]. split; [apply zlen_zeros; discriminate|].
  apply Ho; [apply bytes_ok_zeros|apply zlen_zeros; discriminate].
Qed.
Lemma wrong_size_never (fresh : Z -> bytes) : (forall n, 0 <= n -> zlen (fresh n) = n) ->
  exists h1 h2, lib_hash fresh h1 /\ lib_hash fresh h2 /\
  forall h, h = h1 \/ h = h2 -> forall d K A str txt, lib_transform fresh d K A -> bytes_ok str -> K * zlen str + 2 * A <= max_string_length ->
  auth_check (new_transform_and_hash d h) str <> Ret (Some txt) /\ auth_check (new_transform_then_hash fresh d h) str <> Ret (Some txt).
Proof.
  intros F. exists (sha224_obj fresh), (ripemd160_obj fresh). split; [apply L_sha224|]. split; [apply L_ripemd160|]. intros h [->| ->] d K A str txt Hd Hb Hs.
  - eapply (wrong_size_rejects fresh F d K A _ sha224); try eassumption; [exact (sha224_computes fresh F)|discriminate|]. intros m. rewrite sha224_size. discriminate.
  - eapply (wrong_size_rejects fresh F d K A _ ripemd160); try eassumption; [exact (ripemd160_computes fresh F)|discriminate|]. intros m. rewrite ripemd160_size. discriminate.
Qed.
