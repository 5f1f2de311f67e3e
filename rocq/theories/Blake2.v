(* BLAKE2: blake2.c computes the functions of RFC 7693. *)
From Verif Require Import Prelude PreludeFacts BytesNum SpecBlock BlockTotal Word WordIO SpecHash HashModel HashSpec HashFacts MdModel MdHash ShaModel Sha KeccakModel Keccak
  SpecBlake2 Blake2Model.

Section Blake2.
Variable w : Z.
Variable kb : nat.
Variable rounds : nat.
Variables r1 r2 r3 r4 : Z.
Variable iv : list Z.
Hypothesis w_kb : w = 8 * Z.of_nat kb.
Hypothesis kb_pos : (0 < kb)%nat.
Hypothesis r1_ok : 0 <= r1 <= w.
Hypothesis r2_ok : 0 <= r2 <= w.
Hypothesis r3_ok : 0 <= r3 <= w.
Hypothesis r4_ok : 0 <= r4 <= w.
Hypothesis rounds_le : (rounds <= 12)%nat.
Hypothesis iv_len : length iv = 8%nat.
Hypothesis iv_ok : Forall (word_ok w) iv.
Notation P := (Blake2 w rounds r1 r2 r3 r4 iv).
Notation B := (16 * (w / 8)).

Lemma w8 : w / 8 = Z.of_nat kb.
Proof. rewrite w_kb, Z.mul_comm, Z.div_mul; lia. Qed.
Lemma w_nonneg : 0 <= w.
Proof. lia. Qed.
Lemma kb_eq : Z.to_nat (w / 8) = kb.
Proof. rewrite w8. lia. Qed.

Lemma mix_vals_ok a b c d x y : word_ok w a -> word_ok w b -> word_ok w c -> word_ok w d ->
  MIX2_vals w r1 r2 r3 r4 a b c d x y = b_G P (a, b, c, d) x y.
Proof.
  intros Ha Hb Hc Hd. pose proof w_nonneg. unfold MIX2_vals, b_G. cbn [b_w b_R1 b_R2 b_R3 b_R4].
  rewrite !c_add_add_r, !c_ror_rotr; unfold c_add; rewrite ?Z.add_assoc;
    repeat first [assumption | reflexivity | apply word_ok_lxor | apply word_ok_mod | apply word_ok_rotr].
Qed.
Lemma G_ok a b c d x y : word_ok w a -> word_ok w b -> word_ok w c -> word_ok w d ->
  exists a' b' c' d', b_G P (a, b, c, d) x y = (a', b', c', d') /\ word_ok w a' /\ word_ok w b' /\ word_ok w c' /\ word_ok w d'.
Proof.
  intros Ha Hb Hc Hd. pose proof w_nonneg. unfold b_G. cbn [b_w b_R1 b_R2 b_R3 b_R4].
  eexists _, _, _, _. split; [reflexivity|]. splits;
    repeat first [assumption | apply word_ok_lxor | apply word_ok_mod | apply word_ok_rotr].
Qed.

Lemma sigma_ok i : (i < 12)%nat -> nth i BLAKE2_sigma [] = nth (i mod 10) SIGMA [].
Proof. intros H. do 12 (destruct i; [reflexivity|]). lia. Qed.

Ltac lanes16 v := do 16 (let a := fresh "v" in destruct v as [|a v]; [discriminate|]); destruct v; [|discriminate].
Definition okv (v : list Z) : Prop := length v = 16%nat /\ Forall (word_ok w) v.
Lemma mix_0 v0 v1 v2 v3 v4 v5 v6 v7 v8 v9 v10 v11 v12 v13 v14 v15 x y : word_ok w v0 -> word_ok w v4 -> word_ok w v8 -> word_ok w v12 ->
  MIX2 w r1 r2 r3 r4 [v0; v1; v2; v3; v4; v5; v6; v7; v8; v9; v10; v11; v12; v13; v14; v15] 0 4 8 12 x y =
  let '(v0, v4, v8, v12) := b_G P (v0, v4, v8, v12) x y in [v0; v1; v2; v3; v4; v5; v6; v7; v8; v9; v10; v11; v12; v13; v14; v15].
Proof. intros. unfold MIX2. cbn [kget nth]. rewrite mix_vals_ok by assumption. destruct (b_G P (v0, v4, v8, v12) x y) as [[[? ?] ?] ?]. reflexivity. Qed.
Lemma mix_1 v0 v1 v2 v3 v4 v5 v6 v7 v8 v9 v10 v11 v12 v13 v14 v15 x y : word_ok w v1 -> word_ok w v5 -> word_ok w v9 -> word_ok w v13 ->
  MIX2 w r1 r2 r3 r4 [v0; v1; v2; v3; v4; v5; v6; v7; v8; v9; v10; v11; v12; v13; v14; v15] 1 5 9 13 x y =
  let '(v1, v5, v9, v13) := b_G P (v1, v5, v9, v13) x y in [v0; v1; v2; v3; v4; v5; v6; v7; v8; v9; v10; v11; v12; v13; v14; v15].
Proof. intros. unfold MIX2. cbn [kget nth]. rewrite mix_vals_ok by assumption. destruct (b_G P (v1, v5, v9, v13) x y) as [[[? ?] ?] ?]. reflexivity. Qed.
Lemma mix_2 v0 v1 v2 v3 v4 v5 v6 v7 v8 v9 v10 v11 v12 v13 v14 v15 x y : word_ok w v2 -> word_ok w v6 -> word_ok w v10 -> word_ok w v14 ->
  MIX2 w r1 r2 r3 r4 [v0; v1; v2; v3; v4; v5; v6; v7; v8; v9; v10; v11; v12; v13; v14; v15] 2 6 10 14 x y =
  let '(v2, v6, v10, v14) := b_G P (v2, v6, v10, v14) x y in [v0; v1; v2; v3; v4; v5; v6; v7; v8; v9; v10; v11; v12; v13; v14; v15].
Proof. intros. unfold MIX2. cbn [kget nth]. rewrite mix_vals_ok by assumption. destruct (b_G P (v2, v6, v10, v14) x y) as [[[? ?] ?] ?]. reflexivity. Qed.
Lemma mix_3 v0 v1 v2 v3 v4 v5 v6 v7 v8 v9 v10 v11 v12 v13 v14 v15 x y : word_ok w v3 -> word_ok w v7 -> word_ok w v11 -> word_ok w v15 ->
  MIX2 w r1 r2 r3 r4 [v0; v1; v2; v3; v4; v5; v6; v7; v8; v9; v10; v11; v12; v13; v14; v15] 3 7 11 15 x y =
  let '(v3, v7, v11, v15) := b_G P (v3, v7, v11, v15) x y in [v0; v1; v2; v3; v4; v5; v6; v7; v8; v9; v10; v11; v12; v13; v14; v15].
Proof. intros. unfold MIX2. cbn [kget nth]. rewrite mix_vals_ok by assumption. destruct (b_G P (v3, v7, v11, v15) x y) as [[[? ?] ?] ?]. reflexivity. Qed.
Lemma mix_4 v0 v1 v2 v3 v4 v5 v6 v7 v8 v9 v10 v11 v12 v13 v14 v15 x y : word_ok w v0 -> word_ok w v5 -> word_ok w v10 -> word_ok w v15 ->
  MIX2 w r1 r2 r3 r4 [v0; v1; v2; v3; v4; v5; v6; v7; v8; v9; v10; v11; v12; v13; v14; v15] 0 5 10 15 x y =
  let '(v0, v5, v10, v15) := b_G P (v0, v5, v10, v15) x y in [v0; v1; v2; v3; v4; v5; v6; v7; v8; v9; v10; v11; v12; v13; v14; v15].
Proof. intros. unfold MIX2. cbn [kget nth]. rewrite mix_vals_ok by assumption. destruct (b_G P (v0, v5, v10, v15) x y) as [[[? ?] ?] ?]. reflexivity. Qed.
Lemma mix_5 v0 v1 v2 v3 v4 v5 v6 v7 v8 v9 v10 v11 v12 v13 v14 v15 x y : word_ok w v1 -> word_ok w v6 -> word_ok w v11 -> word_ok w v12 ->
  MIX2 w r1 r2 r3 r4 [v0; v1; v2; v3; v4; v5; v6; v7; v8; v9; v10; v11; v12; v13; v14; v15] 1 6 11 12 x y =
  let '(v1, v6, v11, v12) := b_G P (v1, v6, v11, v12) x y in [v0; v1; v2; v3; v4; v5; v6; v7; v8; v9; v10; v11; v12; v13; v14; v15].
Proof. intros. unfold MIX2. cbn [kget nth]. rewrite mix_vals_ok by assumption. destruct (b_G P (v1, v6, v11, v12) x y) as [[[? ?] ?] ?]. reflexivity. Qed.
Lemma mix_6 v0 v1 v2 v3 v4 v5 v6 v7 v8 v9 v10 v11 v12 v13 v14 v15 x y : word_ok w v2 -> word_ok w v7 -> word_ok w v8 -> word_ok w v13 ->
  MIX2 w r1 r2 r3 r4 [v0; v1; v2; v3; v4; v5; v6; v7; v8; v9; v10; v11; v12; v13; v14; v15] 2 7 8 13 x y =
  let '(v2, v7, v8, v13) := b_G P (v2, v7, v8, v13) x y in [v0; v1; v2; v3; v4; v5; v6; v7; v8; v9; v10; v11; v12; v13; v14; v15].
Proof. intros. unfold MIX2. cbn [kget nth]. rewrite mix_vals_ok by assumption. destruct (b_G P (v2, v7, v8, v13) x y) as [[[? ?] ?] ?]. reflexivity. Qed.
Lemma mix_7 v0 v1 v2 v3 v4 v5 v6 v7 v8 v9 v10 v11 v12 v13 v14 v15 x y : word_ok w v3 -> word_ok w v4 -> word_ok w v9 -> word_ok w v14 ->
  MIX2 w r1 r2 r3 r4 [v0; v1; v2; v3; v4; v5; v6; v7; v8; v9; v10; v11; v12; v13; v14; v15] 3 4 9 14 x y =
  let '(v3, v4, v9, v14) := b_G P (v3, v4, v9, v14) x y in [v0; v1; v2; v3; v4; v5; v6; v7; v8; v9; v10; v11; v12; v13; v14; v15].
Proof. intros. unfold MIX2. cbn [kget nth]. rewrite mix_vals_ok by assumption. destruct (b_G P (v3, v4, v9, v14) x y) as [[[? ?] ?] ?]. reflexivity. Qed.
Ltac one L :=
  rewrite L by assumption;
  match goal with
  | |- context [b_G P (?a, ?b, ?c, ?d) ?x ?y] =>
      let E := fresh "E" in
      destruct (G_ok a b c d x y) as (? & ? & ? & ? & E & ? & ? & ? & ?); [assumption..|]; rewrite !E; cbv beta iota; clear E
  end.
Lemma round_ok m v i : (i < 12)%nat -> okv v ->
  mix_round w r1 r2 r3 r4 m v i = b_round P m v i /\ okv (b_round P m v i).
Proof.
  intros Hi (Hl & Hf). lanes16 v. words. clear Hl Hf.
  unfold mix_round, b_round. rewrite (sigma_ok i Hi). set (s := nth (i mod 10) SIGMA []). clearbody s. clear Hi.
  cbv zeta.
  one mix_0. one mix_1. one mix_2. one mix_3. one mix_4. one mix_5. one mix_6. one mix_7.
  split; [reflexivity|]. split; [reflexivity|]. repeat (constructor; [assumption|]). constructor.
Qed.

Lemma fold_seq_S {T} (f : T -> nat -> T) j n a : fold_left f (seq j (S n)) a = fold_left f (seq (S j) n) (f a j).
Proof. reflexivity. Qed.
Lemma rounds_ok_gen m n : forall j v, (j + n <= 12)%nat -> okv v ->
    fold_left (mix_round w r1 r2 r3 r4 m) (seq j n) v = fold_left (b_round P m) (seq j n) v /\ okv (fold_left (b_round P m) (seq j n) v).
Proof.
  induction n as [|n IH]; intros j u Hj Hu; [split; [reflexivity|assumption]|]. 
  assert (Hj' : (j < 12)%nat) by lia. assert (Hj2 : (S j + n <= 12)%nat) by lia.
  destruct (round_ok m u j Hj' Hu) as (E & Hu'). specialize (IH (S j) (b_round P m u j) Hj2 Hu'). rewrite !fold_seq_S, E. exact IH.
Qed.
Lemma rounds_ok m v : okv v ->
  for_range 0 rounds (mix_round w r1 r2 r3 r4 m) v = fold_left (b_round P m) (seq 0 rounds) v /\ okv (fold_left (b_round P m) (seq 0 rounds) v).
Proof. intros Hv. exact (rounds_ok_gen m rounds 0%nat v rounds_le Hv). Qed.

Definition ok8 (h : list Z) : Prop := length h = 8%nat /\ Forall (word_ok w) h.
Lemma compress_ok h t data n fin : ok8 h -> 0 <= t -> 0 <= n < 2 ^ w -> zlen data = B -> bytes_ok data ->
  b2_compress w rounds r1 r2 r3 r4 iv h (t mod 2 ^ w) ((t / 2 ^ w) mod 2 ^ w) data n fin
  = (b_F P h data (t + n) fin, (t + n) mod 2 ^ w, ((t + n) / 2 ^ w) mod 2 ^ w) /\ ok8 (b_F P h data (t + n) fin).
Proof.
  intros (Hl & Hf) Ht Hn Hz Hb. pose proof w_nonneg as Hw. unfold b2_compress, b_F. cbn [b_w b_IV b_rounds].
  assert (E0 : c_add w (t mod 2 ^ w) n = (t + n) mod 2 ^ w) by (unfold c_add; rewrite Zplus_mod_idemp_l; reflexivity).
  assert (E1 : (if (t + n) mod 2 ^ w <? n then c_add w ((t / 2 ^ w) mod 2 ^ w) 1 else (t / 2 ^ w) mod 2 ^ w) = ((t + n) / 2 ^ w) mod 2 ^ w).
  { assert (HM : 0 < 2 ^ w) by (apply Z.pow_pos_nonneg; lia). unfold c_add. rewrite Zplus_mod_idemp_l.
    clear - Ht Hn HM. set (M := 2 ^ w) in *. clearbody M.
    assert (Et := Z.div_mod t M ltac:(lia)). assert (Hr := Z.mod_pos_bound t M HM). set (q := t / M) in *. set (r := t mod M) in *. clearbody q r.
    destruct (Z_lt_ge_dec (r + n) M) as [Hc|Hc].
    - assert (Em : (t + n) mod M = r + n) by (symmetry; apply (Z.mod_unique_pos _ _ q); lia).
      assert (Ed : (t + n) / M = q) by (symmetry; apply (Z.div_unique_pos _ _ _ (r + n)); lia).
      rewrite Em, Ed. destruct (r + n <? n) eqn:E; [lia|reflexivity].
    - assert (Em : (t + n) mod M = r + n - M) by (symmetry; apply (Z.mod_unique_pos _ _ (q + 1)); lia).
      assert (Ed : (t + n) / M = q + 1) by (symmetry; apply (Z.div_unique_pos _ _ _ (r + n - M)); lia).
      rewrite Em, Ed. destruct (r + n - M <? n) eqn:E; [reflexivity|lia]. }
  rewrite E0, E1. rewrite kb_eq.
  assert (El : length data = (16 * kb)%nat) by (unfold zlen in Hz; rewrite w8 in Hz; lia).
  rewrite words_load by (try assumption; lia). unfold b_n. cbn [b_w]. rewrite w8. set (m := le_words (Z.of_nat kb) data). clearbody m.
  destruct h as [|h0 [|h1 [|h2 [|h3 [|h4 [|h5 [|h6 [|h7 [|]]]]]]]]]; try discriminate. cbn [kget nth app].
  assert (E6 : (if fin then c_not w (nth 6 iv 0) else nth 6 iv 0) = if fin then Z.lxor (nth 6 iv 0) (2 ^ w - 1) else nth 6 iv 0).
  { destruct fin; [|reflexivity]. assert (H6 : word_ok w (nth 6 iv 0)) by (apply Forall_word_nth; assumption).
    apply Z.bits_inj'. intros j Hj. rewrite c_not_testbit by assumption. rewrite Z.lxor_spec.
    replace (2 ^ w - 1) with (Z.ones w) by (rewrite Z.ones_equiv; lia).
    destruct (j <? w) eqn:E.
    - rewrite Z.ones_spec_low by lia. destruct (Z.testbit (nth 6 iv 0) j); reflexivity.
    - rewrite Z.ones_spec_high by lia. rewrite (testbit_high w) by (try assumption; lia). reflexivity. }
  rewrite E6.
  match goal with |- context [for_range 0 rounds _ ?v] => set (v0 := v) end.
  assert (Hv : okv v0).
  { words. assert (Hiv : forall i, word_ok w (nth i iv 0)) by (intros; apply Forall_word_nth; assumption).
    split; [reflexivity|]. unfold v0. repeat (apply Forall_cons; [first [assumption | apply Hiv | idtac]|]); [..|constructor].
    - apply word_ok_lxor; [assumption|apply Hiv|apply word_ok_mod; assumption].
    - apply word_ok_lxor; [assumption|apply Hiv|apply word_ok_mod; assumption].
    - destruct fin; [|apply Hiv]. rewrite <- E6. apply word_ok_not, Hiv. }
  destruct (rounds_ok m v0 Hv) as (-> & Hv'). set (v := fold_left _ _ v0) in *. clearbody v. destruct Hv' as (Hvl & Hvf).
  split.
  - f_equal. f_equal. apply map_ext. intros j. unfold kget. rewrite Z.lxor_assoc. reflexivity.
  - split; [rewrite map_length, seq_length; reflexivity|]. apply Forall_forall. intros x Hx. apply in_map_iff in Hx as (j & <- & _).
    apply word_ok_lxor; [assumption|apply word_ok_lxor; [assumption| |]|]; first [apply Forall_word_nth; assumption | exact (Forall_word_nth w [h0; h1; h2; h3; h4; h5; h6; h7] j Hw Hf)].
Qed.

(* ---- the blocks ---- *)
Lemma b_blocks_snoc l : forall h t b, b_blocks P h t (l ++ [b]) =
  b_F P (b_blocks P h t l) b (t + zlen l * B + B) false.
Proof.
  induction l as [|a l IH]; intros h t b.
  - cbn [app b_blocks]. unfold b_bb, b_n. cbn [b_w]. change (zlen (@nil bytes)) with 0. f_equal. lia.
  - cbn [app b_blocks]. rewrite IH. f_equal. unfold b_bb, b_n. cbn [b_w]. rewrite zlen_cons. lia.
Qed.
Lemma zlen_concat_blocks (l : list bytes) : Forall (fun b => zlen b = B) l -> zlen (concat l) = zlen l * B.
Proof. induction 1 as [|b l Hb _ IH]; [reflexivity|]. cbn [concat]. rewrite zlen_app, IH, Hb, zlen_cons. lia. Qed.

Definition b2_inv (h0 : list Z) (c : b2_ctx) (d : bytes) : Prop :=
  exists blks tail rest, d = concat blks ++ tail /\ Forall (fun b => zlen b = B) blks /\ (tail = [] -> blks = []) /\ zlen tail <= B /\
   bytes_ok d /\ b2_h c = b_blocks P h0 0 blks /\ ok8 (b2_h c) /\
   b2_len0 c = zlen (concat blks) mod 2 ^ w /\ b2_len1 c = (zlen (concat blks) / 2 ^ w) mod 2 ^ w /\
   b2_num c = zlen tail /\ b2_buf c = tail ++ rest /\ zlen (b2_buf c) = B.

Hypothesis B_small : 16 * (w / 8) < 2 ^ w.
Lemma B_pos : 0 < B.
Proof. rewrite w8. lia. Qed.

Lemma blocks_ok h0 fuel : forall blks buf data, (length data < fuel)%nat ->
  Forall (fun b => zlen b = B) blks -> bytes_ok (concat blks) -> bytes_ok data -> zlen buf = B -> (data = [] -> blks = []) ->
  ok8 (b_blocks P h0 0 blks) ->
  exists c, b2_blocks w rounds r1 r2 r3 r4 iv fuel (b_blocks P h0 0 blks) (zlen (concat blks) mod 2 ^ w) ((zlen (concat blks) / 2 ^ w) mod 2 ^ w) buf data = Ret c /\
    b2_inv h0 c (concat blks ++ data).
Proof.
  induction fuel as [|f IH]; intros blks buf data Hfuel Hbl Hb0 Hb Hz Hne Hok; [lia|]. cbn [b2_blocks]. pose proof B_pos as HB.
  destruct (zlen data >? B) eqn:E.
  - assert (Hbt : bytes_ok (firstn (Z.to_nat B) data)) by (apply Forall_firstn; assumption).
    assert (Hzt : zlen (firstn (Z.to_nat B) data) = B) by (rewrite zlen_firstn; lia).
    destruct (compress_ok (b_blocks P h0 0 blks) (zlen (concat blks)) (firstn (Z.to_nat B) data) B false) as (-> & Hok');
      [assumption|apply zlen_nonneg|lia|assumption|assumption|].
    assert (Es : b_F P (b_blocks P h0 0 blks) (firstn (Z.to_nat B) data) (zlen (concat blks) + B) false
                 = b_blocks P h0 0 (blks ++ [firstn (Z.to_nat B) data])).
    { rewrite b_blocks_snoc, zlen_concat_blocks by assumption. reflexivity. }
    rewrite Es in *.
    assert (Ec : concat (blks ++ [firstn (Z.to_nat B) data]) = concat blks ++ firstn (Z.to_nat B) data) by (rewrite concat_app; cbn; rewrite app_nil_r; reflexivity).
    replace (zlen (concat blks) + B) with (zlen (concat (blks ++ [firstn (Z.to_nat B) data]))) by (rewrite Ec, zlen_app, Hzt; reflexivity).
    destruct (IH (blks ++ [firstn (Z.to_nat B) data]) buf (skipn (Z.to_nat B) data)) as (c & -> & Hi).
    + rewrite skipn_length. unfold zlen in E. lia.
    + apply Forall_app. split; [assumption|]. constructor; [assumption|constructor].
    + rewrite Ec. apply Forall_app. split; assumption.
    + apply Forall_skipn. assumption.
    + assumption.
    + intros Hs. exfalso. assert (zlen (skipn (Z.to_nat B) data) = 0) by (rewrite Hs; reflexivity). rewrite zlen_skipn in H. lia.
    + assumption.
    + exists c. split; [reflexivity|]. rewrite Ec, <- app_assoc, firstn_skipn in Hi. exact Hi.
  - rewrite c_memcpy_ok by lia. cbn [obind]. eexists. split; [reflexivity|].
    exists blks, data, (skipn (length data) buf). cbn [b2_h b2_len0 b2_len1 b2_num b2_buf].
    splits; try assumption; try reflexivity; try lia.
    + apply Forall_app. split; assumption.
    + rewrite zlen_splice; [assumption|lia|lia].
Qed.

Lemma add_data_ok h0 c d data : b2_inv h0 c d -> bytes_ok data ->
  exists c', b2_add_data w rounds r1 r2 r3 r4 iv c data = Ret c' /\ b2_inv h0 c' (d ++ data).
Proof.
  intros (blks & tail & rest & -> & Hbl & Hne & Htl & Hb & Hh & Hok & H0 & H1 & Hn & Hbuf & Hz) Hd. unfold b2_add_data. pose proof B_pos as HB.
  pose proof (zlen_nonneg tail) as Ht0. pose proof (zlen_nonneg data) as Hd0.
  apply Forall_app in Hb as (Hbc & Hbt).
  assert (Hzr : zlen rest = B - zlen tail) by (rewrite Hbuf, zlen_app in Hz; lia).
  rewrite Hn. destruct (zlen tail >? 0) eqn:Et.
  - destruct (zlen data <=? B - zlen tail) eqn:Ed.
    + rewrite c_memcpy_ok by lia. cbn [obind]. eexists. split; [reflexivity|].
      exists blks, (tail ++ data), (skipn (length data) rest). cbn [b2_h b2_len0 b2_len1 b2_num b2_buf].
      splits; try assumption.
      * rewrite app_assoc. reflexivity.
      * intros Hx. apply app_eq_nil in Hx as (-> & _). cbn in Et. discriminate.
      * rewrite zlen_app. lia.
      * apply Forall_app. split; [apply Forall_app; split; assumption|assumption].
      * rewrite zlen_app. reflexivity.
      * rewrite Hbuf. rewrite splice_app_mid by reflexivity. rewrite app_assoc. reflexivity.
      * rewrite zlen_splice; lia.
    + set (n := B - zlen tail) in *.
      assert (Hzf : zlen (firstn (Z.to_nat n) data) = n) by (rewrite zlen_firstn; lia).
      rewrite c_memcpy_ok by lia. cbn [obind].
      assert (Eb : splice (b2_buf c) (zlen tail) (firstn (Z.to_nat n) data) = tail ++ firstn (Z.to_nat n) data).
      { rewrite Hbuf, splice_app_mid by reflexivity. rewrite skipn_all2; [rewrite app_nil_r; reflexivity|]. unfold zlen in *. lia. }
      rewrite Eb. set (blk := tail ++ firstn (Z.to_nat n) data) in *.
      assert (Hzb : zlen blk = B) by (unfold blk; rewrite zlen_app; lia).
      assert (Hbb : bytes_ok blk) by (apply Forall_app; split; [assumption|apply Forall_firstn; assumption]).
      rewrite H0, H1.
      destruct (compress_ok (b2_h c) (zlen (concat blks)) blk B false) as (-> & Hok'); [assumption|apply zlen_nonneg|lia|assumption|assumption|].
      assert (Es : b_F P (b2_h c) blk (zlen (concat blks) + B) false = b_blocks P h0 0 (blks ++ [blk])).
      { rewrite b_blocks_snoc, Hh, zlen_concat_blocks by assumption. reflexivity. }
      rewrite Es in *.
      assert (Ec : concat (blks ++ [blk]) = concat blks ++ blk) by (rewrite concat_app; cbn; rewrite app_nil_r; reflexivity).
      replace (zlen (concat blks) + B) with (zlen (concat (blks ++ [blk]))) by (rewrite Ec, zlen_app, Hzb; reflexivity).
      destruct (blocks_ok h0 (S (length (skipn (Z.to_nat n) data))) (blks ++ [blk]) blk (skipn (Z.to_nat n) data)) as (c' & -> & Hi).
      * lia.
      * apply Forall_app. split; [assumption|]. constructor; [assumption|constructor].
      * rewrite Ec. apply Forall_app. split; assumption.
      * apply Forall_skipn. assumption.
      * assumption.
      * intros Hs. exfalso. assert (zlen (skipn (Z.to_nat n) data) = 0) by (rewrite Hs; reflexivity). rewrite zlen_skipn in H. lia.
      * assumption.
      * exists c'. split; [reflexivity|]. rewrite Ec in Hi. unfold blk in Hi. rewrite <- !app_assoc, firstn_skipn in Hi. rewrite <- app_assoc. exact Hi.
  - assert (tail = []) as -> by (apply zlen_0; lia). rewrite (Hne eq_refl) in *. cbn [concat app] in *.
    rewrite Hh, H0, H1.
    destruct (blocks_ok h0 (S (length data)) [] (b2_buf c) data) as (c' & E & Hi); try assumption; try reflexivity; try lia; try constructor.
    + rewrite <- Hh. apply Hok.
    + rewrite <- Hh. apply Hok.
    + exists c'. split; [exact E|exact Hi].
Qed.

Lemma last_blocks blks tail : Forall (fun b => zlen b = B) blks -> (tail = [] -> blks = []) -> zlen tail <= B ->
  match concat blks ++ tail with [] => [[]] | _ => chunks B (concat blks ++ tail) end = blks ++ [tail].
Proof.
  intros Hbl Hne Htl. pose proof B_pos as HB. destruct tail as [|x tail].
  - rewrite (Hne eq_refl). reflexivity.
  - assert (E : chunks B (concat blks ++ x :: tail) = blks ++ [x :: tail]).
    { rewrite chunks_concat by assumption. f_equal. apply chunks_short. rewrite zlen_cons in *. pose proof (zlen_nonneg tail). lia. }
    rewrite E. destruct (concat blks ++ x :: tail) eqn:Ec; [|reflexivity]. apply app_eq_nil in Ec as (_ & Ec). discriminate.
Qed.

Lemma final_ok h0 c d n : b2_inv h0 c d -> 0 < n <= w ->
  snd (b2_final w rounds r1 r2 r3 r4 iv n c) = Ret (
    let blks := match d with [] => [[]] | _ => chunks B d end in
    firstn (Z.to_nat n) (concat (map (to_le kb) (b_F P (b_blocks P h0 0 (removelast blks)) (b_pad P (last blks [])) (zlen d) true)))).
Proof.
  intros (blks & tail & rest & -> & Hbl & Hne & Htl & Hb & Hh & Hok & H0 & H1 & Hn & Hbuf & Hz) Hn0. pose proof B_pos as HB.
  pose proof (zlen_nonneg tail) as Ht0.
  assert (Hzr : zlen rest = B - zlen tail) by (rewrite Hbuf, zlen_app in Hz; lia).
  apply Forall_app in Hb as (Hbc & Hbt).
  cbv zeta. rewrite last_blocks by assumption. rewrite removelast_last, last_last.
  unfold b2_final. rewrite Hn, c_memset0_ok by lia.
  assert (Eb : splice (b2_buf c) (zlen tail) (zeros (B - zlen tail)) = b_pad P tail).
  { rewrite Hbuf, splice_app_mid by reflexivity. unfold b_pad, b_bb, b_n. cbn [b_w]. rewrite skipn_all2; [rewrite app_nil_r; reflexivity|].
    unfold zeros. rewrite repeat_length. unfold zlen in *. lia. }
  rewrite Eb, H0, H1. 
  assert (Hzp : zlen (b_pad P tail) = B).
  { unfold b_pad, b_bb, b_n. cbn [b_w]. rewrite zlen_app, zlen_zeros by lia. lia. }
  assert (Hbp : bytes_ok (b_pad P tail)).
  { apply Forall_app. split; [assumption|]. apply Forall_forall. intros x Hx. apply repeat_spec in Hx. subst x. unfold byte_ok. lia. }
  destruct (compress_ok (b2_h c) (zlen (concat blks)) (b_pad P tail) (zlen tail) true) as (-> & Hok'); [assumption|apply zlen_nonneg|lia|assumption|assumption|].
  cbn [snd]. f_equal. rewrite kb_eq. rewrite Hh in *. rewrite zlen_app. destruct Hok' as (Hl8 & _). apply store_bytes; [assumption|]. rewrite Hl8. lia.
Qed.

(* ---- the objects ---- *)
Hypothesis w_small : 64 <= 16 * (w / 8).
Hypothesis w_cases : w = 64 \/ w = 32.
Definition b_h0 (keylen nn : Z) : list Z :=
  match iv with h :: l => Z.lxor (Z.lxor (Z.lxor h 0x01010000) (Z.shiftl keylen 8)) nn :: l | [] => [] end.

Definition lor_check : bool :=
  forallb (fun kl => forallb (fun n => Z.lor (Z.lor 0x01010000 (Z.shiftl (Z.of_nat kl) 8)) (Z.of_nat n) =?
     Z.lxor (Z.lxor 0x01010000 (Z.shiftl (Z.of_nat kl) 8)) (Z.of_nat n)) (seq 0 65)) (seq 0 65).
Lemma lor_lxor kl n : 0 <= kl <= 64 -> 0 <= n <= 64 ->
  Z.lor (Z.lor 0x01010000 (Z.shiftl kl 8)) n = Z.lxor (Z.lxor 0x01010000 (Z.shiftl kl 8)) n
  /\ word_ok 32 (Z.lor (Z.lor 0x01010000 (Z.shiftl kl 8)) n).
Proof.
  intros Hk Hn. split.
  - assert (C : lor_check = true) by (vm_compute; reflexivity).
    unfold lor_check in C. rewrite forallb_forall in C. specialize (C (Z.to_nat kl)). rewrite forallb_forall in C.
    specialize (C ltac:(apply in_seq; lia) (Z.to_nat n) ltac:(apply in_seq; lia)). rewrite !Z2Nat.id in C by lia. lia.
  - apply word_ok_lor; [lia|apply word_ok_lor; [lia|unfold word_ok; lia|]|unfold word_ok; lia].
    unfold word_ok. rewrite Z.shiftl_mul_pow2 by lia. lia.
Qed.
Lemma init_ok buf nn key : zlen buf = B -> 0 < nn <= w -> zlen key <= w -> bytes_ok key ->
  exists c, b2_init w iv nn key buf = Ret c /\ b2_inv (b_h0 (zlen key) nn) c (b_data P key []).
Proof.
  intros Hz Hn Hk Hb. pose proof (zlen_nonneg key) as Hk0. pose proof B_pos as HB. unfold b2_init.
  destruct (lor_lxor (zlen key) nn) as (El & Hw32); [lia|lia|]. rewrite El in *.
  set (h := kput iv 0 _).
  assert (Eh : h = b_h0 (zlen key) nn).
  { unfold h, b_h0. destruct iv as [|h1 l]; [discriminate|]. cbn [kget nth]. unfold kput. cbn [firstn skipn app]. rewrite !Z.lxor_assoc. reflexivity. }
  assert (Hh : ok8 h).
  { pose proof w_nonneg as Hw0. unfold h. clear h Eh. destruct iv as [|h1 l]; [discriminate|]. unfold kput. cbn [firstn skipn app]. split; [exact iv_len|].
    apply Forall_cons_iff in iv_ok as (? & ?). apply Forall_cons; [|assumption]. apply word_ok_lxor; [assumption|assumption|].
    destruct w_cases as [-> | ->]; [|assumption]. unfold word_ok in *. lia. }
  destruct (zlen key >? 0) eqn:E.
  - rewrite c_memset0_ok by lia. cbn [obind]. rewrite c_memcpy_ok by (rewrite ?zlen_splice; rewrite ?zlen_zeros; lia). cbn [obind].
    eexists. split; [reflexivity|].
    assert (Eb : splice (splice buf 0 (zeros B)) 0 key = key ++ zeros (B - zlen key)).
    { rewrite (splice_0 buf), (skipn_all2 buf) by (unfold zeros; rewrite repeat_length; unfold zlen in Hz; lia).
      rewrite app_nil_r, splice_0. f_equal. unfold zeros.
      replace (Z.to_nat B) with (length key + Z.to_nat (B - zlen key))%nat by (unfold zlen in *; lia).
      rewrite repeat_app, skipn_app, skipn_all2 by (rewrite repeat_length; lia). rewrite repeat_length, Nat.sub_diag. reflexivity. }
    assert (Ed : b_data P key [] = key ++ zeros (B - zlen key)).
    { unfold b_data. destruct (zlen key =? 0) eqn:E0; [lia|]. rewrite app_nil_r. reflexivity. }
    exists [], (key ++ zeros (B - zlen key)), []. cbn [b2_h b2_len0 b2_len1 b2_num b2_buf concat].
    assert (Hzz : zlen (key ++ zeros (B - zlen key)) = B) by (rewrite zlen_app, zlen_zeros by lia; lia).
    splits; try assumption; try reflexivity; try lia.
    + constructor.
    + rewrite Ed. apply Forall_app. split; [assumption|]. apply Forall_forall. intros x Hx. apply repeat_spec in Hx. subst x. unfold byte_ok. lia.
    + rewrite app_nil_r. exact Eb.
    + rewrite Eb. exact Hzz.
  - assert (key = []) as -> by (apply zlen_0; lia). eexists. split; [reflexivity|].
    exists [], [], buf. cbn [b2_h b2_len0 b2_len1 b2_num b2_buf concat app].
    splits; try assumption; try reflexivity; try lia; constructor.
Qed.

Lemma b_data_app key m d : b_data P key (m ++ d) = b_data P key m ++ d.
Proof. unfold b_data. rewrite app_assoc. reflexivity. Qed.

Lemma blake2_himpl sz key : 8 <= sz <= 8 * w -> sz mod 8 = 0 ->
  himpl (fun _ => True) (blake2_class w rounds r1 r2 r3 r4 iv sz) (fun m => Ret (blake2_digest P (sz / 8) key m))
    (fun c m => b2_inv (b_h0 (zlen key) (sz / 8)) c (b_data P key m)).
Proof.
  intros Hsz Hm. apply c_hash_himpl; [trivial| |].
  - intros c m d Hc Hd _ _. rewrite b_data_app. apply add_data_ok; assumption.
  - intros c m Hc _. rewrite (final_ok _ _ _ (sz / 8) Hc) by lia. unfold blake2_digest. unfold b_n, b_bb, b_n. cbn [b_w b_IV]. rewrite kb_eq. reflexivity.
Qed.

Lemma blake2_new_ok fresh sz key : (forall n, 0 <= n -> zlen (fresh n) = n) -> 8 <= sz <= 8 * w -> sz mod 8 = 0 -> zlen key <= w -> bytes_ok key ->
  exists o, blake2_new w rounds r1 r2 r3 r4 iv fresh sz key = Ret o /\ h_size (ho_class o) = sz / 8 /\ computes o (blake2_digest P (sz / 8) key).
Proof.
  intros Hf Hsz Hm Hk Hb. destruct (init_ok (fresh B) (sz / 8) key) as (c & E & Hi); [apply Hf; pose proof B_pos; lia|lia|assumption|assumption|].
  exists (HObj (blake2_class w rounds r1 r2 r3 r4 iv sz) c). split; [|split].
  - unfold blake2_new. assert ((sz >=? 8) && (sz <=? 8 * w) && (sz mod 8 =? 0) && (zlen key <=? w) = true) as -> by lia. rewrite E. reflexivity.
  - reflexivity.
  - eapply himpl_computes; [apply blake2_himpl; assumption|]. exact Hi.
Qed.
End Blake2.

Lemma blake2_new_other w rounds r1 r2 r3 r4 iv fresh sz key : ~ (8 <= sz <= 8 * w /\ sz mod 8 = 0 /\ zlen key <= w) ->
  blake2_new w rounds r1 r2 r3 r4 iv fresh sz key = Raise (Error Wrong_key_size).
Proof.
  intros H. unfold blake2_new. destruct ((sz >=? 8) && (sz <=? 8 * w) && (sz mod 8 =? 0) && (zlen key <=? w)) eqn:E; [|reflexivity].
  exfalso. apply H. lia.
Qed.

Lemma iv2b_ok : map (sqrt_frac 64) (firstn 8 primes) = blake2b_iv. Proof. vm_compute. reflexivity. Qed.
Lemma iv2s_ok : map (sqrt_frac 32) (firstn 8 primes) = blake2s_iv. Proof. vm_compute. reflexivity. Qed.
Lemma blake2b_ok fresh sz key : (forall n, 0 <= n -> zlen (fresh n) = n) -> 8 <= sz <= 512 -> sz mod 8 = 0 -> zlen key <= 64 -> bytes_ok key ->
  exists o, blake2b_obj fresh sz key = Ret o /\ h_size (ho_class o) = sz / 8 /\ computes o (blake2b_spec (sz / 8) key).
Proof.
  intros Hf Hsz Hm Hk Hb. unfold blake2b_spec, blake2b_params. rewrite iv2b_ok.
  apply (blake2_new_ok 64 8); try assumption; try lia; try reflexivity.
  repeat (apply Forall_cons; [unfold word_ok; lia|]). constructor.
Qed.
Lemma blake2s_ok fresh sz key : (forall n, 0 <= n -> zlen (fresh n) = n) -> 8 <= sz <= 256 -> sz mod 8 = 0 -> zlen key <= 32 -> bytes_ok key ->
  exists o, blake2s_obj fresh sz key = Ret o /\ h_size (ho_class o) = sz / 8 /\ computes o (blake2s_spec (sz / 8) key).
Proof.
  intros Hf Hsz Hm Hk Hb. unfold blake2s_spec, blake2s_params. rewrite iv2s_ok.
  apply (blake2_new_ok 32 4); try assumption; try lia; try reflexivity.
  repeat (apply Forall_cons; [unfold word_ok; lia|]). constructor.
Qed.
