(* BLAKE3: the tree and its subtrees of a power of two of chunks. *)
From Verif Require Import Prelude PreludeFacts BytesNum SpecBlock BlockTotal Word WordIO SpecHash HashModel HashSpec HashFacts MdModel MdHash ShaModel Sha KeccakModel Keccak
  SpecBlake2 Blake2Model Blake2 SpecBlake3 Blake3Model Blake3 Blake3Chunk.

Section Tree3.
Variables (key : list Z) (flags : Z).
Hypothesis Hkey : okw 8 key.
Hypothesis Hflags : word_ok 32 flags.
Notation parent := (parent_node key flags).
Notation tree3 := (tree key flags).
Definition T (t : Z) (m : bytes) : node := tree3 (length m) t m.

Lemma left_bytes_bounds n : 1024 < n -> 1024 <= left_bytes n < n.
Proof.
  intros H. unfold left_bytes. assert (Hq : 1 <= (n - 1) / 1024) by (apply Z.div_le_lower_bound; lia).
  pose proof (Z.log2_spec ((n - 1) / 1024) ltac:(lia)) as (H1 & _). pose proof (Z.mul_div_le (n - 1) 1024 ltac:(lia)).
  pose proof (Z.log2_nonneg ((n - 1) / 1024)). assert (0 < 2 ^ Z.log2 ((n - 1) / 1024)) by (apply Z.pow_pos_nonneg; lia).
  set (x := 2 ^ Z.log2 _) in *. clearbody x. lia.
Qed.
Lemma tree_fuel f1 : forall f2 t m, (length m <= f1)%nat -> (length m <= f2)%nat -> tree3 f1 t m = tree3 f2 t m.
Proof.
  induction f1 as [|f1 IH]; intros f2 t m H1 H2.
  - destruct f2; [reflexivity|]. cbn [tree]. assert ((zlen m <=? 1024) = true) as -> by (unfold zlen; lia). reflexivity.
  - destruct f2 as [|f2]; cbn [tree].
    + assert ((zlen m <=? 1024) = true) as -> by (unfold zlen; lia). reflexivity.
    + destruct (zlen m <=? 1024) eqn:E; [reflexivity|]. pose proof (left_bytes_bounds (zlen m) ltac:(lia)) as Hb.
      set (n := left_bytes (zlen m)) in *. clearbody n. unfold zlen in *.
      f_equal; apply IH; rewrite ?firstn_length, ?skipn_length; lia.
Qed.
Lemma T_small t m : zlen m <= 1024 -> T t m = chunk_node key flags t m.
Proof.
  intros H. unfold T. destruct (length m) as [|n] eqn:E; [reflexivity|]. cbn [tree]. assert ((zlen m <=? 1024) = true) as -> by lia. reflexivity.
Qed.
Lemma T_big t m : 1024 < zlen m -> T t m = parent (T t (firstn (Z.to_nat (left_bytes (zlen m))) m)) (T (t + left_bytes (zlen m) / 1024) (skipn (Z.to_nat (left_bytes (zlen m))) m)).
Proof.
  intros H. pose proof (left_bytes_bounds _ H) as Hb. unfold T at 1. destruct (length m) as [|n] eqn:E; [unfold zlen in H; lia|].
  cbn [tree]. assert ((zlen m <=? 1024) = false) as -> by lia. set (k := left_bytes (zlen m)) in *. clearbody k. unfold T, zlen in *.
  f_equal; apply tree_fuel; rewrite ?firstn_length, ?skipn_length; lia.
Qed.
Lemma left_bytes_split e a b : 0 <= e -> a = 1024 * 2 ^ e -> 0 < b <= 1024 * 2 ^ e -> left_bytes (a + b) = a.
Proof.
  intros He Ha Hb. unfold left_bytes. assert (Hp : 0 < 2 ^ e) by (apply Z.pow_pos_nonneg; lia).
  assert (Hq : (a + b - 1) / 1024 = 2 ^ e + (b - 1) / 1024).
  { replace (a + b - 1) with (b - 1 + 2 ^ e * 1024) by lia. rewrite Z.div_add by lia. lia. }
  assert (Hr : 0 <= (b - 1) / 1024 < 2 ^ e) by (split; [apply Z.div_pos; lia|apply Z.div_lt_upper_bound; lia]).
  rewrite Hq. rewrite (Z.log2_unique _ e); [lia|assumption|]. replace (Z.succ e) with (e + 1) by lia. rewrite Z.pow_add_r by lia. lia.
Qed.
Lemma T_split e t a b : 0 <= e -> zlen a = 1024 * 2 ^ e -> 0 < zlen b <= 1024 * 2 ^ e -> T t (a ++ b) = parent (T t a) (T (t + 2 ^ e) b).
Proof.
  intros He Ha Hb. assert (Hp : 0 < 2 ^ e) by (apply Z.pow_pos_nonneg; lia).
  rewrite T_big by (rewrite zlen_app; lia). rewrite zlen_app, (left_bytes_split e) by assumption.
  assert (Hn : Z.to_nat (zlen a) = length a) by (unfold zlen; lia). rewrite Hn, firstn_app_l by reflexivity.
  rewrite skipn_app, skipn_all2, Nat.sub_diag by lia. cbn [app skipn]. do 2 f_equal. rewrite Ha, (Z.mul_comm 1024), Z.div_mul by lia. reflexivity.
Qed.

Lemma node_cv_len n : node_ok n -> zlen (node_cv n) = 32 /\ bytes_ok (node_cv n).
Proof.
  intros Hn. destruct (in_place_ok n _ Hn eq_refl) as (_ & Hl & _). unfold node_cv. destruct (words_bytes (node_words n)) as (Hb & Hz).
  split; [rewrite Hz; unfold zlen; rewrite Hl; reflexivity|assumption].
Qed.
Lemma parent_ok l r : node_ok l -> node_ok r -> node_ok (parent l r).
Proof.
  intros Hl Hr. destruct (node_cv_len l Hl) as (H1 & H2), (node_cv_len r Hr) as (H3 & H4).
  unfold node_ok, parent_node. cbn [nd_cv nd_block nd_len nd_t nd_flags]. splits; try assumption.
  - rewrite zlen_app. lia.
  - apply Forall_app. split; assumption.
  - unfold word_ok; lia.
  - lia.
  - apply word_ok_lor; [lia|assumption|unfold word_ok, F_PARENT; lia].
Qed.
Lemma chunk_ok t c : 0 <= t < 2 ^ 64 -> bytes_ok c -> zlen c <= 1024 -> exists s, chunk_state_update (chunk_state_init key t flags) c = Ret s /\
   chunk_state_output s = to_out (chunk_node key flags t c) /\ node_ok (chunk_node key flags t c) /\ nd_t (chunk_node key flags t c) = t.
Proof.
  intros Ht Hb Hl. destruct (chunk_update_ok key flags Hkey Hflags t [] _ c Ht (chunk_init_ok key flags t) Hb) as (s & E & Hi); [cbn; lia|].
  exists s. split; [assumption|]. apply chunk_output_ok; (assumption || lia).
Qed.
Lemma T_ok n : forall t m, (length m <= n)%nat -> 0 <= t -> t * 1024 + zlen m < 2 ^ 64 -> bytes_ok m -> node_ok (T t m) /\ nd_t (T t m) < 2 ^ 64.
Proof.
  induction n as [|n IH]; intros t m Hn Ht Hl Hb.
  - pose proof (zlen_nonneg m). rewrite T_small by (unfold zlen; lia). destruct (chunk_ok t m) as (s & _ & _ & H2 & ->); [lia|assumption|unfold zlen; lia|]. split; [assumption|lia].
  - destruct (Z_le_gt_dec (zlen m) 1024).
    + pose proof (zlen_nonneg m). rewrite T_small by assumption. destruct (chunk_ok t m) as (s & _ & _ & H2 & ->); [lia|assumption|assumption|]. split; [assumption|lia].
    + rewrite T_big by lia. pose proof (left_bytes_bounds (zlen m) ltac:(lia)) as Hk. set (k := left_bytes (zlen m)) in *. clearbody k.
      destruct (bytes_ok_split m (Z.to_nat k) Hb) as (Hb1 & Hb2). pose proof (Z.mul_div_le k 1024 ltac:(lia)). assert (0 <= k / 1024) by (apply Z.div_pos; lia).
      split; [|cbn [parent_node nd_t]; lia].
      apply parent_ok; apply IH; try assumption; unfold zlen in *; rewrite ?firstn_length, ?skipn_length; lia.
Qed.
Lemma T_node t m : 0 <= t -> t * 1024 + zlen m < 2 ^ 64 -> bytes_ok m -> node_ok (T t m) /\ nd_t (T t m) < 2 ^ 64.
Proof. apply (T_ok (length m)). lia. Qed.
Lemma parent_output_ok l r : parent_output (node_cv l ++ node_cv r) key flags = to_out (parent l r).
Proof. reflexivity. Qed.
Lemma parent_hash_one l r : node_ok l -> node_ok r -> hash_one (node_cv l ++ node_cv r) 1 key 0 (Z.lor flags PARENT) 0 0 = node_cv (parent l r).
Proof.
  intros Hl Hr. pose proof (parent_ok l r Hl Hr) as Hp. destruct (in_place_ok _ 0 Hp eq_refl) as (E & _).
  assert (Hz : length (node_cv l ++ node_cv r) = 64%nat).
  { destruct (node_cv_len l Hl) as (H1 & _), (node_cv_len r Hr) as (H3 & _). rewrite app_length. unfold zlen in *. lia. }
  unfold hash_one. cbn [hash_one_loop Nat.eqb]. rewrite !Z.lor_0_r, firstn_all2 by lia. rewrite store_words32_ok.
  unfold node_cv at 3. refine (f_equal (fun w => concat (map (to_le 4) w)) _). exact E.
Qed.

Lemma shl1 a : 0 <= a < 64 -> c_shl 64 1 a = 2 ^ a.
Proof.
  intros H. unfold c_shl. rewrite Z.mul_1_l || rewrite Z.shiftl_1_l. apply Z.mod_small.
  split; [apply Z.pow_nonneg; lia|apply Z.pow_lt_mono_r; lia].
Qed.
Lemma left_len_pow k : 0 <= k < 63 -> left_len (1024 * 2 ^ (k + 1)) = 1024 * 2 ^ k.
Proof.
  intros Hk. unfold left_len. assert (Hp : 0 < 2 ^ (k + 1)) by (apply Z.pow_pos_nonneg; lia).
  assert (Hq : (1024 * 2 ^ (k + 1) - 1) / 1024 = 2 ^ (k + 1) - 1).
  { symmetry. apply (Z.div_unique _ _ _ 1023); lia. }
  rewrite Hq. unfold round_down_to_power_of_2, highest_one. rewrite Z.log2_lor by lia. change (Z.log2 1) with 0.
  replace (2 ^ (k + 1) - 1) with (Z.pred (2 ^ (k + 1))) by lia. rewrite Z.log2_pred_pow2 by lia.
  replace (Z.max (Z.pred (k + 1)) 0) with k by lia. rewrite shl1 by lia. lia.
Qed.

Lemma full_nil f : full_chunks f [] = ([], []).
Proof. destruct f; reflexivity. Qed.
Lemma full_one m : zlen m = 1024 -> full_chunks (length m) m = ([m], []).
Proof.
  intros Hl. assert (Hn : exists f, length m = S f /\ (length m <= 1024)%nat) by (exists (pred (length m)); unfold zlen in Hl; lia). destruct Hn as (f & -> & Hn).
  assert (Hs : skipn 1024 m = []) by (apply skipn_all2; unfold zlen in Hl; lia). assert (Hf : firstn 1024 m = m) by (apply firstn_all2; unfold zlen in Hl; lia).
  cbn [full_chunks]. rewrite Hl, Hs, Hf, full_nil. reflexivity.
Qed.
Lemma wide_leaf fuel t m : 0 <= t < 2 ^ 64 -> zlen m = 1024 -> bytes_ok m -> compress_subtree_wide (S fuel) m key t flags = Ret [node_cv (T t m)].
Proof.
  intros Ht Hl Hb. cbn [compress_subtree_wide]. rewrite Hl. change (1024 <=? simd_degree * 1024) with true. cbn iota. unfold compress_chunks_parallel.
  rewrite full_one by assumption.
  cbn [hash_many]. change (zlen (@nil Z) >? 0) with false. cbn iota. rewrite hash_one_ok by assumption. rewrite T_small by lia. reflexivity.
Qed.
Lemma wide_ok k : forall fuel t m, (k < fuel)%nat -> 0 <= t -> t * 1024 + zlen m < 2 ^ 64 -> bytes_ok m -> zlen m = 1024 * 2 ^ (Z.of_nat k + 1) ->
  compress_subtree_wide (S fuel) m key t flags =
    Ret [node_cv (T t (firstn (Z.to_nat (1024 * 2 ^ Z.of_nat k)) m)); node_cv (T (t + 2 ^ Z.of_nat k) (skipn (Z.to_nat (1024 * 2 ^ Z.of_nat k)) m))].
Proof.
  induction k as [|k IH]; intros fuel t m Hf Ht Hl Hb Hz.
  - cbn [compress_subtree_wide]. rewrite Hz. change (1024 * 2 ^ (Z.of_nat 0 + 1) <=? simd_degree * 1024) with false. cbn iota.
    rewrite left_len_pow by lia. change (1024 * 2 ^ Z.of_nat 0) with 1024. change (1024 * 2 ^ (Z.of_nat 0 + 1)) with 2048 in Hz. change (1024 >? 1024) with false. cbn [andb]. change (1024 / 1024) with 1.
    destruct (bytes_ok_split m (Z.to_nat 1024) Hb) as (Hb1 & Hb2).
    destruct fuel as [|fuel]; [lia|]. rewrite wide_leaf; [|lia|rewrite zlen_firstn; lia|assumption]. cbn [obind].
    assert (Ec : c_add 64 t 1 = t + 1) by (unfold c_add; apply Z.mod_small; lia). rewrite Ec.
    rewrite wide_leaf; [|lia|rewrite zlen_skipn; lia|assumption]. cbn [obind].
    unfold simd_degree, zlen. cbn [length app]. reflexivity.
  - assert (Hp : 0 < 2 ^ Z.of_nat k) by (apply Z.pow_pos_nonneg; lia).
    assert (H2 : 2 ^ Z.of_nat (S k) = 2 * 2 ^ Z.of_nat k) by (replace (Z.of_nat (S k)) with (Z.of_nat k + 1) by lia; rewrite Z.pow_add_r by lia; lia).
    assert (H3 : 2 ^ (Z.of_nat (S k) + 1) = 4 * 2 ^ Z.of_nat k) by (replace (Z.of_nat (S k) + 1) with (Z.of_nat k + 2) by lia; rewrite Z.pow_add_r by lia; lia).
    assert (Hk : Z.of_nat (S k) < 54).
    { apply Z.nle_gt. intros Hle. pose proof (Z.pow_le_mono_r 2 54 _ ltac:(lia) Hle) as HH. change (2 ^ 54) with 18014398509481984 in HH. change (2 ^ 64) with 18446744073709551616 in Hl. lia. }
    assert (Hlt : zlen m <= simd_degree * 1024 -> False) by (unfold simd_degree; lia).
    cbn [compress_subtree_wide]. assert ((zlen m <=? simd_degree * 1024) = false) as -> by (apply Z.leb_gt; lia).
    assert (El : left_len (zlen m) = 1024 * 2 ^ Z.of_nat (S k)) by (rewrite Hz; apply left_len_pow; lia).
    rewrite !El. set (n := 1024 * 2 ^ Z.of_nat (S k)) in *.
    assert (Hn : n = 2048 * 2 ^ Z.of_nat k) by (unfold n; lia).
    assert (Hd : n / 1024 = 2 ^ Z.of_nat (S k)) by (unfold n; rewrite Z.mul_comm, Z.div_mul by lia; reflexivity).
    assert ((n >? 1024) && (simd_degree =? 1) = true) as -> by (unfold simd_degree; lia).
    destruct (bytes_ok_split m (Z.to_nat n) Hb) as (Hb1 & Hb2).
    assert (Ez1 : zlen (firstn (Z.to_nat n) m) = n) by (rewrite zlen_firstn; lia).
    assert (Ez2 : zlen (skipn (Z.to_nat n) m) = n) by (rewrite zlen_skipn; lia).
    assert (Hn' : n = 1024 * 2 ^ (Z.of_nat k + 1)) by (replace (Z.of_nat k + 1) with (Z.of_nat (S k)) by lia; reflexivity).
    destruct fuel as [|fuel]; [lia|].
    rewrite (IH fuel t (firstn (Z.to_nat n) m)); [|lia|lia|lia|assumption|lia]. cbn [obind].
    assert (Ec : c_add 64 t (n / 1024) = t + 2 ^ Z.of_nat (S k)) by (rewrite Hd; unfold c_add; apply Z.mod_small; lia). rewrite Ec.
    rewrite (IH fuel _ (skipn (Z.to_nat n) m)); [|lia|lia|lia|assumption|lia]. cbn [obind].
    unfold zlen at 1 2. cbn [length]. change (negb (Z.of_nat 2 =? 2)) with false. change (Z.of_nat 2 =? 1) with false. cbn iota.
    set (h := 1024 * 2 ^ Z.of_nat k) in *. clearbody n.
    assert (Hh : n = 2 * h) by (unfold h; lia).
    assert (Hs : forall x t', 0 <= t' -> zlen x = n -> bytes_ok x -> t' * 1024 + zlen x < 2 ^ 64 ->
       hash_one (node_cv (T t' (firstn (Z.to_nat h) x)) ++ node_cv (T (t' + 2 ^ Z.of_nat k) (skipn (Z.to_nat h) x))) 1 key 0 (Z.lor flags PARENT) 0 0 = node_cv (T t' x)).
    { intros x t' Ht' Hx Hxb Hxl. destruct (bytes_ok_split x (Z.to_nat h) Hxb) as (Hx1 & Hx2).
      assert (Zx1 : zlen (firstn (Z.to_nat h) x) = h) by (rewrite zlen_firstn; lia).
      assert (Zx2 : zlen (skipn (Z.to_nat h) x) = h) by (rewrite zlen_skipn; lia).
      rewrite parent_hash_one.
      - rewrite <- (firstn_skipn (Z.to_nat h) x) at 3. rewrite (T_split (Z.of_nat k)); [reflexivity|lia|assumption|unfold h in *; lia].
      - apply T_node; [assumption|lia|assumption].
      - apply T_node; [lia|unfold h in *; lia|assumption]. }
    unfold compress_parents_parallel. cbn [app pairs hash_many]. rewrite !Hs; [reflexivity|lia|assumption|assumption|lia|lia|assumption|assumption|lia].
Qed.
Lemma subtree_ok k t m : 0 <= t -> t * 1024 + zlen m < 2 ^ 64 -> bytes_ok m -> zlen m = 1024 * 2 ^ (Z.of_nat k + 1) ->
  compress_subtree_to_parent_node m key t flags =
    Ret (node_cv (T t (firstn (Z.to_nat (1024 * 2 ^ Z.of_nat k)) m)) ++ node_cv (T (t + 2 ^ Z.of_nat k) (skipn (Z.to_nat (1024 * 2 ^ Z.of_nat k)) m))).
Proof.
  intros Ht Hl Hb Hz. unfold compress_subtree_to_parent_node. rewrite (wide_ok k); try assumption.
  - cbn [obind concat]. rewrite app_nil_r. reflexivity.
  - assert (Z.of_nat k < 2 ^ (Z.of_nat k)) by (apply Z.pow_gt_lin_r; lia). rewrite Z.pow_add_r in Hz by lia. unfold zlen in *. lia.
Qed.
End Tree3.
