(* The compression functions of sha1.c, sha256.c and sha512.c are those of
   FIPS 180-4, and the hash objects compute SHA-1 and SHA-2. *)
From Verif Require Import Prelude PreludeFacts BytesNum Word SpecBlock BlockTotal SpecHash HashModel MdModel ShaModel HashSpec HashFacts MdHash.

(* split conjunctions without unfolding definitions *)
Ltac splits := repeat match goal with |- _ /\ _ => split end.

(* ---- lists of words ---- *)
Lemma chunks_rev_words n b : 0 < n -> zlen b mod n = 0 -> load_words n (copy_and_swap n b) = be_words n b.
Proof.
  intros Hn Hb. unfold load_words, copy_and_swap, be_words.
  destruct (split_blocks n b Hn) as (blks & tail & E & H1 & H2 & H3 & _). rewrite Hb in H3. apply zlen_0 in H3. subst tail.
  rewrite app_nil_r in E. subst b. rewrite (chunks_concat0 n blks) by assumption. rewrite chunks_concat0; try assumption.
  - rewrite map_map. apply map_ext. intros x. reflexivity.
  - apply Forall_map. eapply Forall_impl; [|exact H1]. intros a Ha. rewrite zlen_rev. exact Ha.
Qed.
Lemma store_words_be n l : 0 < n -> copy_and_swap n (store_words n l) = concat (map (to_be (Z.to_nat n)) l).
Proof.
  intros Hn. unfold copy_and_swap, store_words. rewrite chunks_concat0; [|assumption|].
  - rewrite map_map. reflexivity.
  - apply Forall_map. apply Forall_forall. intros x _. rewrite zlen_to_le. lia.
Qed.
Lemma chunks_length n b : 0 < n -> zlen b mod n = 0 -> zlen (chunks n b) = zlen b / n /\ Forall (fun c => zlen c = n) (chunks n b) /\ (bytes_ok b -> Forall bytes_ok (chunks n b)).
Proof.
  intros Hn Hb. destruct (split_blocks n b Hn) as (blks & tail & E & H1 & H2 & H3 & H4). rewrite Hb in H3. apply zlen_0 in H3. subst tail.
  rewrite app_nil_r in E. assert (Ec : chunks n b = blks) by (rewrite E; apply chunks_concat0; assumption). rewrite Ec. split; [|split; [assumption|intros Hx; apply (H4 Hx)]].
  assert (zlen b = zlen blks * n) as ->.
  { rewrite E. clear - H1. induction H1; [reflexivity|]. cbn [concat]. rewrite zlen_app, zlen_cons. lia. }
  rewrite Z.div_mul by lia. reflexivity.
Qed.
Lemma be_words_ok n b : 0 < n -> zlen b mod n = 0 -> bytes_ok b -> length (be_words n b) = Z.to_nat (zlen b / n) /\ Forall (word_ok (8 * n)) (be_words n b).
Proof.
  intros Hn Hb Hok. destruct (chunks_length n b Hn Hb) as (H1 & H2 & H3). unfold be_words. rewrite map_length. split.
  - rewrite <- H1. unfold zlen. lia.
  - specialize (H3 Hok). apply Forall_map, Forall_forall. intros c Hc. rewrite Forall_forall in H2, H3.
    apply word_ok_be; [apply H3; assumption|]. rewrite (H2 c Hc). reflexivity.
Qed.
Lemma enc_length_be_ok n hi lo : 0 < n -> word_ok (8 * n) lo ->
  enc_length_be n hi lo = to_be (Z.to_nat (2 * n)) (hi * 2 ^ (8 * n) + lo).
Proof.
  intros Hn Hlo. unfold enc_length_be. rewrite store_words_be by assumption. cbn [map concat]. rewrite app_nil_r.
  unfold to_be. rewrite <- rev_app_distr. f_equal.
  assert (E : forall k1 k2 x, to_le (k1 + k2) x = to_le k1 x ++ to_le k2 (x / 256 ^ Z.of_nat k1)).
  { induction k1 as [|k1 IH]; intros k2 x; [cbn; rewrite Z.div_1_r; reflexivity|]. cbn [plus to_le app]. rewrite IH. rewrite pow256_S.
    rewrite <- Z.div_div by (try apply pow256_pos; lia). reflexivity. }
  replace (Z.to_nat (2 * n)) with (Z.to_nat n + Z.to_nat n)%nat by lia. rewrite E. rewrite Z2Nat.id by lia.
  assert (E2 : 2 ^ (8 * n) = 256 ^ n) by (change 256 with (2 ^ 8); rewrite <- Z.pow_mul_r by lia; reflexivity).
  unfold word_ok in Hlo. rewrite E2 in *. f_equal.
  - rewrite <- (to_le_mod _ (hi * 256 ^ n + lo)). rewrite Z2Nat.id by lia. rewrite Z.add_comm, Z_mod_plus_full, Z.mod_small by assumption. reflexivity.
  - f_equal. rewrite Z.add_comm, Z.div_add, Z.div_small by lia. reflexivity.
Qed.

(* ---- folds ---- *)
Lemma fold_ext_inv {S X} (Inv : S -> Prop) (f g : S -> X -> S) l : forall s, Inv s ->
  (forall s x, Inv s -> In x l -> f s x = g s x /\ Inv (g s x)) ->
  fold_left f l s = fold_left g l s /\ Inv (fold_left g l s).
Proof.
  induction l as [|x l IH]; intros s Hs H; [split; [reflexivity|assumption]|]. cbn [fold_left].
  destruct (H s x Hs (or_introl eq_refl)) as (-> & H'). apply IH; [assumption|]. intros; apply H; [assumption|right; assumption].
Qed.
Lemma expand_extend (Inv : list Z -> Prop) next next' n : forall i data, length data = i -> Inv data ->
  (forall d, Inv d -> next d (length d) = next' d /\ Inv (d ++ [next' d])) ->
  expand next n i data = extend next' n data /\ Inv (extend next' n data).
Proof.
  induction n as [|n IH]; intros i data Hi Hd H; [split; [reflexivity|assumption]|]. cbn [expand extend].
  destruct (H data Hd) as (E & H'). rewrite <- Hi, E. apply IH; [rewrite app_length; cbn; lia|assumption|assumption].
Qed.
Lemma extend_length next n : forall W, length (extend next n W) = (length W + n)%nat.
Proof. induction n as [|n IH]; intros W; cbn [extend]; [lia|]. rewrite IH, app_length. cbn. lia. Qed.
Lemma extend_nth next n : forall W i, (i < length W)%nat -> nth i (extend next n W) 0 = nth i W 0.
Proof. induction n as [|n IH]; intros W i Hi; cbn [extend]; [reflexivity|]. rewrite IH by (rewrite app_length; lia). apply app_nth1. assumption. Qed.
Lemma extend_add next a : forall b W, extend next (a + b) W = extend next b (extend next a W).
Proof. induction a as [|a IH]; intros b W; cbn [plus extend]; [reflexivity|]. apply IH. Qed.
Lemma Forall_word_nth w l i : 0 <= w -> Forall (word_ok w) l -> word_ok w (nth i l 0).
Proof.
  intros Hw Hl. destruct (nth_in_or_default i l 0) as [H| ->]; [rewrite Forall_forall in Hl; apply Hl; assumption|].
  split; [lia|apply Z.pow_pos_nonneg; lia].
Qed.
Lemma fold_groups {T} (h : T -> nat -> T) m : forall n k s,
  fold_left (fun s k => fold_left h (seq (m * k) m) s) (seq k n) s = fold_left h (seq (m * k) (m * n)) s.
Proof.
  induction n as [|n IH]; intros k s.
  - rewrite Nat.mul_0_r. reflexivity.
  - cbn [seq fold_left]. rewrite IH. replace (m * S n)%nat with (m + m * n)%nat by lia. rewrite seq_app, fold_left_app.
    replace (m * S k)%nat with (m * k + m)%nat by lia. reflexivity.
Qed.

Lemma c_add_add w a b c : c_add w (c_add w a b) c = c_add w a (b + c).
Proof. unfold c_add. rewrite Zplus_mod_idemp_l. f_equal. lia. Qed.
Lemma c_add_add_r w a b c : c_add w a (c_add w b c) = c_add w a (b + c).
Proof. unfold c_add. apply Zplus_mod_idemp_r. Qed.

(* ---- logical functions ---- *)
Lemma CH_Ch w x y z : 0 <= w -> word_ok w x -> word_ok w y -> word_ok w z -> CH x y z = Ch w x y z.
Proof.
  intros Hw Hx Hy Hz. unfold CH, Ch. change (2 ^ w - 1 - x) with (c_not w x).
  apply Z.bits_inj'. intros n Hn. rewrite !Z.lxor_spec, !Z.land_spec, Z.lxor_spec, c_not_testbit by assumption.
  destruct (Z.ltb_spec n w).
  - destruct (Z.testbit x n), (Z.testbit y n), (Z.testbit z n); reflexivity.
  - rewrite !(testbit_high w) by assumption. reflexivity.
Qed.
Lemma MAJ_Maj x y z : MAJ x y z = Maj x y z.
Proof. unfold MAJ, Maj. bitwise. Qed.

(* ---- SHA-1 ---- *)
Definition ok5 (st : list Z) : Prop := length st = 5%nat /\ Forall (word_ok 32) st.
Definition okv5 (v : Z * Z * Z * Z * Z) : Prop :=
  let '(a, b, c, d, e) := v in word_ok 32 a /\ word_ok 32 b /\ word_ok 32 c /\ word_ok 32 d /\ word_ok 32 e.

Lemma sha1_step_round f Y W v i : okv5 v ->
  (forall x y z, word_ok 32 x -> word_ok 32 y -> word_ok 32 z -> f x y z = sha1_f i x y z) -> Y = sha1_K i ->
  sha1_step f Y W v i = sha1_round W v i /\ okv5 (sha1_round W v i).
Proof.
  destruct v as [[[[a b] c] d] e]. intros (Ha & Hb & Hc & Hd & He) Hf HY. unfold sha1_step, sha1_round. split.
  - rewrite !c_rol_rotl by (assumption || lia). rewrite Hf, HY by assumption. rewrite !c_add_add. unfold c_add.
    apply (f_equal (fun x => (x mod 2 ^ 32, a, rotl 32 30 b, c, d))). lia.
  - cbn [okv5]. splits; try assumption; [apply word_ok_mod; lia|apply word_ok_rotl; [assumption|lia]].
Qed.

Lemma sha1_transform_ok st b : ok5 st -> zlen b = 64 -> bytes_ok b ->
  sha1_transform st b = sha1_compress st b /\ ok5 (sha1_compress st b).
Proof.
  intros (Hl & Hst) Hb Hok. unfold sha1_transform, sha1_compress.
  rewrite chunks_rev_words by (rewrite ?Hb; reflexivity).
  destruct (be_words_ok 4 b ltac:(lia) ltac:(rewrite Hb; reflexivity) Hok) as (H1 & H2). rewrite Hb in H1. change (Z.to_nat (64 / 4)) with 16%nat in H1.
  change (8 * 4) with 32 in H2.
  destruct (expand_extend (Forall (word_ok 32))
    (fun data i => let t := Z.lxor (Z.lxor (Z.lxor (nth (i - 3) data 0) (nth (i - 8) data 0)) (nth (i - 14) data 0)) (nth (i - 16) data 0) in c_rol 32 t 1)
    (fun W => rotl 32 1 (Z.lxor (Z.lxor (Z.lxor (back W 3) (back W 8)) (back W 14)) (back W 16))) 64 16 (be_words 4 b) H1 H2) as (E & HW).
  { intros d Hd. cbn zeta. unfold back.
    assert (word_ok 32 (Z.lxor (Z.lxor (Z.lxor (nth (length d - 3) d 0) (nth (length d - 8) d 0)) (nth (length d - 14) d 0)) (nth (length d - 16) d 0))).
    { repeat apply word_ok_lxor; try lia; apply Forall_word_nth; (lia || assumption). }
    split; [apply c_rol_rotl; [assumption|lia]|]. apply Forall_app; split; [assumption|]. repeat constructor; apply word_ok_rotl; (lia || assumption). }
  unfold sha1_W. cbv zeta in E |- *. rewrite E. clear E.
  match type of HW with Forall _ ?X => set (W := X) in * end. clearbody W.
  unfold for_range.
  assert (Hv : okv5 (nth 0 st 0, nth 1 st 0, nth 2 st 0, nth 3 st 0, nth 4 st 0)).
  { cbn [okv5]. splits; apply Forall_word_nth; (lia || assumption). }
  set (v := (nth 0 st 0, nth 1 st 0, nth 2 st 0, nth 3 st 0, nth 4 st 0)) in *. clearbody v.
  change (seq 0 80) with (seq 0 20 ++ seq 20 20 ++ seq 40 20 ++ seq 60 20). rewrite !fold_left_app.
  destruct (fold_ext_inv okv5 (sha1_step sha1_F 0x5A827999 W) (sha1_round W) (seq 0 20) v Hv) as (-> & Hv1).
  { intros s x Hs Hx. apply in_seq in Hx. apply sha1_step_round; [assumption| |].
    - intros. unfold sha1_f. destruct (Nat.ltb_spec x 20); [|lia]. apply (CH_Ch 32); (lia || assumption).
    - unfold sha1_K. destruct (Nat.ltb_spec x 20); [|lia]. reflexivity. }
  set (v1 := fold_left (sha1_round W) (seq 0 20) v) in *. clearbody v1.
  destruct (fold_ext_inv okv5 (sha1_step sha1_H 0x6ED9EBA1 W) (sha1_round W) (seq 20 20) v1 Hv1) as (-> & Hv2).
  { intros s x Hs Hx. apply in_seq in Hx. apply sha1_step_round; [assumption| |].
    - intros. unfold sha1_f. destruct (Nat.ltb_spec x 20); [lia|]. destruct (Nat.ltb_spec x 40); [|lia]. reflexivity.
    - unfold sha1_K. destruct (Nat.ltb_spec x 20); [lia|]. destruct (Nat.ltb_spec x 40); [|lia]. reflexivity. }
  set (v2 := fold_left (sha1_round W) (seq 20 20) v1) in *. clearbody v2.
  destruct (fold_ext_inv okv5 (sha1_step sha1_G 0x8F1BBCDC W) (sha1_round W) (seq 40 20) v2 Hv2) as (-> & Hv3).
  { intros s x Hs Hx. apply in_seq in Hx. apply sha1_step_round; [assumption| |].
    - intros. unfold sha1_f. destruct (Nat.ltb_spec x 20); [lia|]. destruct (Nat.ltb_spec x 40); [lia|]. destruct (Nat.ltb_spec x 60); [|lia]. apply MAJ_Maj.
    - unfold sha1_K. destruct (Nat.ltb_spec x 20); [lia|]. destruct (Nat.ltb_spec x 40); [lia|]. destruct (Nat.ltb_spec x 60); [|lia]. reflexivity. }
  set (v3 := fold_left (sha1_round W) (seq 40 20) v2) in *. clearbody v3.
  destruct (fold_ext_inv okv5 (sha1_step sha1_H 0xCA62C1D6 W) (sha1_round W) (seq 60 20) v3 Hv3) as (-> & Hv4).
  { intros s x Hs Hx. apply in_seq in Hx. apply sha1_step_round; [assumption| |].
    - intros. unfold sha1_f. destruct (Nat.ltb_spec x 20); [lia|]. destruct (Nat.ltb_spec x 40); [lia|]. destruct (Nat.ltb_spec x 60); [lia|]. reflexivity.
    - unfold sha1_K. destruct (Nat.ltb_spec x 20); [lia|]. destruct (Nat.ltb_spec x 40); [lia|]. destruct (Nat.ltb_spec x 60); [lia|]. reflexivity. }
  set (v4 := fold_left (sha1_round W) (seq 60 20) v3) in *. clearbody v4. destruct v4 as [[[[a b'] c] d] e].
  do 6 (destruct st as [|? st]; try discriminate Hl). split; [reflexivity|]. split; [reflexivity|].
  unfold add_words. cbn [combine map]. repeat constructor; apply word_ok_mod; lia.
Qed.

Lemma sha1_output_ok st : ok5 st -> copy_and_swap 4 (store_words 4 (firstn 5 st)) = concat (map (to_be 4) st).
Proof. intros (Hl & _). rewrite store_words_be by lia. rewrite firstn_all2 by lia. reflexivity. Qed.

(* ---- SHA-2 ---- *)
Section Sha2.
Variable P : sha2.
Variable w : Z.
Hypothesis Hw : s2_w P = w.
Hypothesis Hw_pos : 0 < w.
Hypothesis Hw8 : w = 8 * (w / 8).
Variables SIGMA0 SIGMA1 sigma0 sigma1 : Z -> Z.
Variable constants : list Z.
Variable rounds8 : nat.
Hypothesis HS0 : forall x, word_ok w x -> SIGMA0 x = s2_S0 P x.
Hypothesis HS1 : forall x, word_ok w x -> SIGMA1 x = s2_S1 P x.
Hypothesis Hs0 : forall x, word_ok w x -> sigma0 x = s2_s0 P x.
Hypothesis Hs1 : forall x, word_ok w x -> sigma1 x = s2_s1 P x.
Hypothesis HK : s2_K P = constants.
Hypothesis Hr : s2_rounds P = (8 * rounds8)%nat.
Hypothesis Hr2 : (16 <= 8 * rounds8 <= 80)%nat.

Definition ok8 (st : list Z) : Prop := length st = 8%nat /\ Forall (word_ok w) st.
Definition okv8 (v : Z * Z * Z * Z * Z * Z * Z * Z) : Prop :=
  let '(a, b, c, d, e, f, g, h) := v in
  word_ok w a /\ word_ok w b /\ word_ok w c /\ word_ok w d /\ word_ok w e /\ word_ok w f /\ word_ok w g /\ word_ok w h.

Lemma STEP_round W a b c d e f g h i : okv8 (a, b, c, d, e, f, g, h) ->
  exists d' h', STEP w SIGMA0 SIGMA1 constants W a b c d e f g h i = (d', h') /\
    sha2_round P W (a, b, c, d, e, f, g, h) i = (h', a, b, c, d', e, f, g) /\ word_ok w d' /\ word_ok w h'.
Proof.
  intros (Ha & Hb & Hc & Hd & He & Hf & Hg & Hh). unfold STEP, sha2_round. rewrite HS1, HS0 by assumption.
  rewrite (CH_Ch w), MAJ_Maj by (assumption || lia). rewrite Hw, HK. eexists. eexists. split; [reflexivity|].
  match goal with |- context [c_add w d ?t] => assert (E : t = (h + s2_S1 P e + Ch w e f g + nth i constants 0 + nth i W 0) mod 2 ^ w) end.
  { rewrite !c_add_add. unfold c_add. apply (f_equal (fun x => x mod 2 ^ w)). lia. }
  rewrite E. split.
  - unfold c_add. rewrite ?Zplus_mod_idemp_r, ?Zplus_mod_idemp_l, ?Zplus_mod_idemp_r. reflexivity.
  - split; apply word_ok_add; lia.
Qed.

Lemma eight_rounds W v k : okv8 v ->
  eight w SIGMA0 SIGMA1 constants W v k = fold_left (sha2_round P W) (seq (8 * k) 8) v /\
  okv8 (fold_left (sha2_round P W) (seq (8 * k) 8) v).
Proof.
  destruct v as [[[[[[[a b] c] d] e] f] g] h]. intros (Ha & Hb & Hc & Hd & He & Hf & Hg & Hh). unfold eight.
  set (i := (8 * k)%nat). clearbody i. cbn [seq fold_left].
  replace (S i) with (i + 1)%nat by lia. replace (S (i + 1)) with (i + 2)%nat by lia. replace (S (i + 2)) with (i + 3)%nat by lia.
  replace (S (i + 3)) with (i + 4)%nat by lia. replace (S (i + 4)) with (i + 5)%nat by lia. replace (S (i + 5)) with (i + 6)%nat by lia.
  replace (S (i + 6)) with (i + 7)%nat by lia.
  destruct (STEP_round W a b c d e f g h i) as (d1 & h1 & -> & -> & Hd1 & Hh1); [cbn [okv8]; splits; assumption|].
  destruct (STEP_round W h1 a b c d1 e f g (i + 1)) as (c1 & g1 & -> & -> & Hc1 & Hg1); [cbn [okv8]; splits; assumption|].
  destruct (STEP_round W g1 h1 a b c1 d1 e f (i + 2)) as (b1 & f1 & -> & -> & Hb1 & Hf1); [cbn [okv8]; splits; assumption|].
  destruct (STEP_round W f1 g1 h1 a b1 c1 d1 e (i + 3)) as (a1 & e1 & -> & -> & Ha1 & He1); [cbn [okv8]; splits; assumption|].
  destruct (STEP_round W e1 f1 g1 h1 a1 b1 c1 d1 (i + 4)) as (h2 & d2 & -> & -> & Hh2 & Hd2); [cbn [okv8]; splits; assumption|].
  destruct (STEP_round W d2 e1 f1 g1 h2 a1 b1 c1 (i + 5)) as (g2 & c2 & -> & -> & Hg2 & Hc2); [cbn [okv8]; splits; assumption|].
  destruct (STEP_round W c2 d2 e1 f1 g2 h2 a1 b1 (i + 6)) as (f2 & b2 & -> & -> & Hf2 & Hb2); [cbn [okv8]; splits; assumption|].
  destruct (STEP_round W b2 c2 d2 e1 f2 g2 h2 a1 (i + 7)) as (e2 & a2 & -> & -> & He2 & Ha2); [cbn [okv8]; splits; assumption|].
  split; [reflexivity|]. cbn [okv8]. splits; assumption.
Qed.

Lemma fold_groups_inv {T} (Inv : T -> Prop) (h : T -> nat -> T) (h8 : T -> nat -> T) m :
  (forall v k, Inv v -> h8 v k = fold_left h (seq (m * k) m) v /\ Inv (fold_left h (seq (m * k) m) v)) ->
  forall n v, Inv v -> fold_left h8 (seq 0 n) v = fold_left h (seq 0 (m * n)) v /\ Inv (fold_left h (seq 0 (m * n)) v).
Proof.
  intros H n v Hv. destruct (fold_ext_inv Inv h8 (fun s k => fold_left h (seq (m * k) m) s) (seq 0 n) v Hv) as (E & HI).
  - intros s x Hs _. apply H. assumption.
  - rewrite fold_groups in E, HI. rewrite Nat.mul_0_r in E, HI. split; assumption.
Qed.

Lemma sha2_transform_ok st b : ok8 st -> zlen b = 16 * (w / 8) -> bytes_ok b ->
  sha2_transform w SIGMA0 SIGMA1 sigma0 sigma1 constants rounds8 st b = sha2_compress P st b /\ ok8 (sha2_compress P st b).
Proof.
  intros (Hl & Hst) Hb Hok. unfold sha2_transform, sha2_compress.
  assert (Hn : 0 < w / 8) by lia.
  assert (Hm : zlen b mod (w / 8) = 0) by (rewrite Hb; apply Z.mod_mul; lia).
  rewrite chunks_rev_words by assumption. rewrite Hw, Hr.
  destruct (be_words_ok (w / 8) b Hn Hm Hok) as (H1 & H2). rewrite Hb, Z.div_mul in H1 by lia. change (Z.to_nat 16) with 16%nat in H1.
  rewrite <- Hw8 in H2.
  destruct (expand_extend (Forall (word_ok w))
    (fun data i => c_add w (c_add w (c_add w (sigma1 (nth (i - 2) data 0)) (nth (i - 7) data 0)) (sigma0 (nth (i - 15) data 0))) (nth (i - 16) data 0))
    (fun W => (s2_s1 P (back W 2) + back W 7 + s2_s0 P (back W 15) + back W 16) mod 2 ^ s2_w P) 64 16 (be_words (w / 8) b) H1 H2) as (E & HW).
  { intros d Hd. split.
    - rewrite Hs1, Hs0 by (apply Forall_word_nth; (lia || assumption)). rewrite Hw. unfold back. rewrite !c_add_add. unfold c_add.
      apply (f_equal (fun x => x mod 2 ^ w)). lia.
    - apply Forall_app; split; [assumption|]. repeat constructor; rewrite Hw; apply word_ok_mod; lia. }
  rewrite E. clear E. unfold for_range.
  set (next := fun W => (s2_s1 P (back W 2) + back W 7 + s2_s0 P (back W 15) + back W 16) mod 2 ^ s2_w P) in *.
  set (v := (nth 0 st 0, nth 1 st 0, nth 2 st 0, nth 3 st 0, nth 4 st 0, nth 5 st 0, nth 6 st 0, nth 7 st 0)).
  assert (Hv : okv8 v).
  { cbn [okv8 v]. splits; apply Forall_word_nth; (lia || assumption). }
  clearbody v.
  destruct (fold_groups_inv okv8 (sha2_round P (extend next 64 (be_words (w / 8) b))) (eight w SIGMA0 SIGMA1 constants (extend next 64 (be_words (w / 8) b))) 8) with (n := rounds8) (v := v) as (-> & Hv').
  { intros v' k Hv'. apply eight_rounds. assumption. } { assumption. }
  assert (E : fold_left (sha2_round P (extend next 64 (be_words (w / 8) b))) (seq 0 (8 * rounds8)) v
            = fold_left (sha2_round P (sha2_W P (be_words (w / 8) b))) (seq 0 (8 * rounds8)) v).
  { apply (fold_ext_inv (fun _ => True)); [trivial|]. intros s x _ Hx. split; [|trivial]. apply in_seq in Hx.
    unfold sha2_round. destruct s as [[[[[[[a b'] c] d] e] f] g] h].
    assert (En : nth x (extend next 64 (be_words (w / 8) b)) 0 = nth x (sha2_W P (be_words (w / 8) b)) 0).
    { unfold sha2_W. fold next. rewrite Hr. replace 64%nat with ((8 * rounds8 - 16) + (80 - 8 * rounds8))%nat by lia.
      rewrite extend_add. apply extend_nth. rewrite extend_length, H1. lia. }
    rewrite En. reflexivity. }
  rewrite E in Hv' |- *. clear E.
  set (v4 := fold_left _ _ _) in *. clearbody v4. destruct v4 as [[[[[[[a b'] c] d] e] f] g] h].
  do 9 (destruct st as [|? st]; try discriminate Hl). unfold add_words. cbn [combine map]. split; [reflexivity|]. split; [reflexivity|].
  cbn [fst snd]. repeat (constructor; [apply word_ok_mod; lia|]). constructor.
Qed.
End Sha2.

(* ---- the constants ---- *)
Lemma cbrt_bounds n : 0 < n -> 0 <= cbrt n /\ cbrt n ^ 3 <= n < (cbrt n + 1) ^ 3.
Proof.
  intros Hn. unfold cbrt. set (k := Z.to_nat (Z.log2 n / 3 + 1)).
  assert (Hk : n < (0 + 2 ^ Z.of_nat k) ^ 3).
  { rewrite Z.add_0_l, <- Z.pow_mul_r by lia. apply Z.log2_lt_pow2; [assumption|]. unfold k.
    pose proof (Z.log2_nonneg n). pose proof (Z.div_mod (Z.log2 n) 3 ltac:(lia)). pose proof (Z.mod_pos_bound (Z.log2 n) 3 ltac:(lia)).
    pose proof (Z.div_pos (Z.log2 n) 3). lia. }
  assert (G : forall k r, 0 <= r -> r ^ 3 <= n -> n < (r + 2 ^ Z.of_nat k) ^ 3 ->
    let x := fold_left (fun r i => if (r + 2 ^ Z.of_nat i) ^ 3 <=? n then r + 2 ^ Z.of_nat i else r) (rev (seq 0 k)) r in
    0 <= x /\ x ^ 3 <= n < (x + 1) ^ 3).
  { clear. induction k as [|k IH]; intros r Hr H1 H2.
    - cbn in *. lia.
    - rewrite seq_S, rev_app_distr. cbn [rev app fold_left plus].
      assert (E : 2 ^ Z.of_nat (S k) = 2 ^ Z.of_nat k + 2 ^ Z.of_nat k) by (rewrite Nat2Z.inj_succ, Z.pow_succ_r; lia).
      pose proof (Z.pow_pos_nonneg 2 (Z.of_nat k) ltac:(lia) ltac:(lia)).
      destruct ((r + 2 ^ Z.of_nat k) ^ 3 <=? n) eqn:Ec.
      + apply IH; [lia|lia|]. rewrite <- Z.add_assoc, <- E. assumption.
      + apply IH; [lia|lia|lia]. }
  apply (G k 0); [lia|cbn; lia|assumption].
Qed.
Lemma cbrt_unique n r : 0 < n -> 0 <= r -> r ^ 3 <= n < (r + 1) ^ 3 -> cbrt n = r.
Proof.
  intros Hn Hr H. destruct (cbrt_bounds n Hn) as (H1 & H2).
  destruct (Z.lt_trichotomy (cbrt n) r) as [C|[C|C]]; [|assumption|]; exfalso.
  - pose proof (Z.pow_le_mono_l (cbrt n + 1) r 3). lia.
  - pose proof (Z.pow_le_mono_l (r + 1) (cbrt n) 3). lia.
Qed.
Definition check_cbrt (w : Z) (pk : Z * Z) : bool :=
  let '(p, k) := pk in
  let r := cbrt p * 2 ^ w + k in
  (0 <? p) && (0 <=? k) && (k <? 2 ^ w) && (0 <=? r) && (r ^ 3 <=? p * 2 ^ (3 * w)) && (p * 2 ^ (3 * w) <? (r + 1) ^ 3).
Lemma check_cbrt_ok w p k : 0 <= w -> check_cbrt w (p, k) = true -> cbrt_frac w p = k.
Proof.
  intros Hw H. unfold check_cbrt in H. rewrite !andb_true_iff in H. destruct H as (((((H1 & H2) & H3) & H4) & H5) & H6).
  apply Z.ltb_lt in H1, H3, H6. apply Z.leb_le in H2, H4, H5. unfold cbrt_frac.
  rewrite (cbrt_unique (p * 2 ^ (3 * w)) (cbrt p * 2 ^ w + k)).
  - rewrite Z.add_comm, Z_mod_plus_full. apply Z.mod_small. lia.
  - pose proof (Z.pow_pos_nonneg 2 (3 * w)). lia.
  - assumption.
  - lia.
Qed.
Lemma check_cbrts w : 0 <= w -> forall ps ks, length ps = length ks -> forallb (check_cbrt w) (combine ps ks) = true -> map (cbrt_frac w) ps = ks.
Proof.
  intros Hw. induction ps as [|p ps IH]; intros [|k ks] Hl H; try discriminate; [reflexivity|]. cbn [combine forallb] in H.
  apply andb_true_iff in H as (H1 & H2). cbn [map]. rewrite (check_cbrt_ok w p k Hw H1). f_equal. apply IH; [cbn in Hl; lia|assumption].
Qed.
Lemma K256_ok : s2_K p256 = SHA256_constants.
Proof. apply check_cbrts; [lia|vm_compute; reflexivity|vm_compute; reflexivity]. Qed.
Lemma K512_ok : s2_K p512 = SHA512_constants.
Proof. apply check_cbrts; [lia|vm_compute; reflexivity|vm_compute; reflexivity]. Qed.
Lemma iv224_ok : sha224_IV = sha256_iv 224. Proof. vm_compute. reflexivity. Qed.
Lemma iv256_ok : sha256_IV = sha256_iv 256. Proof. vm_compute. reflexivity. Qed.
Lemma iv384_ok : sha384_IV = sha512_iv 384. Proof. vm_compute. reflexivity. Qed.
Lemma iv512_ok : sha512_IV = sha512_iv 512. Proof. vm_compute. reflexivity. Qed.

Lemma shr_div x n : 0 <= n -> c_shr x n = x / 2 ^ n.
Proof. intros. unfold c_shr. apply Z.shiftr_div_pow2. assumption. Qed.

Lemma sha256_transform_ok st b : ok8 32 st -> zlen b = 64 -> bytes_ok b ->
  sha256_transform st b = sha2_compress p256 st b /\ ok8 32 (sha2_compress p256 st b).
Proof.
  intros. apply sha2_transform_ok; try assumption; try exact K256_ok; try reflexivity; try lia;
    intros x Hx; unfold SIGMA0_256, SIGMA1_256, sigma0_256, sigma1_256, p256, s2_S0, s2_S1, s2_s0, s2_s1;
    rewrite !c_ror_rotr, ?shr_div by (assumption || lia); reflexivity.
Qed.
Lemma sha512_transform_ok st b : ok8 64 st -> zlen b = 128 -> bytes_ok b ->
  sha512_transform st b = sha2_compress p512 st b /\ ok8 64 (sha2_compress p512 st b).
Proof.
  intros. apply sha2_transform_ok; try assumption; try exact K512_ok; try reflexivity; try lia;
    intros x Hx; unfold SIGMA0_512, SIGMA1_512, sigma0_512, sigma1_512, p512, s2_S0, s2_S1, s2_s0, s2_s1;
    rewrite !c_ror_rotr, ?shr_div by (assumption || lia); reflexivity.
Qed.
(* big-endian length field *)
Lemma enc_be_mod n x : 0 < n -> to_be (Z.to_nat (2 * n)) (x mod (2 ^ (8 * n) * 2 ^ (8 * n))) = to_be (Z.to_nat (2 * n)) x.
Proof.
  intros Hn. rewrite <- to_be_mod. rewrite <- (to_be_mod _ x). rewrite Z2Nat.id by lia.
  replace (2 ^ (8 * n) * 2 ^ (8 * n)) with (256 ^ (2 * n)).
  - rewrite Z.mod_mod; [reflexivity|]. pose proof (Z.pow_pos_nonneg 256 (2 * n)). lia.
  - change 256 with (2 ^ 8). rewrite <- Z.pow_mul_r, <- Z.pow_add_r by lia. f_equal. lia.
Qed.

(* the hash of the SHA family with n-byte words *)
Lemma be_md_himpl n f g (okS : list Z -> Prop) iv size output : n = 4 \/ n = 8 ->
  (forall st b, okS st -> zlen b = 16 * n -> bytes_ok b -> f st b = g st b /\ okS (g st b)) ->
  okS iv ->
  let R := md_inv (16 * n) (8 * n) g okS iv in
  himpl (fun _ => True) (c_hash md_ctx size (md_add_data (16 * n) (8 * n) f) (md_final (16 * n) (8 * n) f (enc_length_be n) output) md_wipe)
    (fun m => Ret (output (md_digest (16 * n) (2 * n) to_be iv g m))) R /\
  (forall buf, zlen buf = 16 * n -> R (md_init iv buf) []) /\
  (forall m, bytes_ok m -> okS (md_digest (16 * n) (2 * n) to_be iv g m)).
Proof.
  intros Hn Hfg Hiv. cbn zeta. assert (E8 : 8 * n / 8 = n) by (rewrite Z.mul_comm; apply Z.div_mul; lia).
  assert (E : 2 * (8 * n / 8) = 2 * n) by (rewrite E8; reflexivity).
  split; [|split].
  - rewrite <- E. apply md_himpl with (okS := okS); rewrite ?E; try assumption; try lia.
    + intros hi lo _ Hlo. apply enc_length_be_ok; [lia|assumption].
    + intros x. apply enc_be_mod. lia.
    + intros x. rewrite zlen_to_be. lia.
    + intros x. apply bytes_ok_to_be.
  - intros buf Hb. apply md_init_inv; try assumption; lia.
  - intros m Hm. rewrite <- E. apply md_digest_ok with (f := f) (enc_length := enc_length_be n); rewrite ?E; try assumption; try lia.
    + intros hi lo _ Hlo. apply enc_length_be_ok; [lia|assumption].
    + intros x. apply enc_be_mod. lia.
    + intros x. rewrite zlen_to_be. lia.
    + intros x. apply bytes_ok_to_be.
    + intros k Hk. exists (zeros k). apply zlen_zeros. assumption.
Qed.

(* change of the digest function of an implementation *)
Lemma himpl_ext P H D D' R : himpl P H D R -> (forall s m, R s m -> P m -> D m = D' m) -> himpl P H D' R.
Proof.
  intros [I1 I2 I3 I4] E. constructor; [assumption|assumption| |exact I4]. intros s m HR HP. rewrite <- (E s m HR HP). apply I3; assumption.
Qed.

Lemma ok5_iv : ok5 sha1_IV.
Proof. split; [reflexivity|]. repeat constructor; cbn; lia. Qed.
Lemma ok8_iv256 : ok8 32 (sha256_iv 256). Proof. split; [reflexivity|]. repeat constructor; cbn; lia. Qed.
Lemma ok8_iv224 : ok8 32 (sha256_iv 224). Proof. split; [reflexivity|]. repeat constructor; cbn; lia. Qed.
Lemma ok8_iv512 : ok8 64 (sha512_iv 512). Proof. split; [reflexivity|]. repeat constructor; cbn; lia. Qed.
Lemma ok8_iv384 : ok8 64 (sha512_iv 384). Proof. split; [reflexivity|]. repeat constructor; cbn; lia. Qed.

Lemma md_inv_bytes B W g okS iv s m : md_inv B W g okS iv s m -> bytes_ok m.
Proof. intros (H & _). exact H. Qed.

Definition sha1_R := md_inv 64 32 sha1_compress ok5 sha1_IV.
Lemma sha1_himpl : himpl (fun _ => True) sha1_class (fun m => Ret (sha1 m)) sha1_R.
Proof.
  destruct (be_md_himpl 4 sha1_transform sha1_compress ok5 sha1_IV 20 (fun st => copy_and_swap 4 (store_words 4 (firstn 5 st))) ltac:(lia)) as (I & _ & Hok);
    [exact sha1_transform_ok|exact ok5_iv|].
  refine (himpl_ext _ _ _ _ _ I _). intros s m HR _. apply md_inv_bytes in HR. rewrite sha1_output_ok by (apply Hok; assumption). reflexivity.
Qed.
Lemma sha1_init fresh : (forall n, 0 <= n -> zlen (fresh n) = n) -> sha1_R (md_init sha1_iv (fresh 64)) [].
Proof. intros H. apply md_init_inv; try lia; [exact ok5_iv|apply H; lia]. Qed.

Lemma concat_firstn {A} (l : list (list A)) n k : Forall (fun x => length x = n) l -> firstn (k * n) (concat l) = concat (firstn k l).
Proof.
  intros H. revert k. induction H as [|x l Hx Hl IH]; intros k; [rewrite !firstn_nil; reflexivity|].
  destruct k as [|k]; [reflexivity|]. cbn [firstn concat mult]. rewrite <- IH, <- Hx. rewrite firstn_app.
  rewrite firstn_all2 by lia. f_equal. f_equal. lia.
Qed.
Lemma sha2_output_ok w words st : 0 < w / 8 ->
  sha2_output w words st = firstn (words * Z.to_nat (w / 8)) (concat (map (to_be (Z.to_nat (w / 8))) st)).
Proof.
  intros Hw. unfold sha2_output. rewrite store_words_be by assumption. rewrite concat_firstn.
  - rewrite <- firstn_map. reflexivity.
  - apply Forall_map, Forall_forall. intros x _. apply length_to_be.
Qed.

Definition sha256_R iv := md_inv 64 32 (sha2_compress p256) (ok8 32) iv.
Lemma sha256_himpl_gen iv size words : ok8 32 iv ->
  himpl (fun _ => True) (c_hash md_ctx size sha256_add_data (sha256_final words) md_wipe)
    (fun m => Ret (sha2_digest p256 iv (words * 4) m)) (sha256_R iv).
Proof.
  intros Hiv.
  destruct (be_md_himpl 4 sha256_transform (sha2_compress p256) (ok8 32) iv size (sha2_output 32 words) ltac:(lia)) as (I & _ & Hok);
    [exact sha256_transform_ok|assumption|].
  refine (himpl_ext _ _ _ _ _ I _). intros s m HR _. rewrite sha2_output_ok by reflexivity. reflexivity.
Qed.
Lemma sha256_init fresh iv : (forall n, 0 <= n -> zlen (fresh n) = n) -> ok8 32 iv -> sha256_R iv (md_init iv (fresh 64)) [].
Proof. intros H Hiv. apply md_init_inv; try lia; [assumption|apply H; lia]. Qed.
Definition sha512_R iv := md_inv 128 64 (sha2_compress p512) (ok8 64) iv.
Lemma sha512_himpl_gen iv size words : ok8 64 iv ->
  himpl (fun _ => True) (c_hash md_ctx size sha512_add_data (sha512_final words) md_wipe)
    (fun m => Ret (sha2_digest p512 iv (words * 8) m)) (sha512_R iv).
Proof.
  intros Hiv.
  destruct (be_md_himpl 8 sha512_transform (sha2_compress p512) (ok8 64) iv size (sha2_output 64 words) ltac:(lia)) as (I & _ & Hok);
    [exact sha512_transform_ok|assumption|].
  refine (himpl_ext _ _ _ _ _ I _). intros s m HR _. rewrite sha2_output_ok by reflexivity. reflexivity.
Qed.
Lemma sha512_init fresh iv : (forall n, 0 <= n -> zlen (fresh n) = n) -> ok8 64 iv -> sha512_R iv (md_init iv (fresh 128)) [].
Proof. intros H Hiv. apply md_init_inv; try lia; [assumption|apply H; lia]. Qed.

Lemma sha224_himpl : himpl (fun _ => True) sha224_class (fun m => Ret (sha224 m)) (sha256_R (sha256_iv 224)).
Proof. pose proof (sha256_himpl_gen (sha256_iv 224) 24 7 ok8_iv224) as I. rewrite <- iv224_ok in I at 1. exact I. Qed.
Lemma sha256_himpl : himpl (fun _ => True) sha256_class (fun m => Ret (sha256 m)) (sha256_R (sha256_iv 256)).
Proof. pose proof (sha256_himpl_gen (sha256_iv 256) 32 8 ok8_iv256) as I. rewrite <- iv256_ok in I at 1. exact I. Qed.
Lemma sha384_himpl : himpl (fun _ => True) sha384_class (fun m => Ret (sha384 m)) (sha512_R (sha512_iv 384)).
Proof. pose proof (sha512_himpl_gen (sha512_iv 384) 48 6 ok8_iv384) as I. rewrite <- iv384_ok in I at 1. exact I. Qed.
Lemma sha512_himpl : himpl (fun _ => True) sha512_class (fun m => Ret (sha512 m)) (sha512_R (sha512_iv 512)).
Proof. pose proof (sha512_himpl_gen (sha512_iv 512) 64 8 ok8_iv512) as I. rewrite <- iv512_ok in I at 1. exact I. Qed.

Section Objects.
Variable fresh : Z -> bytes.
Hypothesis fresh_len : forall n, 0 <= n -> zlen (fresh n) = n.
Lemma sha1_computes : computes (sha1_obj fresh) sha1.
Proof. eapply himpl_computes; [exact sha1_himpl|]. apply sha1_init, fresh_len. Qed.
Lemma sha224_computes : computes (sha224_obj fresh) sha224.
Proof. eapply himpl_computes; [exact sha224_himpl|]. apply sha256_init; [apply fresh_len|exact ok8_iv224]. Qed.
Lemma sha256_computes : computes (sha256_obj fresh) sha256.
Proof. eapply himpl_computes; [exact sha256_himpl|]. apply sha256_init; [apply fresh_len|exact ok8_iv256]. Qed.
Lemma sha384_computes : computes (sha384_obj fresh) sha384.
Proof. eapply himpl_computes; [exact sha384_himpl|]. apply sha512_init; [apply fresh_len|exact ok8_iv384]. Qed.
Lemma sha512_computes : computes (sha512_obj fresh) sha512.
Proof. eapply himpl_computes; [exact sha512_himpl|]. apply sha512_init; [apply fresh_len|exact ok8_iv512]. Qed.
End Objects.
