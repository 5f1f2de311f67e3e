(* blowfish.c computes Blowfish; decryption inverts encryption. *)
From Verif Require Import Prelude PreludeFacts BytesNum SpecTransducer TransformModel SpecBlock Word KeccakModel Keccak BlockModel BlockCipher SpecModes Modes CipherModel CipherApi BlockObj SpecBlowfish BlowfishModel.

Lemma tables_pi : ORIG_P = firstn 18 pi_words /\ ORIG_S = skipn 18 pi_words.
Proof. split; vm_compute; reflexivity. Qed.
Lemma pi_ok : Forall (word_ok 32) pi_words.
Proof.
  apply Forall_forall. intros x Hx. assert (G : forallb (fun x => (0 <=? x) && (x <? 2 ^ 32)) pi_words = true) by (vm_compute; reflexivity).
  rewrite forallb_forall in G. specialize (G x Hx). unfold word_ok. lia.
Qed.
Lemma pi_length : length pi_words = 1042%nat.
Proof. vm_compute. reflexivity. Qed.
Opaque pi_words.

Lemma lxor_mid a b c : Z.lxor a (Z.lxor b c) = Z.lxor (Z.lxor b a) c.
Proof. rewrite <- Z.lxor_assoc, (Z.lxor_comm a b). reflexivity. Qed.

(* ---- the network ---- *)
Section Feistel.
Variable F : Z -> Z.
(* one half step of the unrolled code *)
Definition half (x : Z * Z) (p : Z) : Z * Z := (Z.lxor (snd x) (Z.lxor (F (fst x)) p), fst x).
Lemma half_round l : forall x p, fold_left half l (Z.lxor (fst x) p, snd x) =
  let y := fold_left (bf_round F) (removelast (p :: l)) x in (Z.lxor (fst y) (last (p :: l) 0), snd y).
Proof.
  induction l as [|q l IH]; intros x p; [reflexivity|].
  change (removelast (p :: q :: l)) with (p :: removelast (q :: l)). change (last (p :: q :: l) 0) with (last (q :: l) 0). cbn [fold_left]. unfold half at 2. cbn [fst snd].
  rewrite lxor_mid. exact (IH (bf_round F x p) q).
Qed.
(* states of the rounds, and back *)
Lemma nth_firstn_app (l : list Z) k : (k < length l)%nat -> firstn (S k) l = firstn k l ++ [nth k l 0].
Proof. revert k. induction l as [|x l IH]; intros [|k] H; cbn [length] in H; try lia; [reflexivity|]. cbn [firstn nth app]. rewrite <- IH by lia. reflexivity. Qed.
Lemma feistel_back P x k : length P = 18%nat -> (k <= 16)%nat ->
  let st i := fold_left (bf_round F) (firstn i P) x in
  fold_left (bf_round F) (firstn k (rev P)) (bf_feistel F P x) =
  (Z.lxor (snd (st (16 - k)%nat)) (nth (17 - k) P 0), Z.lxor (fst (st (16 - k)%nat)) (nth (16 - k) P 0)).
Proof.
  intros HP. cbn zeta. induction k as [|k IH]; intros Hk; [reflexivity|].
  rewrite nth_firstn_app by (rewrite rev_length; lia). rewrite fold_left_app, IH by lia. rewrite rev_nth, HP by lia. cbn [fold_left].
  replace (18 - S k)%nat with (17 - k)%nat by lia. replace (16 - S k)%nat with (15 - k)%nat by lia. replace (16 - k)%nat with (S (15 - k)) by lia.
  rewrite (nth_firstn_app P (15 - k)) by lia. rewrite fold_left_app. set (y := fold_left (bf_round F) (firstn (15 - k) P) x). cbn [fold_left].
  replace (17 - S k)%nat with (S (15 - k)) by lia. unfold bf_round. cbn [fst snd].
  assert (C : forall a b, Z.lxor (Z.lxor a b) b = a) by (intros; rewrite Z.lxor_assoc, Z.lxor_nilpotent; apply Z.lxor_0_r). rewrite !C.
  f_equal. rewrite <- !Z.lxor_assoc, Z.lxor_nilpotent. apply f_equal2; [apply Z.lxor_0_l|reflexivity].
Qed.
Lemma feistel_inv P x : length P = 18%nat -> bf_feistel F (rev P) (bf_feistel F P x) = x.
Proof.
  intros HP. unfold bf_feistel at 1. cbn zeta. rewrite (feistel_back P x 16 HP) by lia. cbn [Nat.sub firstn fold_left fst snd]. rewrite !rev_nth, HP by lia. cbn [Nat.sub].
  assert (C : forall a b, Z.lxor (Z.lxor a b) b = a) by (intros; rewrite Z.lxor_assoc, Z.lxor_nilpotent; apply Z.lxor_0_r). rewrite !C. destruct x. reflexivity.
Qed.
Lemma list18 (P : list Z) p : length P = 17%nat -> removelast (p :: firstn 16 P) = firstn 16 (p :: P) /\ last (p :: firstn 16 P) 0 = nth 16 (p :: P) 0.
Proof. intros HP. do 17 (destruct P as [|? P]; [discriminate HP|]). destruct P; [|discriminate HP]. split; reflexivity. Qed.
Lemma unrolled_feistel P x : length P = 18%nat ->
  (let y := fold_left half (firstn 16 (tl P)) (Z.lxor (fst x) (hd 0 P), snd x) in (Z.lxor (snd y) (nth 17 P 0), fst y)) = bf_feistel F P x.
Proof.
  intros HP. destruct P as [|p P]; [discriminate HP|]. cbn [tl hd]. injection HP as HP. destruct (list18 P p HP) as (E1 & E2).
  rewrite half_round, E1, E2. unfold bf_feistel. cbn zeta. cbn [fst snd]. reflexivity.
Qed.
End Feistel.

(* ---- contexts: T = P ++ S ---- *)
Definition ctx_ok (c : bf_ctx) : Prop := length (fst c) = 18%nat /\ length (snd c) = 1024%nat /\ Forall (word_ok 32) (fst c ++ snd c).
Definition pair_ok (x : Z * Z) : Prop := word_ok 32 (fst x) /\ word_ok 32 (snd x).
Definition tab (c : bf_ctx) : list Z := fst c ++ snd c.
Lemma tab_s c k j : length (fst c) = 18%nat -> bf_s (tab c) k j = bfS c k j.
Proof. intros H. unfold bf_s, bfS, tab. rewrite app_nth2 by lia. f_equal. lia. Qed.
Lemma tab_p c : length (fst c) = 18%nat -> firstn 18 (tab c) = fst c.
Proof. intros H. unfold tab. rewrite firstn_app, H, Nat.sub_diag, firstn_O, app_nil_r. apply firstn_all2. lia. Qed.
Lemma byte_at x i : 0 <= i -> Z.land (c_shr x (8 * i)) 0xFF = bf_byte x i.
Proof. intros H. unfold bf_byte, c_shr. change 0xFF with (Z.ones 8). rewrite Z.land_ones, Z.shiftr_div_pow2 by lia. reflexivity. Qed.
Lemma byte_top x : word_ok 32 x -> c_shr x 24 = bf_byte x 3.
Proof. unfold word_ok, bf_byte, c_shr. intros H. rewrite Z.shiftr_div_pow2 by lia. change (8 * 3) with 24. rewrite Z.mod_small; [reflexivity|]. split; [apply Z.div_pos; lia|apply Z.div_lt_upper_bound; lia]. Qed.
Lemma macro_F c x : length (fst c) = 18%nat -> word_ok 32 x -> bf_macro_F c x = bf_F (tab c) x.
Proof.
  intros H W. unfold bf_macro_F, bf_F, c_add. rewrite !tab_s by exact H. rewrite (byte_top x W). rewrite <- (byte_at x 2), <- (byte_at x 1), <- (byte_at x 0) by lia.
  change (8 * 2) with 16. change (8 * 1) with 8. change (c_shr x (8 * 0)) with x. reflexivity.
Qed.
Lemma F_word T x : word_ok 32 (bf_F T x).
Proof. unfold bf_F, word_ok. apply Z.mod_pos_bound. lia. Qed.
(* rounds on words: the code uses the macro, the specification F *)
Lemma half_ext F G x p : (F (fst x) = G (fst x)) -> half F x p = half G x p.
Proof. intros H. unfold half. rewrite H. reflexivity. Qed.
Lemma halves_ext F G : (forall x, word_ok 32 x -> F x = G x) -> (forall x, word_ok 32 (G x)) -> forall l x, Forall (word_ok 32) l -> pair_ok x ->
  fold_left (half F) l x = fold_left (half G) l x /\ pair_ok (fold_left (half G) l x).
Proof.
  intros HF HG. induction l as [|p l IH]; intros x Hl (H1 & H2); [split; [reflexivity|split; assumption]|]. apply Forall_cons_iff in Hl. destruct Hl as (Hp & Hl).
  cbn [fold_left]. rewrite (half_ext F G) by (apply HF; exact H1). apply IH; [exact Hl|]. split; cbn [half fst snd]; [|exact H1]. apply word_ok_lxor; [lia|exact H2|]. apply word_ok_lxor; [lia|apply HG|exact Hp].
Qed.
Lemma two_halves c x i j : bf_two c x i j = fold_left (half (bf_macro_F c)) [bfP c i; bfP c j] x.
Proof. destruct x. reflexivity. Qed.
Definition unrolled (c : bf_ctx) (P : list Z) (x : Z * Z) : Z * Z :=
  let y := fold_left (half (bf_macro_F c)) (firstn 16 (tl P)) (Z.lxor (fst x) (hd 0 P), snd x) in
  (Z.lxor (snd y) (nth 17 P 0), fst y).
Lemma Encrypt_unrolled c x : length (fst c) = 18%nat -> Blowfish_Encrypt c x = unrolled c (fst c) x.
Proof.
  destruct c as (P, S). cbn [fst]. intros H. unfold Blowfish_Encrypt, unrolled. cbn zeta. rewrite !two_halves. rewrite <- !fold_left_app.
  do 18 (destruct P as [|? P]; [discriminate H|]). destruct P; [|discriminate H]. reflexivity.
Qed.
Lemma Decrypt_unrolled c x : length (fst c) = 18%nat -> Blowfish_Decrypt c x = unrolled c (rev (fst c)) x.
Proof.
  destruct c as (P, S). cbn [fst]. intros H. unfold Blowfish_Decrypt, unrolled. cbn zeta. rewrite !two_halves. rewrite <- !fold_left_app.
  do 18 (destruct P as [|? P]; [discriminate H|]). destruct P; [|discriminate H]. reflexivity.
Qed.
Lemma unrolled_ok c P x : ctx_ok c -> length P = 18%nat -> Forall (word_ok 32) P -> pair_ok x ->
  unrolled c P x = bf_feistel (bf_F (tab c)) P x /\ pair_ok (unrolled c P x).
Proof.
  intros (H1 & H2 & H3) HP WP (X1 & X2). unfold unrolled, bf_feistel.
  assert (HF : forall x, word_ok 32 x -> bf_macro_F c x = bf_F (tab c) x) by (intros; apply macro_F; assumption).
  destruct P as [|p P]; [discriminate HP|]. cbn [hd tl]. apply Forall_cons_iff in WP. destruct WP as (Wp & WP). cbn [length] in HP.
  assert (W16 : Forall (word_ok 32) (firstn 16 P)) by (assert (WQ := WP); rewrite <- (firstn_skipn 16 P) in WQ; apply Forall_app in WQ; apply WQ).
  destruct (halves_ext _ _ HF (F_word (tab c)) (firstn 16 P) (Z.lxor (fst x) p, snd x) W16) as (E & (O1 & O2)).
  { split; [apply word_ok_lxor; [lia|exact X1|exact Wp]|exact X2]. }
  rewrite E. assert (W17 : word_ok 32 (nth 17 (p :: P) 0)) by (cbn [nth]; apply (proj1 (Forall_forall _ _) WP); apply nth_In; lia).
  split.
  - exact (unrolled_feistel (bf_F (tab c)) (p :: P) x HP).
  - split; cbn [fst snd]; [apply word_ok_lxor; [lia|exact O2|exact W17]|exact O1].
Qed.
Lemma Encrypt_ok c x : ctx_ok c -> pair_ok x -> Blowfish_Encrypt c x = bf_enc (tab c) x /\ pair_ok (Blowfish_Encrypt c x).
Proof.
  intros H X. assert (H1 : length (fst c) = 18%nat) by apply H. rewrite Encrypt_unrolled by exact H1. unfold bf_enc. rewrite tab_p by exact H1. apply unrolled_ok; try assumption.
  destruct H as (_ & _ & H). apply Forall_app in H. apply H.
Qed.
Lemma Decrypt_ok c x : ctx_ok c -> pair_ok x -> Blowfish_Decrypt c x = bf_dec (tab c) x /\ pair_ok (Blowfish_Decrypt c x).
Proof.
  intros H X. assert (H1 : length (fst c) = 18%nat) by apply H. rewrite Decrypt_unrolled by exact H1. unfold bf_dec. rewrite tab_p by exact H1. apply unrolled_ok; try assumption.
  - rewrite rev_length. exact H1.
  - apply Forall_rev. destruct H as (_ & _ & H). apply Forall_app in H. apply H.
Qed.

(* ---- the key schedule ---- *)
Lemma kput_app_l (a b : list Z) i x : (i < length a)%nat -> kput (a ++ b) i x = kput a i x ++ b.
Proof.
  intros H. unfold kput. rewrite firstn_app, skipn_app. replace (i - length a)%nat with 0%nat by lia. replace (S i - length a)%nat with 0%nat by lia.
  rewrite firstn_O, skipn_O, app_nil_r, <- app_assoc. reflexivity.
Qed.
Lemma kput_app_r (a b : list Z) i x : kput (a ++ b) (length a + i) x = a ++ kput b i x.
Proof.
  unfold kput. rewrite firstn_app, skipn_app. replace (length a + i - length a)%nat with i by lia. replace (S (length a + i) - length a)%nat with (S i) by lia.
  rewrite firstn_all2, (skipn_all2 a) by lia. cbn [app]. rewrite <- app_assoc. reflexivity.
Qed.
Lemma kput_two A B n a b : n = length A -> kput (kput (A ++ B) n a) (n + 1) b = A ++ kput (kput B 0 a) 1 b.
Proof. intros ->. replace (kput (A ++ B) (length A) a) with (A ++ kput B 0 a) by (rewrite <- kput_app_r, Nat.add_0_r; reflexivity). apply kput_app_r. Qed.
Lemma replace_kput T i x : (2 * i + 1 < length T)%nat -> kput (kput T (2 * i) (fst x)) (2 * i + 1) (snd x) = bf_replace T i x.
Proof.
  intros H. unfold bf_replace. rewrite <- (firstn_skipn (2 * i) T) at 1. rewrite kput_two by (rewrite firstn_length; lia). f_equal.
  assert (L2 : (2 <= length (skipn (2 * i) T))%nat) by (rewrite skipn_length; lia).
  replace (skipn (2 * i + 2) T) with (skipn 2 (skipn (2 * i) T)) by (rewrite skipn_skipn; f_equal; lia).
  destruct (skipn (2 * i) T) as [|u [|v w]]; cbn [length] in L2; try lia. reflexivity.
Qed.
Lemma Forall_kput T i x : Forall (word_ok 32) T -> word_ok 32 x -> Forall (word_ok 32) (kput T i x).
Proof.
  intros H X. unfold kput. rewrite <- (firstn_skipn i T) in H. apply Forall_app in H. destruct H as (H1 & H2). apply Forall_app. split; [exact H1|]. constructor; [exact X|].
  change (skipn (S i) T) with (skipn (1 + i) T). rewrite <- skipn_skipn. destruct (skipn i T); [constructor|]. apply Forall_cons_iff in H2. apply H2.
Qed.
Definition sched_step (s : list Z * (Z * Z)) (i : nat) : list Z * (Z * Z) := let x := bf_enc (fst s) (snd s) in (bf_replace (fst s) i x, x).
Definition sched_ok (s : bf_ctx * (Z * Z)) (t : list Z * (Z * Z)) : Prop := ctx_ok (fst s) /\ pair_ok (snd s) /\ t = (tab (fst s), snd s).
Lemma fill_P_ok s t i : (i < 9)%nat -> sched_ok s t -> sched_ok (bf_fill_P s i) (sched_step t i).
Proof.
  intros Hi (C & X & ->). destruct s as (c, x). cbn [fst snd] in *. destruct (Encrypt_ok c x C X) as (E & X'). destruct C as (L1 & L2 & W).
  unfold bf_fill_P, sched_step, sched_ok. cbn zeta. cbn [fst snd]. rewrite <- E. set (y := Blowfish_Encrypt c x) in *. destruct X' as (Y1 & Y2).
  assert (K : bf_replace (tab c) i y = kput (kput (fst c) (2 * i) (fst y)) (2 * i + 1) (snd y) ++ snd c).
  { rewrite <- replace_kput by (unfold tab; rewrite app_length; lia). unfold tab. rewrite kput_app_l by lia. rewrite kput_app_l by (rewrite kput_length; lia). reflexivity. }
  split; [|split; [split; assumption|rewrite K; reflexivity]]. split; cbn [fst snd]; [rewrite !kput_length; rewrite ?kput_length; lia|]. split; [exact L2|].
  apply Forall_app in W. destruct W as (W1 & W2). apply Forall_app. split; [|exact W2]. apply Forall_kput; [apply Forall_kput; assumption|assumption].
Qed.
Lemma fill_S_ok s t i j : (i < 4)%nat -> (j < 128)%nat -> sched_ok s t -> sched_ok (bf_fill_S i s j) (sched_step t (9 + (128 * i + j))).
Proof.
  intros Hi Hj (C & X & ->). destruct s as (c, x). cbn [fst snd] in *. destruct (Encrypt_ok c x C X) as (E & X'). destruct C as (L1 & L2 & W).
  unfold bf_fill_S, sched_step, sched_ok. cbn zeta. cbn [fst snd]. rewrite <- E. set (y := Blowfish_Encrypt c x) in *. destruct X' as (Y1 & Y2).
  assert (K : bf_replace (tab c) (9 + (128 * i + j)) y = fst c ++ kput (kput (snd c) (256 * i + 2 * j) (fst y)) (256 * i + (2 * j + 1)) (snd y)).
  { rewrite <- replace_kput by (unfold tab; rewrite app_length; lia). unfold tab. replace (2 * (9 + (128 * i + j)))%nat with (length (fst c) + (256 * i + 2 * j))%nat by lia.
    rewrite kput_app_r. rewrite <- Nat.add_assoc, kput_app_r. do 2 f_equal. lia. }
  split; [|split; [split; assumption|rewrite K; reflexivity]]. split; cbn [fst snd]; [exact L1|]. split; [rewrite !kput_length; rewrite ?kput_length; lia|].
  apply Forall_app in W. destruct W as (W1 & W2). apply Forall_app. split; [exact W1|]. apply Forall_kput; [apply Forall_kput; assumption|assumption].
Qed.
Lemma fold_rel {A B} (R : A -> B -> Prop) (f : A -> nat -> A) (g : B -> nat -> B) (h : nat -> nat) n : forall p,
  (forall i a b, (p <= i < p + n)%nat -> R a b -> R (f a i) (g b (h i))) -> forall a b, R a b -> R (fold_left f (seq p n) a) (fold_left g (map h (seq p n)) b).
Proof.
  induction n as [|n IH]; intros p H a b Hab; [exact Hab|]. cbn [seq map fold_left]. apply IH; [intros; apply H; [lia|assumption]|]. apply H; [lia|assumption].
Qed.
Lemma map_add_seq k n : forall p, map (fun j => k + j)%nat (seq p n) = seq (k + p) n.
Proof. induction n as [|n IH]; intros p; [reflexivity|]. cbn [seq map]. rewrite IH. f_equal. f_equal. lia. Qed.
Lemma schedule_fold s t : sched_ok s t ->
  sched_ok (fold_left (fun s i => fold_left (bf_fill_S i) (seq 0 128) s) (seq 0 4) (fold_left bf_fill_P (seq 0 9) s)) (fold_left sched_step (seq 0 521) t).
Proof.
  intros H. replace (seq 0 521) with (seq 0 9 ++ seq 9 512) by reflexivity. rewrite fold_left_app.
  assert (H9 : sched_ok (fold_left bf_fill_P (seq 0 9) s) (fold_left sched_step (seq 0 9) t)).
  { rewrite <- (map_id (seq 0 9)) at 2. apply (fold_rel sched_ok bf_fill_P sched_step (fun i => i)); [|exact H]. intros i a b Hi Hab. apply fill_P_ok; [lia|exact Hab]. }
  revert H9. generalize (fold_left bf_fill_P (seq 0 9) s) (fold_left sched_step (seq 0 9) t). clear s t H. intros s t H.
  assert (G : forall n, (n <= 4)%nat -> sched_ok (fold_left (fun s i => fold_left (bf_fill_S i) (seq 0 128) s) (seq 0 n) s) (fold_left sched_step (seq 9 (128 * n)) t)).
  { induction n as [|n IH]; intros Hn; [exact H|]. rewrite (seq_S n 0), fold_left_app. cbn [fold_left]. rewrite Nat.add_0_l.
    replace (128 * S n)%nat with (128 * n + 128)%nat by lia. rewrite seq_app, fold_left_app.
    replace (seq (9 + 128 * n) 128) with (map (fun j => 9 + (128 * n + j))%nat (seq 0 128)).
    - apply (fold_rel sched_ok (bf_fill_S n) sched_step (fun j => 9 + (128 * n + j))%nat); [|apply IH; lia]. intros j a b Hj Hab. apply fill_S_ok; [lia|lia|exact Hab].
    - replace (seq (9 + 128 * n) 128) with (seq (9 + 128 * n + 0) 128) by (rewrite Nat.add_0_r; reflexivity). rewrite <- map_add_seq. apply map_ext. intros. lia. }
  apply (G 4%nat). lia.
Qed.
(* the key words *)
Lemma bf_data_ok key j : (0 < length key)%nat -> (j < length key)%nat -> bytes_ok key ->
  bf_data key j = (be (map (fun k => nth ((j + k) mod length key) key 0) (seq 0 4)), ((j + 4) mod length key)%nat).
Proof.
  intros Hn Hj B. unfold bf_data. set (n := length key) in *.
  assert (Bn : forall i, byte_ok (nth i key 0)).
  { intros i. destruct (lt_dec i (length key)) as [L|L]; [apply (proj1 (Forall_forall _ _) B), nth_In; exact L|rewrite nth_overflow by lia; unfold byte_ok; lia]. }
  match goal with |- fold_left ?f _ _ = _ => set (step := f) end.
  assert (St : forall (d : Z) i u, word_ok 24 d -> (i < n)%nat -> step (d, i) u =
    (256 * d + nth i key 0, ((i + 1) mod n)%nat)).
  { intros d i u Hd Hi. change ((Z.lor (c_shl 32 d 8) (nth i key 0), if (n <=? i + 1)%nat then 0%nat else (i + 1)%nat) = (256 * d + nth i key 0, ((i + 1) mod n)%nat)). f_equal.
    - unfold c_shl, word_ok in *. rewrite Z.shiftl_mul_pow2, Z.mod_small by lia. specialize (Bn i). unfold byte_ok in Bn. rewrite Z.lor_comm, lor_shift_add by lia. change (2 ^ 8) with 256. lia.
    - destruct (Nat.leb_spec n (i + 1)) as [L|L].
      + replace (i + 1)%nat with n by lia. rewrite Nat.mod_same by lia. reflexivity.
      + rewrite Nat.mod_small by lia. reflexivity. }
  cbn [seq fold_left map]. rewrite Nat.add_0_r.
  assert (M : forall i k, (((j + i) mod n + k) mod n = (j + (i + k)) mod n)%nat) by (intros; rewrite Nat.add_mod_idemp_l by lia; f_equal; lia).
  assert (Hm : forall i, ((j + i) mod n < n)%nat) by (intros; apply Nat.mod_upper_bound; lia).
  assert (W : forall d c, forall k, (k <= 16) -> word_ok k d -> 0 <= k -> byte_ok c -> word_ok (k + 8) (256 * d + c)).
  { intros d c k _ Hd Hk Hc. unfold word_ok, byte_ok in *. rewrite Z.pow_add_r by lia. change (2 ^ 8) with 256. nia. }
  assert (W0 : word_ok 0 0) by (split; reflexivity).
  assert (W1 := W 0 (nth j key 0) 0 ltac:(lia) W0 ltac:(lia) (Bn j)). 
  set (d1 := 256 * 0 + nth j key 0) in *.
  assert (W2 := W d1 (nth ((j + 1) mod n) key 0) 8 ltac:(lia) W1 ltac:(lia) (Bn _)). set (d2 := 256 * d1 + nth ((j + 1) mod n) key 0) in *.
  assert (W3 := W d2 (nth ((j + 2) mod n) key 0) 16 ltac:(lia) W2 ltac:(lia) (Bn _)). set (d3 := 256 * d2 + nth ((j + 2) mod n) key 0) in *.
  assert (Wm : forall k d, 0 <= k <= 24 -> word_ok k d -> word_ok 24 d) by (intros k d Hk; unfold word_ok; assert (2 ^ k <= 2 ^ 24) by (apply Z.pow_le_mono_r; lia); lia).
  assert (E1 := St 0 j 0%nat ltac:(eapply Wm; [|eassumption]; lia) ltac:(first [assumption | apply Nat.mod_upper_bound; lia])). rewrite E1. fold d1.
  assert (E2 := St d1 ((j + 1) mod n)%nat 1%nat ltac:(eapply Wm; [|eassumption]; lia) ltac:(first [assumption | apply Nat.mod_upper_bound; lia])). rewrite E2, M. fold d2.
  assert (E3 := St d2 ((j + (1 + 1)) mod n)%nat 2%nat ltac:(eapply Wm; [|eassumption]; lia) ltac:(first [assumption | apply Nat.mod_upper_bound; lia])). rewrite E3, M. change (1 + 1)%nat with 2%nat. fold d3.
  assert (E4 := St d3 ((j + (2 + 1)) mod n)%nat 3%nat ltac:(eapply Wm; [|eassumption]; lia) ltac:(first [assumption | apply Nat.mod_upper_bound; lia])). rewrite E4, M. change (2 + 1)%nat with 3%nat. change (3 + 1)%nat with 4%nat.
  f_equal. rewrite (Nat.mod_small j) by exact Hj. unfold be, d3, d2, d1. cbn [rev app le]. lia.
Qed.

Lemma bf_init_P_ok key n : (0 < length key)%nat -> bytes_ok key ->
  fold_left (fun (s : list Z * nat) i =>
    let (P, j) := s in
    let (data, j) := bf_data key j in
    (P ++ [Z.lxor (nth i ORIG_P 0) data], j)) (seq 0 n) ([], 0%nat) = (map (fun i => Z.lxor (nth i ORIG_P 0) (key_word_at key i)) (seq 0 n), ((4 * n) mod length key)%nat).
Proof.
  intros Hn B. induction n as [|n IH].
  - cbn [seq map fold_left]. rewrite Nat.mul_0_r, Nat.mod_0_l by lia. reflexivity.
  - rewrite (seq_S n 0), fold_left_app, IH, map_app. cbn [fold_left map]. rewrite bf_data_ok; [|exact Hn|apply Nat.mod_upper_bound; lia|exact B].
    rewrite Nat.add_0_l. f_equal; [|rewrite Nat.add_mod_idemp_l by lia; f_equal; lia].
    do 3 f_equal. unfold key_word_at. f_equal. apply map_ext. intros k. rewrite Nat.add_mod_idemp_l by lia. reflexivity.
Qed.
Lemma key_word_ok key i : bytes_ok key -> word_ok 32 (key_word_at key i).
Proof.
  intros B. unfold key_word_at, word_ok. match goal with |- context [be ?l] => assert (H : bytes_ok l) end.
  { apply Forall_forall. intros x Hx. apply in_map_iff in Hx. destruct Hx as (k & <- & _).
    destruct (lt_dec ((4 * i + k) mod length key) (length key)) as [L|L]; [apply (proj1 (Forall_forall _ _) B), nth_In; exact L|rewrite nth_overflow by lia; unfold byte_ok; lia]. }
  apply (word_ok_be _ 32 H). reflexivity.
Qed.
Definition fill_all (s : bf_ctx * (Z * Z)) : bf_ctx * (Z * Z) :=
  fold_left (fun s i => fold_left (bf_fill_S i) (seq 0 128) s) (seq 0 4) (fold_left bf_fill_P (seq 0 9) s).
Lemma Init_fill key : Blowfish_Init key = fst (fill_all ((fst (bf_init_P key), ORIG_S), (0, 0))).
Proof. unfold Blowfish_Init, fill_all. cbn zeta. reflexivity. Qed.
Definition step_all (t : list Z * (Z * Z)) : list Z * (Z * Z) := fold_left sched_step (seq 0 521) t.
Lemma schedule_step key : bf_schedule key = fst (step_all (bf_start key, (0, 0))).
Proof. unfold bf_schedule, step_all. f_equal. Qed.
Lemma schedule_all s t : sched_ok s t -> sched_ok (fill_all s) (step_all t).
Proof. exact (schedule_fold s t). Qed.
Lemma sched_out s t : sched_ok s t -> ctx_ok (fst s) /\ tab (fst s) = fst t.
Proof. intros (H1 & H2 & ->). split; [exact H1|reflexivity]. Qed.
Lemma init_P_eq key : (0 < length key)%nat -> bytes_ok key -> fst (bf_init_P key) = map (fun i => Z.lxor (nth i pi_words 0) (key_word_at key i)) (seq 0 18).
Proof.
  intros Hn B. unfold bf_init_P. rewrite bf_init_P_ok by assumption.
  apply map_ext_in. intros i Hi. apply in_seq in Hi. rewrite (proj1 tables_pi). f_equal.
  rewrite <- (firstn_skipn 18 pi_words) at 2. rewrite app_nth1; [reflexivity|rewrite firstn_length, pi_length; lia].
Qed.
Lemma Init_ok key : (0 < length key)%nat -> bytes_ok key -> ctx_ok (Blowfish_Init key) /\ tab (Blowfish_Init key) = bf_schedule key.
Proof.
  intros Hn B. rewrite Init_fill, schedule_step, init_P_eq, (proj2 tables_pi) by assumption.
  assert (W : forall i, word_ok 32 (nth i pi_words 0)).
  { intros i. destruct (lt_dec i (length pi_words)) as [L|L]; [apply (proj1 (Forall_forall _ _) pi_ok), nth_In; exact L|rewrite nth_overflow by lia; split; reflexivity || discriminate]. }
  assert (H0 : sched_ok ((map (fun i => Z.lxor (nth i pi_words 0) (key_word_at key i)) (seq 0 18), skipn 18 pi_words), (0, 0)) (bf_start key, (0, 0))).
  { split; [|split; [|reflexivity]].
    - split; [apply map_length|]. split; [cbn [fst snd]; rewrite skipn_length, pi_length; reflexivity|]. cbn [fst snd]. apply Forall_app. split.
      + apply Forall_forall. intros x Hx. apply in_map_iff in Hx. destruct Hx as (i & <- & _). apply word_ok_lxor; [lia|apply W|apply key_word_ok, B].
      + assert (G := pi_ok). rewrite <- (firstn_skipn 18 pi_words) in G. apply Forall_app in G. apply G.
    - split; cbn [fst snd]; split; reflexivity || discriminate. }
  exact (sched_out _ _ (schedule_all _ _ H0)).
Qed.
(* blocks *)
Lemma block_words b : zlen b = 8 -> bytes_ok b -> pair_ok (be (firstn 4 b), be (skipn 4 b)) /\ length (firstn 4 b) = 4%nat /\ length (skipn 4 b) = 4%nat /\ bytes_ok (firstn 4 b) /\ bytes_ok (skipn 4 b).
Proof.
  intros L B. assert (Lb : length b = 8%nat) by (unfold zlen in L; lia). rewrite <- (firstn_skipn 4 b) in B. apply Forall_app in B. destruct B as (B1 & B2).
  assert (L1 : length (firstn 4 b) = 4%nat) by (rewrite firstn_length; lia). assert (L2 : length (skipn 4 b) = 4%nat) by (rewrite skipn_length; lia).
  split; [split; apply word_ok_be; try assumption; unfold zlen; cbn [fst snd]; lia|]. auto.
Qed.
Lemma bf_block_blk f b : zlen (bf_block f b) = 8 /\ bytes_ok (bf_block f b).
Proof.
  unfold bf_block. cbn zeta. split; [unfold zlen; rewrite app_length, !length_to_be; reflexivity|]. apply bytes_ok_app. split; apply bytes_ok_to_be.
Qed.
Lemma bf_block_inv f g b : zlen b = 8 -> bytes_ok b -> (forall x, pair_ok x -> pair_ok (f x) /\ g (f x) = x) -> bf_block g (bf_block f b) = b.
Proof.
  intros L B H. destruct (block_words b L B) as (W & L1 & L2 & B1 & B2). unfold bf_block at 1. unfold bf_block.
  destruct (H _ W) as ((F1 & F2) & G). set (y := f _) in *. cbn zeta.
  rewrite firstn_app, length_to_be, Nat.sub_diag, firstn_O, app_nil_r, firstn_all2 by (rewrite length_to_be; lia).
  rewrite skipn_app, length_to_be, Nat.sub_diag, skipn_O, skipn_all2 by (rewrite length_to_be; lia). cbn [app].
  rewrite !be_to_be, !Z.mod_small by (exact F1 || exact F2). rewrite <- surjective_pairing, G. cbn [fst snd].
  assert (T1 := to_be_be _ B1). assert (T2 := to_be_be _ B2). rewrite L1 in T1. rewrite L2 in T2. rewrite T1, T2. apply firstn_skipn.
Qed.

Definition bf_key_size (key : bytes) : Prop := 4 <= zlen key <= 56.
Definition bf_dir (d : dir) (key : bytes) : bytes -> bytes := match d with Encrypt => blowfish_E key | Decrypt => blowfish_D key end.
Lemma bf_dir_blk d key b : zlen (bf_dir d key b) = 8 /\ bytes_ok (bf_dir d key b).
Proof. destruct d; apply bf_block_blk. Qed.
Lemma key_pos key : bf_key_size key -> (0 < length key)%nat.
Proof. unfold bf_key_size, zlen. lia. Qed.
Lemma enc_pair key x : bf_key_size key -> bytes_ok key -> pair_ok x ->
  pair_ok (bf_enc (bf_schedule key) x) /\ pair_ok (bf_dec (bf_schedule key) x) /\
  bf_dec (bf_schedule key) (bf_enc (bf_schedule key) x) = x /\ bf_enc (bf_schedule key) (bf_dec (bf_schedule key) x) = x.
Proof.
  intros K B Hx. destruct (Init_ok key (key_pos key K) B) as (C & T). destruct (Encrypt_ok _ _ C Hx) as (E1 & E2). destruct (Decrypt_ok _ _ C Hx) as (D1 & D2).
  rewrite T in E1, D1. rewrite E1 in E2. rewrite D1 in D2. split; [exact E2|]. split; [exact D2|].
  assert (L : length (firstn 18 (bf_schedule key)) = 18%nat).
  { rewrite <- T, tab_p by apply C. apply C. }
  unfold bf_dec, bf_enc. split; [apply feistel_inv; exact L|]. rewrite <- (rev_involutive (firstn 18 (bf_schedule key))) at 1. apply feistel_inv. rewrite rev_length. exact L.
Qed.
Lemma stub_ok d key b : bf_key_size key -> bytes_ok key -> zlen b = 8 -> bytes_ok b ->
  bf_stub (match d with Encrypt => Blowfish_Encrypt | Decrypt => Blowfish_Decrypt end (Blowfish_Init key)) b = bf_dir d key b.
Proof.
  intros K B Lb Bb. destruct (Init_ok key (key_pos key K) B) as (C & T). destruct (block_words b Lb Bb) as (W & _). unfold bf_stub.
  destruct d; cbn [bf_dir]; unfold blowfish_E, blowfish_D, bf_block; rewrite <- T.
  - destruct (Encrypt_ok _ _ C W) as (-> & _). reflexivity.
  - destruct (Decrypt_ok _ _ C W) as (-> & _). reflexivity.
Qed.
Lemma bf_dir_inv key b : bf_key_size key -> bytes_ok key -> zlen b = 8 -> bytes_ok b ->
  blowfish_D key (blowfish_E key b) = b /\ blowfish_E key (blowfish_D key b) = b.
Proof.
  intros K B Lb Bb. unfold blowfish_D, blowfish_E. split; apply bf_block_inv; try assumption; intros x Hx; destruct (enc_pair key x K B Hx) as (H1 & H2 & H3 & H4); split; assumption.
Qed.
(* ---- class blowfish ---- *)
Lemma new_blowfish_computes d key : 4 <= zlen key <= 56 -> bytes_ok key ->
  exists o, new_blowfish d key = Ret o /\ block_computes o 8 (match d with Encrypt => blowfish_E key | Decrypt => blowfish_D key end) /\ block_checks o 8.
Proof.
  intros K B. unfold new_blowfish. replace ((4 <=? zlen key) && (zlen key <=? 56)) with true by lia. destruct d; (eexists; split; [reflexivity|]);
    (apply raw_computes; [|lia]); intros b Lb Bb; f_equal; [apply (stub_ok Encrypt)|apply (stub_ok Decrypt)]; assumption.
Qed.
Lemma blowfish_undoes key : 4 <= zlen key <= 56 -> bytes_ok key ->
  exists e d, new_blowfish Encrypt key = Ret e /\ new_blowfish Decrypt key = Ret d /\ undoes e d 8 /\ undoes d e 8.
Proof.
  intros K B. destruct (new_blowfish_computes Encrypt key K B) as (e & Ee & Ce & _). destruct (new_blowfish_computes Decrypt key K B) as (d & Ed & Cd & _).
  exists e, d. split; [exact Ee|]. split; [exact Ed|]. split.
  - apply (computes_undoes e d 8 _ _ ltac:(lia) Ce Cd). intros b Lb Bb. destruct (bf_dir_blk Encrypt key b). split; [assumption|]. split; [assumption|]. apply (bf_dir_inv key b); assumption.
  - apply (computes_undoes d e 8 _ _ ltac:(lia) Cd Ce). intros b Lb Bb. destruct (bf_dir_blk Decrypt key b). split; [assumption|]. split; [assumption|]. apply (bf_dir_inv key b); assumption.
Qed.
Lemma blowfish_family key : 4 <= zlen key <= 56 -> bytes_ok key -> block_family new_blowfish key 8 (blowfish_E key) (blowfish_D key).
Proof.
  intros K B. apply computes_family; [lia| | |intros; apply (bf_dir_blk Encrypt)|intros; apply (bf_dir_blk Decrypt)|intros; apply (bf_dir_inv key b); assumption].
  - destruct (new_blowfish_computes Encrypt key K B) as (e & Ee & Ce & _). eauto.
  - destruct (new_blowfish_computes Decrypt key K B) as (e & Ee & Ce & _). eauto.
Qed.
Lemma blowfish_key_sizes d key : bytes_ok key ->
  (4 <= zlen key <= 56 -> exists o, new_blowfish d key = Ret o) /\ (~ 4 <= zlen key <= 56 -> new_blowfish d key = Raise (Error Wrong_key_size)).
Proof.
  intros B. split; intros K.
  - destruct (new_blowfish_computes d key K B) as (o & E & _). eauto.
  - unfold new_blowfish. replace ((4 <=? zlen key) && (zlen key <=? 56)) with false by lia. reflexivity.
Qed.
