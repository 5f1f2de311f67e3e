(* Loading and storing little-endian words with shifts, as C code does. *)
From Verif Require Import Prelude PreludeFacts BytesNum SpecBlock BlockTotal Word SpecHash.

(* src[0] | (src[1] << 8) | ... on unsigned w-bit words *)
Definition load_le (w : Z) (k : nat) (src : bytes) : Z :=
  fold_left (fun acc i => Z.lor acc (c_shl w (nth i src 0) (8 * Z.of_nat i))) (seq 1 (k - 1)) (nth 0 src 0).

Lemma le_firstn_S src k : le (firstn (S k) src) = le (firstn k src) + nth k src 0 * 2 ^ (8 * Z.of_nat k).
Proof.
  revert k. induction src as [|b src IH]; intros k; [destruct k; cbn; lia|].
  destruct k as [|k]; [cbn; lia|].
  change (firstn (S (S k)) (b :: src)) with (b :: firstn (S k) src). change (firstn (S k) (b :: src)) with (b :: firstn k src).
  cbn [le nth]. rewrite IH. replace (8 * Z.of_nat (S k)) with (8 + 8 * Z.of_nat k) by lia. rewrite Z.pow_add_r by lia. change (2 ^ 8) with 256. lia.
Qed.
Lemma byte_nth src i : bytes_ok src -> byte_ok (nth i src 0).
Proof. intros H. destruct (nth_in_or_default i src 0) as [Hin | ->]; [eapply Forall_forall in H; eassumption|unfold byte_ok; lia]. Qed.
Lemma le_firstn_bound src k : bytes_ok src -> 0 <= le (firstn k src) < 2 ^ (8 * Z.of_nat k).
Proof.
  intros H. induction k as [|k IH]; [cbn; lia|]. rewrite le_firstn_S. replace (8 * Z.of_nat (S k)) with (8 * Z.of_nat k + 8) by lia.
  rewrite Z.pow_add_r by lia. pose proof (byte_nth src k H) as Hb. unfold byte_ok in Hb. change (2 ^ 8) with 256. nia.
Qed.
Lemma load_le_ok w k src : (0 < k)%nat -> 8 * Z.of_nat k <= w -> bytes_ok src -> load_le w k src = le (firstn k src).
Proof.
  intros Hk Hw Hb. destruct k as [|k]; [lia|]. unfold load_le. cbn [Nat.sub]. rewrite Nat.sub_0_r. clear Hk. induction k as [|k IH].
  - cbn [seq fold_left]. destruct src; [reflexivity|]. cbn. lia.
  - rewrite seq_S, fold_left_app, IH by lia. cbn [fold_left]. rewrite (le_firstn_S src (S k)).
    replace (1 + k)%nat with (S k) by lia. unfold c_shl. rewrite Z.shiftl_mul_pow2 by lia.
    pose proof (byte_nth src (S k) Hb) as Hn. unfold byte_ok in Hn.
    rewrite Z.mod_small.
    2:{ assert (0 < 2 ^ (8 * Z.of_nat (S k))) by (apply Z.pow_pos_nonneg; lia).
        assert (2 ^ w >= 2 ^ (8 * Z.of_nat (S k)) * 256).
        { change 256 with (2 ^ 8). rewrite <- Z.pow_add_r by lia. apply Z.le_ge, Z.pow_le_mono_r; lia. }
        nia. }
    apply lor_shift_add; [lia|]. apply le_firstn_bound. assumption.
Qed.

Lemma nth_map_seq {A} (f : nat -> A) n j d : (j < n)%nat -> nth j (map f (seq 0 n)) d = f j.
Proof.
  intros Hj. rewrite (nth_indep _ d (f O)) by (rewrite map_length, seq_length; assumption). rewrite map_nth, seq_nth by assumption. reflexivity.
Qed.

(* words of k bytes of a buffer of n words, loaded one by one *)
Lemma words_load w k n b : (0 < k)%nat -> 8 * Z.of_nat k <= w -> length b = (n * k)%nat -> bytes_ok b ->
  map (fun i => load_le w k (skipn (i * k) b)) (seq 0 n) = le_words (Z.of_nat k) b.
Proof.
  intros Hk Hw. revert b. induction n as [|n IH]; intros b Hl Hb.
  - destruct b; [reflexivity|discriminate].
  - rewrite <- (firstn_skipn k b). set (b1 := firstn k b). set (b2 := skipn k b).
    assert (H1 : length b1 = k) by (unfold b1; rewrite firstn_length; lia).
    assert (H2 : length b2 = (n * k)%nat) by (unfold b2; rewrite skipn_length; lia).
    assert (Hb12 : bytes_ok b1 /\ bytes_ok b2) by (apply bytes_ok_app; unfold b1, b2; rewrite firstn_skipn; assumption).
    unfold le_words. rewrite chunks_cons by (unfold zlen; lia). cbn [seq map].
    change (map le (chunks (Z.of_nat k) b2)) with (le_words (Z.of_nat k) b2). rewrite <- IH by (assumption || apply Hb12). f_equal.
    + cbn [Nat.mul skipn]. rewrite load_le_ok by (assumption || (apply bytes_ok_app; assumption)). f_equal. rewrite firstn_app.
      rewrite firstn_all2 by lia. replace (k - length b1)%nat with O by lia. apply app_nil_r.
    + rewrite <- seq_shift, map_map. apply map_ext. intros i. f_equal. cbn [Nat.mul].
      rewrite skipn_app. rewrite (skipn_all2 b1) by lia. cbn [app]. f_equal. lia.
Qed.
Lemma le_words_ok k n b : (0 < k)%nat -> length b = (n * k)%nat -> bytes_ok b ->
  length (le_words (Z.of_nat k) b) = n /\ Forall (word_ok (8 * Z.of_nat k)) (le_words (Z.of_nat k) b).
Proof.
  intros Hk Hl Hb. rewrite <- (words_load (8 * Z.of_nat k) k n) by (assumption || lia). split; [rewrite map_length, seq_length; reflexivity|].
  apply Forall_map, Forall_forall. intros i _. rewrite load_le_ok; [|assumption|lia|apply Forall_skipn; assumption].
  apply le_firstn_bound. apply Forall_skipn. assumption.
Qed.

(* byte i of a number *)
Lemma nth_to_le n : forall x i, (i < n)%nat -> nth i (to_le n x) 0 = Z.shiftr x (8 * Z.of_nat i) mod 256.
Proof.
  induction n as [|n IH]; intros x i Hi; [lia|]. cbn [to_le]. destruct i as [|i]; [cbn [nth]; rewrite Z.shiftr_0_r; reflexivity|].
  cbn [nth]. rewrite IH by lia. f_equal. rewrite !Z.shiftr_div_pow2 by lia. rewrite Z.div_div by (try apply Z.pow_pos_nonneg; lia). f_equal.
  change 256 with (2 ^ 8). rewrite <- Z.pow_add_r by lia. f_equal. lia.
Qed.
Lemma nth_concat k : forall (l : list bytes) i, (0 < k)%nat -> Forall (fun x => length x = k) l -> nth i (concat l) 0 = nth (i mod k) (nth (i / k) l []) 0.
Proof.
  induction l as [|x l IH]; intros i Hk HF; [cbn [concat]; rewrite (nth_overflow (@nil bytes)) by apply Nat.le_0_l; rewrite !nth_overflow by apply Nat.le_0_l; reflexivity|].
  apply Forall_cons_iff in HF as (Hx & HF). cbn [concat]. destruct (Nat.lt_ge_cases i k).
  - rewrite app_nth1 by lia. rewrite Nat.div_small, Nat.mod_small by assumption. reflexivity.
  - rewrite app_nth2 by lia. rewrite IH by assumption. rewrite Hx. replace i with ((i - k) + 1 * k)%nat at 3 4 by lia.
    rewrite Nat.div_add, Nat.mod_add by lia. rewrite Nat.add_1_r. reflexivity.
Qed.
(* hash[i] = h[i / k] >> (8 * (i % k)) for i < n *)
Lemma store_bytes k n h : (0 < k)%nat -> (n <= k * length h)%nat ->
  map (fun i => Z.shiftr (nth (i / k) h 0) (8 * Z.of_nat (i mod k)) mod 256) (seq 0 n) = firstn n (concat (map (to_le k) h)).
Proof.
  intros Hk Hn. assert (HF : Forall (fun x : bytes => length x = k) (map (to_le k) h)) by (apply Forall_map, Forall_forall; intros; apply length_to_le).
  assert (Hc : length (concat (map (to_le k) h)) = (k * length h)%nat).
  { clear - HF. rewrite <- (map_length (to_le k) h). induction HF as [|x l Hx HF IH]; [cbn; lia|]. cbn [concat length]. rewrite app_length, IH, Hx. lia. }
  apply (nth_ext _ _ 0 0); [rewrite map_length, seq_length, firstn_length; lia|].
  intros i Hi. rewrite map_length, seq_length in Hi. rewrite nth_map_seq by assumption.
  transitivity (nth i (firstn n (concat (map (to_le k) h)) ++ skipn n (concat (map (to_le k) h))) 0).
  2:{ rewrite app_nth1 by (rewrite firstn_length; lia). reflexivity. }
  rewrite firstn_skipn, (nth_concat k) by assumption.
  assert (Hq : (i / k < length h)%nat) by (apply Nat.div_lt_upper_bound; lia).
  rewrite (nth_indep _ [] (to_le k 0)) by (rewrite map_length; assumption). rewrite map_nth.
  rewrite nth_to_le by (apply Nat.mod_upper_bound; lia). reflexivity.
Qed.
