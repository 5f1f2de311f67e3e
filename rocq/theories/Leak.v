(* What the table reads of the software AES tell (C116). *)
From Verif Require Import Prelude PreludeFacts BytesNum SpecBlock SpecModes BlockTotal Word WordIO KeccakModel Keccak
  SpecAes AesField AesModel MacApi Blake3 Aes MdCollide SpecLeak LeakModel.

Lemma enc_round_l_ok rk p s : blk s -> enc_round_l rk p (quad_of s) = (enc_round rk p (quad_of s), round_reads s).
Proof.
  revert s. apply blk_elim. intros ? ? ? ? ? ? ? ? ? ? ? ? ? ? ? ? H. bytes_inv H.
  unfold enc_round_l, enc_round, quad_of, tword_l, tword, rd. cbn [col firstn skipn Nat.mul Nat.add app]. bees. reflexivity.
Qed.
Lemma enc_last_l_ok rk p s : blk s -> enc_last_l rk p (quad_of s) = (enc_last rk p (quad_of s), last_reads s).
Proof.
  revert s. apply blk_elim. intros ? ? ? ? ? ? ? ? ? ? ? ? ? ? ? ? H. bytes_inv H.
  unfold enc_last_l, enc_last, quad_of, last_l, sub4, rd. cbn [col firstn skipn Nat.mul Nat.add app]. bees. reflexivity.
Qed.
Fixpoint mid_reads (s : bytes) (ks : list bytes) : list (nat * Z) :=
  match ks with [] => [] | k :: ks => round_reads s ++ mid_reads (aes_round s k) ks end.
Lemma all_mid ks : forall s, all_reads s ks = mid_reads s ks ++ last_reads (fold_left aes_round ks s).
Proof. induction ks as [|k ks IH]; intros s; [reflexivity|]. cbn [all_reads mid_reads fold_left]. rewrite IH, app_assoc. reflexivity. Qed.

Section Loop.
Variables (rk : list Z) (ks : list bytes).
Hypothesis ks_ok : Forall blk ks.
Hypothesis ks_at : holds rk ks.
Lemma round_at i s : blk s -> (i < length ks)%nat -> enc_round_l rk (4 * i) (quad_of s) = (quad_of (aes_round s (nth i ks [])), round_reads s).
Proof using ks_ok ks_at. intros Hs Hi. rewrite enc_round_l_ok by assumption. rewrite (enc_round_ok _ _ _ (nth i ks [])); [reflexivity|assumption|apply ks_nth; assumption|apply ks_at; assumption]. Qed.
Lemma two_rounds_l_ok r : forall i s, blk s -> (0 < r)%nat -> (i + 2 * r <= length ks)%nat ->
  two_rounds_l (enc_round_l rk) r (4 * i) (quad_of s) =
    (quad_of (fold_left aes_round (firstn (2 * r - 1) (skipn (S i) ks)) s), (4 * (i + 2 * r))%nat, mid_reads s (firstn (2 * r - 1) (skipn (S i) ks))).
Proof using ks_ok ks_at.
  induction r as [|r IH]; intros i s Hs Hr Hl; [lia|]. cbn [two_rounds_l].
  replace (4 * i + 4)%nat with (4 * S i)%nat by lia. rewrite round_at by (try assumption; lia).
  assert (H1 : blk (aes_round s (nth (S i) ks []))) by (apply blk_round; [assumption|apply ks_nth; [assumption|lia]]).
  destruct r as [|r'].
  - rewrite (skipn_nth_cons ks (S i)) by lia. cbn [Nat.mul Nat.add Nat.sub firstn fold_left mid_reads]. rewrite app_nil_r. f_equal. f_equal. lia.
  - replace (4 * i + 8)%nat with (4 * S (S i))%nat by lia.
    rewrite round_at by (try assumption; lia).
    rewrite IH; [|apply blk_round; [assumption|apply ks_nth; [assumption|lia]]|lia|lia].
    rewrite (skipn_nth_cons ks (S i)) by lia. rewrite (skipn_nth_cons ks (S (S i))) by lia.
    replace (2 * S (S r') - 1)%nat with (S (S (2 * S r' - 1))) by lia. cbn [firstn fold_left mid_reads]. f_equal. f_equal. lia.
Qed.
Lemma encrypt_l_ok r b : length ks = (2 * r + 1)%nat -> (0 < r)%nat -> 8 * Z.of_nat r + 4 <= zlen rk -> blk b ->
  rijndaelEncrypt_l rk (2 * Z.of_nat r) b = (Ret (aes_cipher ks b), all_reads (xorb b (hd [] ks)) (middle ks)).
Proof using ks_ok ks_at.
  intros L Hr Hz Hb. unfold rijndaelEncrypt_l. replace (2 * Z.of_nat r / 2) with (Z.of_nat r) by lia.
  replace (rk_reads_ok rk (2 * Z.of_nat r)) with true by (unfold rk_reads_ok; replace (2 * Z.of_nat r / 2) with (Z.of_nat r) by lia; lia).
  rewrite Nat2Z.id.
  assert (K0 : blk (nth 0 ks [])) by (apply ks_nth; [assumption|lia]).
  assert (Kl : blk (nth (2 * r) ks [])) by (apply ks_nth; [assumption|lia]).
  rewrite (aes_load_ok rk b (nth 0 ks [])) by (try assumption; apply (ks_at 0%nat); lia).
  assert (B0 : blk (xorb b (nth 0 ks []))) by (apply blk_xor; assumption).
  pose proof (two_rounds_l_ok r 0 _ B0 Hr) as T. rewrite Nat.mul_0_r, Nat.add_0_l in T. rewrite T by lia.
  assert (M : firstn (2 * r - 1) (skipn 1 ks) = middle ks).
  { unfold middle. rewrite removelast_firstn_len. replace (tl ks) with (skipn 1 ks) by (destruct ks; reflexivity). rewrite skipn_length. f_equal. lia. }
  rewrite M. rewrite enc_last_l_ok; [|apply blk_rounds; [assumption|]].
  - rewrite (enc_last_ok rk _ _ (nth (2 * r) ks [])); [|apply blk_rounds; [assumption|]|assumption|apply ks_at; lia].
    + unfold aes_cipher. rewrite (last_nth ks (2 * r)) by lia. rewrite all_mid, hd_nth. reflexivity.
    + apply (keys_middle ks). split; [assumption|lia].
  - apply (keys_middle ks). split; [assumption|lia].
Qed.
End Loop.

Lemma aes_encrypt_l_ok (fresh : Z -> bytes) key b : (forall n, 0 <= n -> zlen (fresh n) = n) -> aes_key_size key -> bytes_ok key -> zlen b = 16 -> bytes_ok b ->
  aes_encrypt_l fresh key b = (Ret (aes_E key b), aes_table_reads key b).
Proof.
  intros F K B Lb Bb. unfold aes_encrypt_l, caml_aes_cook_encrypt_key. cbn zeta.
  destruct (KeySetupEnc_ok _ key (uninit_len fresh F) K B) as (rk & -> & P). cbn [fst snd].
  destruct (rounds_key key K) as (r & Er & Hr & _). destruct (holds_four rk _ (rounds key + 1) P (expansion_length key K)) as (L1 & L2 & L3).
  destruct P as (L & _). rewrite Er in *. rewrite Nat2Z.inj_mul. change (Z.of_nat 2) with 2.
  rewrite (encrypt_l_ok rk (round_keys key)); try assumption; [reflexivity|lia|rewrite (zlen60 rk L); lia|split; assumption].
Qed.

(* ---- the keys are at the beginning of the schedule ---- *)
Lemma expand_prefix n k : forall W, exists V, expand n k W = W ++ V.
Proof.
  induction k as [|k IH]; intros W; [exists []; rewrite app_nil_r; reflexivity|]. cbn [expand]. destruct (IH (W ++ [next_word n W])) as (V & ->).
  exists (next_word n W :: V). rewrite <- app_assoc. reflexivity.
Qed.
Lemma words_length W : Forall wordb W -> length (concat W) = (4 * length W)%nat.
Proof. induction 1 as [|w W (L & _) _ IH]; [reflexivity|]. cbn [concat length]. rewrite app_length, IH, L. lia. Qed.
Lemma schedule_prefix key : aes_key_size key -> bytes_ok key -> exists V, concat (round_keys key) = key ++ V.
Proof.
  intros K B. destruct (KeySetupEnc_ok (repeat 0 60) key) as (rk & _ & (_ & P & _)); try assumption; [apply repeat_length|].
  unfold round_keys. rewrite concat_chunks; [|lia|unfold zlen; rewrite (words_length _ P), (expansion_length key K); lia].
  unfold key_expansion. destruct (expand_prefix (key_words key) (4 * (rounds key + 1) - key_words key) (chunks 4 key)) as (V & ->).
  exists (concat V). rewrite concat_app. rewrite concat_chunks; [reflexivity|lia|]. destruct K as [K|[K|K]]; rewrite K; reflexivity.
Qed.
Lemma shifted_inj s s' : blk s -> blk s' -> (forall n, (n < 16)%nat -> shifted s n = shifted s' n) -> s = s'.
Proof.
  intros Hs Hs' H. revert s Hs H. apply (blk_elim (fun s => (forall n, (n < 16)%nat -> shifted s n = shifted s' n) -> s = s')).
  intros ? ? ? ? ? ? ? ? ? ? ? ? ? ? ? ? _. revert s' Hs'. apply (blk_elim (fun s' => (forall n, (n < 16)%nat -> shifted _ n = shifted s' n) -> _ = s')).
  intros ? ? ? ? ? ? ? ? ? ? ? ? ? ? ? ? _ H.
  pose proof (fun n (h : (n <? 16)%nat = true) => H n (proj1 (Nat.ltb_lt n 16) h)) as G. clear H.
  pose proof (G 0%nat eq_refl). pose proof (G 1%nat eq_refl). pose proof (G 2%nat eq_refl). pose proof (G 3%nat eq_refl).
  pose proof (G 4%nat eq_refl). pose proof (G 5%nat eq_refl). pose proof (G 6%nat eq_refl). pose proof (G 7%nat eq_refl).
  pose proof (G 8%nat eq_refl). pose proof (G 9%nat eq_refl). pose proof (G 10%nat eq_refl). pose proof (G 11%nat eq_refl).
  pose proof (G 12%nat eq_refl). pose proof (G 13%nat eq_refl). pose proof (G 14%nat eq_refl). pose proof (G 15%nat eq_refl).
  clear G. cbv [shifted Nat.mul Nat.add Nat.div Nat.modulo Nat.divmod fst snd Nat.sub nth] in *. congruence.
Qed.
Lemma round_reads_inj s s' : blk s -> blk s' -> round_reads s = round_reads s' -> s = s'.
Proof.
  intros Hs Hs' H. apply shifted_inj; try assumption. intros n Hn.
  assert (E : nth n (round_reads s) (0%nat, 0) = nth n (round_reads s') (0%nat, 0)) by (rewrite H; reflexivity).
  unfold round_reads in E. rewrite !(nth_indep _ (0%nat, 0) ((fun n => (n mod 4, shifted s n)%nat) 0%nat)) in E by (rewrite map_length, seq_length; exact Hn).
  rewrite (map_nth (fun n => (n mod 4, shifted s n)%nat)) in E.
  rewrite (nth_indep _ _ ((fun n => (n mod 4, shifted s' n)%nat) 0%nat)) in E by (rewrite map_length, seq_length; exact Hn).
  rewrite (map_nth (fun n => (n mod 4, shifted s' n)%nat)), seq_nth in E by exact Hn. injection E as E. exact E.
Qed.
Lemma round_reads_length s : length (round_reads s) = 16%nat. Proof. unfold round_reads. rewrite map_length, seq_length. reflexivity. Qed.
Lemma last_reads_length s : length (last_reads s) = 16%nat. Proof. unfold last_reads. rewrite map_length, seq_length. reflexivity. Qed.
Lemma all_reads_tables ks : forall s, map fst (all_reads s ks) = concat (repeat [0; 1; 2; 3; 0; 1; 2; 3; 0; 1; 2; 3; 0; 1; 2; 3]%nat (length ks)) ++ repeat 4%nat 16.
Proof. induction ks as [|k ks IH]; intros s; [reflexivity|]. cbn [all_reads length repeat concat]. rewrite map_app, IH, <- app_assoc. reflexivity. Qed.
Lemma all_reads_length ks s : length (all_reads s ks) = (16 * (length ks + 1))%nat.
Proof. rewrite <- (map_length fst), all_reads_tables, app_length, repeat_length. induction (length ks) as [|n IH]; [reflexivity|]. cbn [repeat concat]. rewrite app_length. cbn [length]. lia. Qed.
Lemma xorb_cancel_l a : forall b c, length a = length b -> length a = length c -> xorb a b = xorb a c -> b = c.
Proof.
  induction a as [|x a IH]; intros [|y b] [|z c] Lb Lc H; cbn [length] in Lb, Lc; try discriminate; [reflexivity|].
  cbn in H. injection H as H1 H2. f_equal; [|apply IH; [lia|lia|exact H2]].
  assert (E : Z.lxor x (Z.lxor x y) = Z.lxor x (Z.lxor x z)) by (rewrite H1; reflexivity). rewrite <- !Z.lxor_assoc, !Z.lxor_nilpotent, !Z.lxor_0_l in E. exact E.
Qed.
Lemma blk_length s : blk s -> length s = 16%nat. Proof. intros (L & _). unfold zlen in L. lia. Qed.
Lemma nth_xorb a : forall b j, (j < length a)%nat -> (j < length b)%nat -> nth j (xorb a b) 0 = Z.lxor (nth j a 0) (nth j b 0).
Proof. induction a as [|x a IH]; intros [|y b] [|j] Ha Hb; cbn [length] in Ha, Hb; try lia; [reflexivity|]. cbn. apply IH; lia. Qed.
Lemma two_keys key : aes_key_size key -> bytes_ok key -> exists k0 k1 k2 k3 ks, round_keys key = k0 :: k1 :: k2 :: k3 :: ks /\ blk k0 /\ blk k1 /\
  length ks = (rounds key - 3)%nat /\ key = firstn (length key) (k0 ++ k1).
Proof.
  intros K B. destruct (round_keys_ok key K B) as (F & L). destruct (schedule_prefix key K B) as (V & C).
  assert (R : (10 <= rounds key)%nat) by (unfold rounds, key_words; destruct K as [K|[K|K]]; rewrite K; reflexivity || (cbn; lia)).
  destruct (round_keys key) as [|k0 [|k1 [|k2 [|k3 ks]]]]; cbn [length] in L; try lia.
  apply Forall_cons_iff in F as (F0 & F). apply Forall_cons_iff in F as (F1 & _). exists k0, k1, k2, k3, ks. split; [reflexivity|]. split; [exact F0|]. split; [exact F1|]. split; [lia|].
  cbn [concat] in C. rewrite app_assoc in C. pose proof (blk_length _ F0) as L0. pose proof (blk_length _ F1) as L1.
  assert (Lk : (length key <= 32)%nat) by (unfold aes_key_size, zlen in K; lia).
  apply (f_equal (firstn (length key))) in C. rewrite (firstn_app (length key) (k0 ++ k1)), (firstn_app (length key) key) in C. rewrite firstn_all, Nat.sub_diag, firstn_O, app_nil_r in C.
  replace (length key - length (k0 ++ k1))%nat with 0%nat in C by (rewrite app_length; lia). rewrite firstn_O, app_nil_r in C. symmetry. exact C.
Qed.
Lemma first_reads key b : aes_key_size key -> bytes_ok key -> blk b -> exists k0 k1 l, blk k0 /\ blk k1 /\ key = firstn (length key) (k0 ++ k1) /\
  aes_table_reads key b = round_reads (xorb b k0) ++ round_reads (aes_round (xorb b k0) k1) ++ l.
Proof.
  intros K B Hb. destruct (two_keys key K B) as (k0 & k1 & k2 & k3 & ks & E & B0 & B1 & _ & Ek). exists k0, k1, (all_reads (aes_round (aes_round (xorb b k0) k1) k2) (removelast (k3 :: ks))).
  split; [exact B0|]. split; [exact B1|]. split; [exact Ek|]. unfold aes_table_reads. rewrite E. unfold middle. reflexivity.
Qed.
Lemma reads_tables key b : aes_key_size key -> bytes_ok key ->
  map fst (aes_table_reads key b) = concat (repeat [0; 1; 2; 3; 0; 1; 2; 3; 0; 1; 2; 3; 0; 1; 2; 3]%nat (rounds key - 1)) ++ repeat 4%nat 16.
Proof.
  intros K B. unfold aes_table_reads. rewrite all_reads_tables. destruct (round_keys_ok key K B) as (_ & L). do 4 f_equal.
  unfold middle. rewrite removelast_firstn_len, firstn_length. destruct (round_keys key); cbn [length tl] in *; lia.
Qed.
Lemma reads_number key b : aes_key_size key -> bytes_ok key -> length (aes_table_reads key b) = (16 * rounds key)%nat.
Proof.
  intros K B. unfold aes_table_reads. rewrite all_reads_length. destruct (round_keys_ok key K B) as (_ & L).
  unfold middle. rewrite removelast_firstn_len, firstn_length. assert (R : (6 <= rounds key)%nat) by (unfold rounds; lia). destruct (round_keys key); cbn [length tl] in *; lia.
Qed.
Lemma reads_first key b n : aes_key_size key -> bytes_ok key -> zlen b = 16 -> bytes_ok b -> (n < 16)%nat ->
  let j := (4 * ((n / 4 + n mod 4) mod 4) + n mod 4)%nat in
  nth n (aes_table_reads key b) (0%nat, 0) = ((n mod 4)%nat, Z.lxor (nth j b 0) (nth j key 0)).
Proof.
  intros K B Lb Bb Hn j. destruct (first_reads key b K B (conj Lb Bb)) as (k0 & k1 & l & B0 & B1 & Ek & ->).
  rewrite app_nth1 by (rewrite round_reads_length; exact Hn). unfold round_reads.
  rewrite (nth_indep _ _ ((fun n => (n mod 4, shifted (xorb b k0) n)%nat) 0%nat)) by (rewrite map_length, seq_length; exact Hn).
  rewrite (map_nth (fun n => (n mod 4, shifted (xorb b k0) n)%nat)), seq_nth by exact Hn. cbn [Nat.add]. f_equal. unfold shifted. fold j.
  assert (Hj : (j < 16)%nat) by (unfold j; do 16 (destruct n as [|n]; [cbn; lia|]); lia).
  rewrite nth_xorb by (rewrite ?(blk_length _ (conj Lb Bb)), ?(blk_length _ B0); lia). f_equal. rewrite Ek.
  assert (Lk : (16 <= length key)%nat) by (unfold aes_key_size, zlen in K; lia).
  rewrite nth_firstn_lt by lia. rewrite app_nth1 by (rewrite (blk_length _ B0); exact Hj). reflexivity.
Qed.
Lemma reads_key key key' b : aes_key_size key -> aes_key_size key' -> bytes_ok key -> bytes_ok key' -> zlen b = 16 -> bytes_ok b ->
  aes_table_reads key b = aes_table_reads key' b -> key = key'.
Proof.
  intros K K' B B' Lb Bb E.
  assert (L : length key = length key').
  { assert (N : (16 * rounds key = 16 * rounds key')%nat) by (rewrite <- (reads_number key b K B), <- (reads_number key' b K' B'), E; reflexivity).
    unfold rounds, key_words in N. unfold aes_key_size, zlen in *. clear - N K K'. lia. }
  destruct (first_reads key b K B (conj Lb Bb)) as (k0 & k1 & l & B0 & B1 & Ek & E1). destruct (first_reads key' b K' B' (conj Lb Bb)) as (k0' & k1' & l' & B0' & B1' & Ek' & E1').
  rewrite E1, E1' in E. apply app_head in E as (E2 & E); [|rewrite !round_reads_length; reflexivity]. apply app_head in E as (E3 & _); [|rewrite !round_reads_length; reflexivity].
  assert (Hb : blk b) by (split; assumption).
  apply round_reads_inj in E2; [|apply blk_xor; assumption|apply blk_xor; assumption].
  apply xorb_cancel_l in E2; [|rewrite !blk_length by assumption; reflexivity|rewrite !blk_length by assumption; reflexivity]. subst k0'.
  assert (S : blk (xorb b k0)) by (apply blk_xor; assumption).
  apply round_reads_inj in E3; [|apply blk_round; assumption|apply blk_round; assumption].
  unfold aes_round in E3. assert (Sm : blk (MixColumns (ShiftRows (SubBytes (xorb b k0))))) by (apply blk_mix; try small; apply blk_shift, blk_sub, S).
  apply xorb_cancel_l in E3; [|rewrite !blk_length by assumption; reflexivity|rewrite !blk_length by assumption; reflexivity]. subst k1'.
  rewrite Ek, Ek', L. reflexivity.
Qed.
Lemma enc_round_same rk p s : fst (enc_round_l rk p s) = enc_round rk p s.
Proof. destruct s as [[[s0 s1] s2] s3]. reflexivity. Qed.
Lemma two_rounds_same rk r : forall p s, fst (two_rounds_l (enc_round_l rk) r p s) = two_rounds (enc_round rk) r p s.
Proof.
  induction r as [|r IH]; intros p s; [reflexivity|]. cbn [two_rounds_l two_rounds]. rewrite <- enc_round_same. destruct (enc_round_l rk (p + 4) s) as [t l]. cbn [fst].
  destruct r as [|r]; [reflexivity|]. rewrite <- enc_round_same. destruct (enc_round_l rk (p + 8) t) as [s' l']. cbn [fst]. rewrite <- IH.
  destruct (two_rounds_l (enc_round_l rk) (S r) (p + 8) s') as [[u q] l'']. reflexivity.
Qed.
Lemma encrypt_same rk Nr pt : fst (rijndaelEncrypt_l rk Nr pt) = rijndaelEncrypt rk Nr pt.
Proof.
  unfold rijndaelEncrypt_l, rijndaelEncrypt. destruct (rk_reads_ok rk Nr); [|reflexivity]. rewrite <- two_rounds_same.
  destruct (two_rounds_l (enc_round_l rk) (Z.to_nat (Nr / 2)) 0 (aes_load rk pt)) as [[t p] l]. cbn [fst]. destruct t as [[[t0 t1] t2] t3]. reflexivity.
Qed.
Lemma leak_tables (fresh : Z -> bytes) key b : (forall n, 0 <= n -> zlen (fresh n) = n) -> aes_key_size key -> bytes_ok key -> zlen b = 16 -> bytes_ok b ->
  map fst (snd (aes_encrypt_l fresh key b)) = concat (repeat [0; 1; 2; 3; 0; 1; 2; 3; 0; 1; 2; 3; 0; 1; 2; 3]%nat (Z.to_nat (zlen key / 4) + 5)) ++ repeat 4%nat 16.
Proof. intros. rewrite aes_encrypt_l_ok by assumption. cbn [snd]. rewrite reads_tables by assumption. unfold rounds, key_words. replace (Z.to_nat (zlen key / 4) + 6 - 1)%nat with (Z.to_nat (zlen key / 4) + 5)%nat by lia. reflexivity. Qed.
Lemma leak_first (fresh : Z -> bytes) key b n : (forall n, 0 <= n -> zlen (fresh n) = n) -> aes_key_size key -> bytes_ok key -> zlen b = 16 -> bytes_ok b -> (n < 16)%nat ->
  let j := (4 * ((n / 4 + n mod 4) mod 4) + n mod 4)%nat in
  nth n (snd (aes_encrypt_l fresh key b)) (0%nat, 0) = ((n mod 4)%nat, Z.lxor (nth j b 0) (nth j key 0)).
Proof. intros. rewrite aes_encrypt_l_ok by assumption. apply reads_first; assumption. Qed.
Lemma leak_key (fresh fresh' : Z -> bytes) key key' b : (forall n, 0 <= n -> zlen (fresh n) = n) -> (forall n, 0 <= n -> zlen (fresh' n) = n) ->
  aes_key_size key -> aes_key_size key' -> bytes_ok key -> bytes_ok key' -> zlen b = 16 -> bytes_ok b ->
  snd (aes_encrypt_l fresh key b) = snd (aes_encrypt_l fresh' key' b) -> key = key'.
Proof. intros F F' K K' B B' Lb Bb E. rewrite !aes_encrypt_l_ok in E by assumption. exact (reads_key key key' b K K' B B' Lb Bb E). Qed.
