(* Lengths of digests; prefixes of BLAKE3 outputs. *)
From Verif Require Import Prelude PreludeFacts BytesNum SpecBlock Word SpecHash SpecRipemd SpecKeccak SpecBlake2 SpecBlake3 MdHash.

Lemma to_be_len n x : length (to_be n x) = n.
Proof. unfold to_be. rewrite rev_length. revert x. induction n as [|n IH]; intros x; [reflexivity|]. cbn [to_le length]. rewrite IH. reflexivity. Qed.
Lemma to_le_len n : forall x, length (to_le n x) = n.
Proof. induction n as [|n IH]; intros x; [reflexivity|]. cbn [to_le length]. rewrite IH. reflexivity. Qed.
Lemma concat_len {A} (f : A -> bytes) n l : (forall x, length (f x) = n) -> length (concat (map f l)) = (n * length l)%nat.
Proof. intros H. induction l as [|x l IH]; [cbn; lia|]. cbn [map concat length]. rewrite app_length, H, IH. lia. Qed.
Lemma fold_len {A} (f : list Z -> A -> list Z) n l : (forall st x, length st = n -> length (f st x) = n) -> forall st, length st = n -> length (fold_left f l st) = n.
Proof. intros H. induction l as [|x l IH]; intros st Hs; [assumption|]. cbn [fold_left]. apply IH, H, Hs. Qed.
Lemma add_words_len w a b : length (add_words w a b) = Nat.min (length a) (length b).
Proof. unfold add_words. rewrite map_length, combine_length. reflexivity. Qed.

Lemma sha1_size m : zlen (sha1 m) = 20.
Proof.
  unfold sha1, zlen. rewrite (concat_len _ 4) by apply to_be_len. unfold md_digest. rewrite (fold_len _ 5); [reflexivity| |reflexivity].
  intros st x Hs. unfold sha1_compress. destruct (fold_left _ _ _) as [[[[a b] c] d] e]. rewrite add_words_len, Hs. reflexivity.
Qed.
Lemma sha2_size P iv len m : length iv = 8%nat -> (len <= Z.to_nat (s2_w P / 8) * 8)%nat -> zlen (sha2_digest P iv len m) = Z.of_nat len.
Proof.
  intros Hi Hl. unfold sha2_digest, zlen. rewrite firstn_length, (concat_len _ (Z.to_nat (s2_w P / 8))) by apply to_be_len. unfold md_digest. rewrite (fold_len _ 8); [lia| |assumption].
  intros st x Hs. unfold sha2_compress. destruct (fold_left _ _ _) as [[[[[[[a b] c] d] e] f] g] h]. rewrite add_words_len, Hs. reflexivity.
Qed.
Lemma primes_len : length primes = 80%nat. Proof. vm_compute. reflexivity. Qed.
Lemma sha224_size m : zlen (sha224 m) = 28.
Proof. apply sha2_size; [unfold sha224_IV, sha384_IV; rewrite !map_length, firstn_length, skipn_length, primes_len; reflexivity|vm_compute; lia]. Qed.
Lemma sha256_size m : zlen (sha256 m) = 32.
Proof. apply sha2_size; [unfold sha256_IV; rewrite map_length, firstn_length, primes_len; reflexivity|vm_compute; lia]. Qed.
Lemma sha384_size m : zlen (sha384 m) = 48.
Proof. apply sha2_size; [unfold sha384_IV; rewrite map_length, firstn_length, skipn_length, primes_len; reflexivity|vm_compute; lia]. Qed.
Lemma sha512_size m : zlen (sha512 m) = 64.
Proof. apply sha2_size; [unfold sha512_IV; rewrite map_length, firstn_length, primes_len; reflexivity|vm_compute; lia]. Qed.
Lemma ripemd160_size m : zlen (ripemd160 m) = 20.
Proof.
  unfold ripemd160, zlen. rewrite (concat_len _ 4) by apply to_le_len. unfold md_digest. rewrite (fold_len _ 5); [reflexivity| |reflexivity].
  intros st x Hs. unfold rmd160_compress. destruct (rmd_left_line _ _) as [[[[a b] c] d] e]. destruct (rmd_right_line _ _) as [[[[a' b'] c'] d'] e']. reflexivity.
Qed.
Lemma keccak_size suffix d m : 0 <= d <= 1600 -> zlen (keccak_digest suffix d m) = d / 8.
Proof.
  intros Hd. unfold keccak_digest, zlen. rewrite firstn_length, (concat_len _ 8) by apply to_le_len. unfold sponge. rewrite (fold_len _ 25); [|intros|apply repeat_length].
  - assert (0 <= d / 8 <= 200) by lia. lia.
  - unfold keccak_f. apply fold_len; [intros; unfold keccak_round, iota, lanes; rewrite map_length, seq_length; reflexivity|]. unfold xor_block. rewrite map_length, seq_length. reflexivity.
Qed.
Lemma blake3_block_size n i : length (root_block n i) = 64%nat.
Proof.
  unfold root_block. rewrite (concat_len _ 4) by apply to_le_len. unfold b3_compress. cbv zeta. rewrite app_length, !map_length, !seq_length. reflexivity.
Qed.
Lemma blake3_size key len m : 0 <= len -> zlen (blake3_spec key len m) = len.
Proof.
  intros Hl. unfold blake3_spec, root_output, zlen. rewrite firstn_length, (concat_len _ 64) by apply blake3_block_size. rewrite seq_length.
  assert (Z.to_nat len <= 64 * ((Z.to_nat len + 63) / 64))%nat.
  { pose proof (Nat.div_mod (Z.to_nat len + 63) 64 ltac:(lia)). pose proof (Nat.mod_upper_bound (Z.to_nat len + 63) 64 ltac:(lia)). lia. }
  lia.
Qed.
Lemma blake3_prefix key l1 l2 m : 0 <= l1 <= l2 -> blake3_spec key l1 m = firstn (Z.to_nat l1) (blake3_spec key l2 m).
Proof.
  intros H. unfold blake3_spec. set (n := match key with [] => _ | _ => _ end). clearbody n. unfold root_output. rewrite firstn_firstn, Nat.min_l by lia.
  set (a := ((Z.to_nat l1 + 63) / 64)%nat). set (b := ((Z.to_nat l2 + 63) / 64)%nat).
  assert (Hab : (a <= b)%nat) by (apply Nat.div_le_mono; lia).
  assert (Ha : (Z.to_nat l1 <= 64 * a)%nat).
  { unfold a. pose proof (Nat.div_mod (Z.to_nat l1 + 63) 64 ltac:(lia)). pose proof (Nat.mod_upper_bound (Z.to_nat l1 + 63) 64 ltac:(lia)). lia. }
  replace b with (a + (b - a))%nat by lia. rewrite seq_app, map_app, concat_app, firstn_app, (concat_len _ 64) by apply blake3_block_size. rewrite seq_length.
  replace (Z.to_nat l1 - 64 * a)%nat with 0%nat by lia. rewrite firstn_O, app_nil_r. reflexivity.
Qed.
Lemma blake2_size P nn key m : 0 <= nn <= 8 * Z.of_nat (Z.to_nat (b_n P)) -> zlen (blake2_digest P nn key m) = nn.
Proof.
  intros Hn. unfold blake2_digest, zlen. cbv zeta. rewrite firstn_length, (concat_len _ (Z.to_nat (b_n P))) by apply to_le_len.
  unfold b_F. cbv zeta. rewrite map_length, seq_length. lia.
Qed.
Lemma blake2b_size nn key m : 0 <= nn <= 64 -> zlen (blake2b_spec nn key m) = nn.
Proof. intros H. apply blake2_size. exact H. Qed.
Lemma blake2s_size nn key m : 0 <= nn <= 32 -> zlen (blake2s_spec nn key m) = nn.
Proof. intros H. apply blake2_size. exact H. Qed.
