(* Proofs for C114. *)
From Verif Require Import Prelude PreludeFacts BytesNum TransformModel BlockModel CipherModel SpecAes AesModel AesniModel Aes SpecStream StreamModel SpecRng RngModel Rng SpecRepeat.

Lemma all_valid ns : Forall (Z.le 0) ns -> Forall q_valid (map (fun n => Req (zeros n) 0 n) ns).
Proof. induction 1 as [|n ns H _ IH]; constructor; [|exact IH]. unfold q_valid. cbn. apply in_range_true. rewrite zlen_zeros by lia. lia. Qed.
Lemma total_nonneg ns : Forall (Z.le 0) ns -> 0 <= total ns.
Proof. induction 1; cbn; [lia|]. fold (total l). lia. Qed.
Lemma delivered_all stream ns : Forall (Z.le 0) ns -> forall n,
  concat (map fst (delivered stream n (map (fun n => Req (zeros n) 0 n) ns))) = ks_bytes stream n (Z.to_nat (total ns)).
Proof.
  induction 1 as [|k ns H Hn IH]; intros n; [reflexivity|]. cbn [map delivered q_buf q_ofs q_len].
  replace (in_range (zeros k) 0 k) with true by (symmetry; apply in_range_true; rewrite zlen_zeros; lia).
  cbn [map fst concat]. rewrite IH. rewrite splice_all by (rewrite zlen_ks, zlen_zeros; lia). rewrite <- ks_bytes_add. f_equal.
  pose proof (total_nonneg ns Hn). change (total (k :: ns)) with (k + total ns). lia.
Qed.
Lemma sub_ks stream n m a b : 0 <= a -> 0 <= b -> a + b <= Z.of_nat m -> sub (ks_bytes stream n m) a b = ks_bytes stream (n + Z.to_nat a) (Z.to_nat b).
Proof.
  intros Ha Hb H. replace m with (Z.to_nat a + (Z.to_nat b + (m - Z.to_nat a - Z.to_nat b)))%nat by lia. rewrite !ks_bytes_add. unfold sub.
  assert (L : forall n a, length (ks_bytes stream n a) = a) by (intros; unfold ks_bytes; rewrite map_length, seq_length; reflexivity).
  rewrite skipn_app, skipn_all2 by (rewrite L; lia). rewrite L, Nat.sub_diag. cbn [app skipn]. rewrite firstn_app, firstn_all2 by (rewrite L; lia).
  rewrite L, Nat.sub_diag. cbn [firstn]. apply app_nil_r.
Qed.

Lemma aes_ctr_no_repeat fresh nb seed : (forall n, 0 <= n -> zlen (fresh n) = n) -> (nb = new_aes fresh Encrypt \/ nb = new_aesni fresh Encrypt) ->
  bytes_ok seed -> 16 <= zlen seed ->
  exists o, pseudo_rng_aes_ctr fresh nb seed = Ret o /\
  forall ns, Forall (Z.le 0) ns -> zlen (output_of o ns) = total ns /\
    forall i j, 0 <= i < j -> j < 2 ^ 128 -> 16 * j + 16 <= total ns ->
    sub (output_of o ns) (16 * i) 16 <> sub (output_of o ns) (16 * j) 16.
Proof.
  intros F Hnb B H. destruct (proj2 (pseudo_rng_aes_ctr_stream fresh nb seed F Hnb B) H) as (o & Ho & R). exists o. split; [exact Ho|].
  intros ns Hns. pose proof (total_nonneg ns Hns) as Ht. unfold output_of. rewrite (R _ (all_valid ns Hns)), delivered_all by exact Hns.
  split; [rewrite zlen_ks; lia|]. intros i j Hij Hj Hl. rewrite !sub_ks by lia. cbn [Nat.add].
  set (key := firstn 16 seed) in *.
  assert (K : aes_key_size key) by (left; unfold key, zlen in *; rewrite firstn_length; lia). assert (BK : bytes_ok key) by (apply Forall_firstn, B).
  assert (G : forall k, 0 <= k -> ks_bytes (ctr_stream (aes_E key)) (Z.to_nat (16 * k)) (Z.to_nat 16) = aes_E key (to_be 16 k)).
  { intros k Hk. assert (L : zlen (aes_E key (to_be 16 k)) = 16) by (apply aes_E_blk; [assumption|assumption|apply zlen_to_be|apply bytes_ok_to_be]).
    pose proof (ctr_stream_block (aes_E key) k 0 16 Hk ltac:(lia) ltac:(lia) L) as X. rewrite Z.add_0_r in X. change (Z.to_nat 16) with 16%nat. rewrite X. apply sub_0_all. lia. }
  rewrite !G by lia. intros E. apply (f_equal (aes_D key)) in E.
  rewrite !aes_D_E in E by (assumption || apply zlen_to_be || apply bytes_ok_to_be).
  apply (f_equal be) in E. rewrite !be_to_be in E. change (256 ^ Z.of_nat 16) with (2 ^ 128) in E. rewrite !Z.mod_small in E by lia. lia.
Qed.
