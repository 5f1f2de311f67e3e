(* Proofs for C100 *)
From Verif Require Import Prelude SpecHash SpecKeccak SpecBlake2 SpecBlake3 HashModel HashSpec ShaModel KeccakModel Blake2Model Blake3Model Sha KeccakHash Blake2 Blake3Hash HashSize WipeHash SpecDigest.

Lemma digest_size f sz m : size_allowed f sz -> zlen (digest_of f sz m) = sz / 8.
Proof.
  destruct f; cbn [size_allowed digest_of]; intros H.
  - destruct H as [<-|[<-|[<-|[<-|[]]]]]; cbn [Z.eqb Pos.eqb]; [apply sha224_size|apply sha256_size|apply sha384_size|apply sha512_size].
  - apply keccak_size. destruct H as [<-|[<-|[<-|[<-|[]]]]]; lia.
  - apply keccak_size. destruct H as [<-|[<-|[<-|[<-|[]]]]]; lia.
  - apply blake2b_size. destruct H. split; [apply Z.div_pos; lia|]. apply Z.div_le_upper_bound; lia.
  - apply blake2s_size. destruct H. split; [apply Z.div_pos; lia|]. apply Z.div_le_upper_bound; lia.
  - apply blake3_size. apply Z.div_pos; lia.
Qed.
Lemma computes_below o d : computes o d -> computes_on (fun m : bytes => zlen m < 2 ^ 64) o (fun m => Ret (d m)).
Proof. intros H ops V _. exact (H ops V Logic.I). Qed.
Lemma by_size fresh f sz : (forall n, 0 <= n -> zlen (fresh n) = n) -> size_allowed f sz ->
  exists o, hash_by_size fresh f sz = Ret o /\ computes_on (fun m : bytes => f = FBlake3 -> zlen m < 2 ^ 64) o (fun m => Ret (digest_of f sz m)).
Proof.
  intros Hf H.
  assert (W : forall o d, computes o d -> computes_on (fun m : bytes => f = FBlake3 -> zlen m < 2 ^ 64) o (fun m => Ret (d m))) by (intros o d C ops V _; exact (C ops V Logic.I)).
  destruct f; cbn [size_allowed] in H; unfold hash_by_size, digest_of, sha3_obj, keccak_obj.
  - unfold sha2_obj. destruct H as [<-|[<-|[<-|[<-|[]]]]]; cbn [Z.eqb Pos.eqb]; eexists; (split; [reflexivity|]); apply W; [apply sha224_computes|apply sha256_computes|apply sha384_computes|apply sha512_computes]; exact Hf.
  - destruct (sha3_new_ok fresh Hf sz true) as (o & E & _ & C); [cbn [In] in H; intuition|]. exists o. split; [exact E|apply W; exact C].
  - destruct (sha3_new_ok fresh Hf sz false) as (o & E & _ & C); [cbn [In] in H; intuition|]. exists o. split; [exact E|apply W; exact C].
  - destruct (blake2b_ok fresh sz [] Hf) as (o & E & _ & C); try tauto; try exact (Forall_nil _); try discriminate. exists o. split; [exact E|apply W; exact C].
  - destruct (blake2s_ok fresh sz [] Hf) as (o & E & _ & C); try tauto; try exact (Forall_nil _); try discriminate. exists o. split; [exact E|apply W; exact C].
  - destruct (blake3_ok [] sz) as (o & E & _ & C); try tauto; try exact (Forall_nil _); try (left; reflexivity). exists o. split; [exact E|]. intros ops V P. exact (C ops V (P eq_refl)).
Qed.
Lemma by_size_other fresh f sz : ~ size_allowed f sz -> hash_by_size fresh f sz = Raise (Error Wrong_key_size).
Proof.
  destruct f; cbn [size_allowed]; intros H; unfold hash_by_size, sha3_obj, keccak_obj.
  - unfold sha2_obj. cbn [In] in H. repeat match goal with |- context [?a =? ?b] => destruct (Z.eqb_spec a b); [exfalso; apply H; auto|] end. reflexivity.
  - apply sha3_new_other. cbn [In] in H. intuition.
  - apply sha3_new_other. cbn [In] in H. intuition.
  - apply (blake2_new_other 64 12 32 24 16 63 blake2b_iv fresh sz []). tauto.
  - apply (blake2_new_other 32 10 16 12 8 7 blake2s_iv fresh sz []). tauto.
  - apply blake3_other. tauto.
Qed.
(* objects for two sizes of the same family never agree *)
Lemma by_size_inj f sz1 sz2 m1 m2 : size_allowed f sz1 -> size_allowed f sz2 -> digest_of f sz1 m1 = digest_of f sz2 m2 -> sz1 = sz2.
Proof.
  intros H1 H2 E. apply (f_equal (@zlen Z)) in E. rewrite !digest_size in E by assumption.
  assert (M : forall s, size_allowed f s -> s mod 8 = 0) by (intros s; destruct f; cbn [size_allowed]; try tauto; intros [<-|[<-|[<-|[<-|[]]]]]; reflexivity).
  rewrite (Z.div_mod sz1 8), (Z.div_mod sz2 8), (M sz1 H1), (M sz2 H2), E by lia. reflexivity.
Qed.
Lemma by_size_differ fresh f sz1 sz2 o1 o2 ops1 ops2 r1 r2 : (forall n, 0 <= n -> zlen (fresh n) = n) -> hash_by_size fresh f sz1 = Ret o1 -> hash_by_size fresh f sz2 = Ret o2 ->
  Forall hop_valid ops1 -> Forall hop_valid ops2 -> zlen (added ops1) < 2 ^ 64 -> zlen (added ops2) < 2 ^ 64 ->
  snd (h_result (ho_class o1) (fst (h_run (ho_class o1) (ho_st o1) ops1))) = Ret r1 -> snd (h_result (ho_class o2) (fst (h_run (ho_class o2) (ho_st o2) ops2))) = Ret r2 ->
  zlen r1 = sz1 / 8 /\ zlen r2 = sz2 / 8 /\ (r1 = r2 -> sz1 = sz2).
Proof.
  intros Hf E1 E2 V1 V2 L1 L2 R1 R2.
  assert (D : forall s o, hash_by_size fresh f s = Ret o -> size_allowed f s).
  { intros s o E. assert (Dec : size_allowed f s \/ ~ size_allowed f s).
    { destruct f; cbn [size_allowed In]; clear; lia. }
    destruct Dec as [A|N]; [exact A|]. rewrite (by_size_other fresh f s N) in E. discriminate E. }
  pose proof (D _ _ E1) as A1. pose proof (D _ _ E2) as A2.
  destruct (by_size fresh f sz1 Hf A1) as (p1 & F1 & C1). destruct (by_size fresh f sz2 Hf A2) as (p2 & F2 & C2).
  rewrite E1 in F1. rewrite E2 in F2. apply ret_inj in F1, F2. subst p1 p2.
  destruct (C1 ops1 V1 (fun _ => L1)) as (_ & G1 & _). destruct (C2 ops2 V2 (fun _ => L2)) as (_ & G2 & _).
  rewrite R1 in G1. rewrite R2 in G2. apply ret_inj in G1, G2. subst r1 r2.
  split; [apply digest_size; exact A1|]. split; [apply digest_size; exact A2|]. intros E. exact (by_size_inj f sz1 sz2 _ _ A1 A2 E).
Qed.
