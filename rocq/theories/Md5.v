(* MD5 objects feed the runtime's MD5 all their bytes, unless one call adds
   2^32 bytes or more. *)
From Verif Require Import Prelude PreludeFacts HashModel HashSpec HashFacts MdHash Md5Model.

(* a runtime whose functions compute D of the concatenation of the updates *)
Definition runtime_computes (rt : md5_runtime) (D : bytes -> bytes) : Prop :=
  forall l : list bytes, rt_final rt (fold_left (rt_update rt) l (rt_init rt)) = D (concat l).
Definition op_small (o : hop) : Prop := zlen (hop_bytes o) < 2 ^ 32.

Definition md5_st (rt : md5_runtime) (c : rt_ctx rt) (m : bytes) : Prop := exists l, concat l = m /\ c = fold_left (rt_update rt) l (rt_init rt).
Lemma md5_step rt c m d : md5_st rt c m -> zlen d < 2 ^ 32 -> exists c', md5_update rt c d = Ret c' /\ md5_st rt c' (m ++ d).
Proof.
  intros (l & E & ->) Hd. unfold md5_update. eexists. split; [reflexivity|]. exists (l ++ [d]).
  rewrite concat_app, fold_left_app. cbn [concat fold_left]. rewrite app_nil_r, E. split; [reflexivity|]. do 2 f_equal.
  rewrite Z.mod_small by (pose proof (zlen_nonneg d); lia). unfold zlen. rewrite Nat2Z.id. apply firstn_all.
Qed.
Lemma md5_string rt c m d : md5_st rt c m -> zlen d < 2 ^ 32 -> exists c', h_add_string (md5_class rt) c d = (c', Ret tt) /\ md5_st rt c' (m ++ d).
Proof.
  intros Hc Hd. destruct (md5_step rt c m d Hc Hd) as (c' & E & H). exists c'. split; [|assumption]. cbn [md5_class c_hash h_add_string]. unfold c_update.
  assert (in_range d 0 (zlen d) = true) as -> by (apply in_range_true; pose proof (zlen_nonneg d); lia).
  rewrite sub_0_all by reflexivity. rewrite E. reflexivity.
Qed.
Lemma md5_op rt c m o : md5_st rt c m -> hop_valid o -> op_small o -> exists c', h_step (md5_class rt) c o = (c', Ret tt) /\ md5_st rt c' (m ++ hop_bytes o).
Proof.
  intros Hc Hv Hs. destruct o as [src ofs len|s|x|n]; cbn [h_step hop_bytes hop_valid] in *; unfold op_small in Hs; cbn [hop_bytes] in Hs; try (apply md5_string; assumption).
  - destruct Hv as (_ & _ & Hr). destruct (md5_step rt c m (sub src ofs len) Hc Hs) as (c' & E & H). exists c'. split; [|assumption].
    cbn [md5_class c_hash h_add_substring]. pose proof (proj1 (in_range_true _ _ _) Hr). assert ((ofs <? 0) || (len <? 0) || (ofs >? zlen src - len) = false) as -> by lia.
    unfold c_update. rewrite Hr, E. reflexivity.
Qed.
Lemma md5_run rt ops : forall c m, md5_st rt c m -> Forall hop_valid ops -> Forall op_small ops ->
  exists c', h_run (md5_class rt) c ops = (c', Ret tt) /\ md5_st rt c' (m ++ added ops).
Proof.
  induction ops as [|o ops IH]; intros c m Hc Hv Hs; [exists c; unfold added; cbn; rewrite app_nil_r; auto|].
  apply Forall_cons_iff in Hv as (Hv1 & Hv2), Hs as (Hs1 & Hs2). destruct (md5_op rt c m o Hc Hv1 Hs1) as (c1 & E & H1). cbn [h_run]. rewrite E. cbn [bind].
  destruct (IH c1 _ H1 Hv2 Hs2) as (c2 & E2 & H2). exists c2. split; [exact E2|]. unfold added in *. cbn [map concat]. rewrite app_assoc. assumption.
Qed.
Lemma md5_feeds rt D ops : runtime_computes rt D -> Forall hop_valid ops -> Forall op_small ops ->
  snd (h_run (md5_class rt) (rt_init rt) ops) = Ret tt /\
  snd (h_result (md5_class rt) (fst (h_run (md5_class rt) (rt_init rt) ops))) = Ret (D (added ops)).
Proof.
  intros HD Hv Hs. destruct (md5_run rt ops (rt_init rt) []) as (c & E & l & El & Ec); [exists []; auto|assumption|assumption|].
  rewrite E. split; [reflexivity|]. cbn [fst h_result md5_class c_hash md5_fin snd]. rewrite Ec, HD, El. reflexivity.
Qed.

Lemma md5_loses s : zlen s = 2 ^ 32 -> forall rt D, runtime_computes rt D -> obj_hash_string (md5_obj rt) s = Ret (D []).
Proof.
  intros Hs rt D HD. unfold obj_hash_string, hash_string. cbn [md5_obj ho_class ho_st md5_class c_hash h_add_string h_result h_wipe]. unfold c_update.
  assert (in_range s 0 (zlen s) = true) as -> by (apply in_range_true; pose proof (zlen_nonneg s); lia).
  rewrite sub_0_all by reflexivity. unfold md5_update. rewrite Hs. change (2 ^ 32 mod 2 ^ 32) with 0. cbn [Z.to_nat firstn bind md5_fin].
  pose proof (HD [[]]) as E. cbn [fold_left concat app] in E. cbn [bind]. rewrite E. reflexivity.
Qed.
Lemma md5_loses_ex : exists s, bytes_ok s /\ zlen s <= max_string_length /\ s <> [] /\
  forall rt D, runtime_computes rt D -> obj_hash_string (md5_obj rt) s = Ret (D []).
Proof.
  assert (H : exists n, n = 2 ^ 32) by (eexists; reflexivity). destruct H as (n & Hn). exists (zeros n). assert (Hz : zlen (zeros n) = n) by (apply zlen_zeros; lia).
  split; [apply bytes_ok_zeros|]. split; [rewrite Hz, Hn; unfold max_string_length; lia|].
  split; [intros E; rewrite E in Hz; change (zlen (@nil Z)) with 0 in Hz; lia|]. apply md5_loses. rewrite Hz. exact Hn.
Qed.
