(* Facts about the interface assembled from the previous files: states a
   block cipher object can reach, constructors, ranges. *)
From Verif Require Import Prelude PreludeFacts BytesNum BufOutModel BufOut SpecTransducer SpecBlock SpecModes SpecModesFacts SpecPadding
  TransformModel BlockModel BlockCipher BlockFits Modes Padding CipherModel CipherSpec CipherFacts CipherApi History BlockBounds Transform Lawful BadRange.
Ltac Zify.zify_post_hook ::= Z.div_mod_to_equations.

(* ---- states of block cipher objects ---- *)

(* the states reached by any calls of the transform method, whatever the
   ranges, as long as no undefined behaviour occurred *)
Inductive reach (C : block_cipher) (s0 : bc_st C) : bc_st C -> Prop :=
  | reach_0 : reach C s0 s0
  | reach_step s src so dst d : reach C s0 s -> bytes_ok src -> bytes_ok dst ->
      snd (bc_transform C s src so dst d) <> Undef ->
      reach C s0 (fst (fst (bc_transform C s src so dst d))).

Lemma blit_facts src so dst d n x : bytes_ok src -> bytes_ok dst -> blit src so dst d n = Ret x ->
  bytes_ok x /\ zlen x = zlen dst.
Proof.
  intros H1 H2. unfold blit. destruct (in_range src so n) eqn:E1, (in_range dst d n) eqn:E2; try discriminate.
  intros H. injection H as <-. apply in_range_true in E1, E2.
  split; [apply bytes_ok_splice; [assumption|apply bytes_ok_sub; assumption]|].
  apply zlen_splice; rewrite ?zlen_sub; lia.
Qed.
Lemma xor_facts src so dst d n x : bytes_ok src -> bytes_ok dst -> xor_bytes src so dst d n = Ret x ->
  bytes_ok x /\ zlen x = zlen dst.
Proof.
  intros H1 H2. unfold xor_bytes. destruct (in_range src so n) eqn:E1, (in_range dst d n) eqn:E2; try discriminate.
  intros H. injection H as <-. apply in_range_true in E1, E2.
  split; [apply bytes_ok_splice; [assumption|apply bytes_ok_xorb; apply bytes_ok_sub; assumption]|].
  apply zlen_splice; [lia|]. rewrite zlen_xorb; rewrite ?zlen_sub; lia.
Qed.

Section Reach.
Variable fresh : Z -> bytes.
Hypothesis fresh_len : forall n, 0 <= n -> zlen (fresh n) = n.
Variables (K : Type) (bs : Z) (prim : K -> bytes -> out bytes) (wipe : K -> K) (k : K) (E : bytes -> bytes).
Hypothesis bs_pos : 0 < bs.
Hypothesis HE : forall b, zlen b = bs -> bytes_ok b -> prim k b = Ret (E b) /\ zlen (E b) = bs /\ bytes_ok (E b).
Let C := raw_cipher K bs prim wipe.
Let good := fun s : bc_st C => s = k.
Let HC : bc_implements C (ecb_fn E) (fun s _ => good s) := raw_implements K bs prim wipe k E (Z.lt_le_incl _ _ bs_pos) HE.
Let HS : bc_checks C good := fun s src so dst d _ H => raw_checks K bs prim wipe (Z.lt_le_incl _ _ bs_pos) s src so dst d I H.
Let St := (mode_st C * bytes)%type.

(* invariant of mode objects over a primitive *)
Definition minv (m : mode_st C) : Prop :=
  zlen (ms_iv m) = bs /\ bytes_ok (ms_iv m) /\ zlen (ms_tmp m) = bs /\ ms_c m = k.
Lemma minv_good m : minv m <-> mode_good C good m.
Proof.
  unfold minv, mode_good, mode_R. split.
  - intros (H1 & H2 & H3 & H4). exists (ms_iv m). auto.
  - intros (iv & <- & H1 & H2 & H3 & H4). auto.
Qed.
Definition sinv (s : St) : Prop := minv (fst s) /\ bytes_ok (snd s).

Lemma sinv_bind {A B} (r : St * out A) (f : St -> A -> St * out B) :
  sinv (fst r) -> (forall s a, r = (s, Ret a) -> sinv s -> sinv (fst (f s a))) -> sinv (fst (bind r f)).
Proof. destruct r as [s [a|e| |]]; cbn; auto. Qed.
Lemma sinv_to_iv (s : St) r : sinv s -> (forall x, r = Ret x -> bytes_ok x /\ zlen x = bs) -> sinv (fst (to_iv C s r)).
Proof.
  intros ((H1 & H2 & H3 & H4) & H5) H. destruct r as [x|e| |]; cbn; [|split; [split|]; auto..].
  destruct (H x eq_refl). split; [|assumption]. unfold minv. cbn. auto.
Qed.
Lemma sinv_to_tmp (s : St) r : sinv s -> (forall x, r = Ret x -> zlen x = bs) -> sinv (fst (to_tmp C s r)).
Proof.
  intros ((H1 & H2 & H3 & H4) & H5) H. destruct r as [x|e| |]; cbn; [|split; [split|]; auto..].
  split; [|assumption]. unfold minv. cbn. auto.
Qed.
Lemma sinv_to_dst (s : St) r : sinv s -> (forall x, r = Ret x -> bytes_ok x) -> sinv (fst (to_dst C s r)).
Proof. intros (H & H5) Hr. destruct r as [x|e| |]; cbn; split; auto. Qed.

Lemma raw_step s src so dst d : s = k -> bytes_ok src -> bytes_ok dst ->
  fst (fst (bc_transform C s src so dst d)) = k /\ bytes_ok (snd (fst (bc_transform C s src so dst d))).
Proof.
  intros -> H1 H2. destruct (in_range src so bs && in_range dst d bs) eqn:Er.
  - apply andb_true_iff in Er. destruct Er as (E1 & E2).
    destruct (call_ok C E good HC k src so dst d eq_refl E1 E2 ltac:(apply bytes_ok_sub; assumption)) as (L & O & s' & -> & ->).
    cbn. split; [reflexivity|]. apply bytes_ok_splice; assumption.
  - cbn [C raw_cipher bc_transform]. 
    replace ((so <? 0) || (so >? zlen src - bs) || (d <? 0) || (d >? zlen dst - bs)) with true by (unfold in_range in Er; lia).
    cbn. auto.
Qed.
Lemma sinv_c_dst (s : St) src so d : sinv s -> bytes_ok src -> sinv (fst (c_transform_dst C s src so d)).
Proof.
  intros ((H1 & H2 & H3 & H4) & H5) Hs. destruct (raw_step (ms_c (fst s)) src so (snd s) d H4 Hs H5) as (A & B).
  unfold c_transform_dst. cbn [fst snd]. split; [unfold minv; cbn; auto|exact B].
Qed.
Lemma sinv_iv_tmp (s : St) : sinv s -> exists s', c_transform_iv_tmp C s = (s', Ret tt) /\ sinv s' /\ bytes_ok (ms_tmp (fst s')).
Proof.
  intros (H & H5). apply minv_good in H. destruct H as (iv & H). destruct s as [m dst]. cbn [fst snd] in *.
  destruct (iv_tmp_ok fresh fresh_len C E good bs_pos HC m iv dst H) as (L & O & c' & -> & ->).
  eexists. split; [reflexivity|]. cbn. split; [|exact O]. split; [|exact H5].
  destruct H as (? & ? & ? & ? & ?). unfold minv. cbn. auto.
Qed.
Lemma sinv_iv_iv (s : St) : sinv s -> exists s', c_transform_iv_iv C s = (s', Ret tt) /\ sinv s'.
Proof.
  intros ((H1 & H2 & H3 & H4) & H5). destruct s as [m dst]. cbn [fst snd] in *.
  destruct (call_ok C E good HC (ms_c m) (ms_iv m) 0 (ms_iv m) 0 H4) as (L & O & s' & Hc & Hg);
    [apply in_range_true; cbn; lia|apply in_range_true; cbn; lia|apply bytes_ok_sub; assumption|].
  unfold c_transform_iv_iv. cbn [fst snd]. rewrite Hc. eexists. split; [reflexivity|].
  split; [|exact H5]. unfold minv. cbn [set_iv set_c ms_iv ms_tmp ms_c fst snd].
  change (bc_blocksize C) with bs in *. rewrite zlen_splice by lia. split; [assumption|]. split; [apply bytes_ok_splice; assumption|auto].
Qed.

Ltac bnd := apply sinv_bind; [|intros ? ? ? ?].

Lemma cbc_encrypt_inv m src so dst d : minv m -> bytes_ok src -> bytes_ok dst ->
  minv (fst (fst (bc_transform (cbc_encrypt C) m src so dst d))).
Proof.
  intros H H1 H2. enough (sinv (fst (bc_transform (cbc_encrypt C) m src so dst d))) by apply H0.
  cbn [cbc_encrypt bc_transform bc_blocksize]. bnd.
  { apply sinv_to_iv; [split; assumption|]. intros x Hx. destruct H as (Ha & Hb & _).
    apply xor_facts in Hx; [|assumption..]. cbn in *. lia || (destruct Hx; split; [assumption|lia]). }
  bnd. { apply sinv_c_dst; [assumption|]. apply H3. }
  apply sinv_to_iv; [assumption|]. intros x Hx. destruct H5 as ((Ha & Hb & _) & Hd).
  apply blit_facts in Hx; [|assumption..]. destruct Hx. split; [assumption|lia].
Qed.
Lemma cbc_decrypt_inv m src so dst d : minv m -> bytes_ok src -> bytes_ok dst ->
  minv (fst (fst (bc_transform (cbc_decrypt C) m src so dst d))).
Proof.
  intros H H1 H2. cbn [cbc_decrypt bc_transform bc_blocksize].
  destruct (in_range src so bs) eqn:E1; cycle 1.
  { unfold blit at 1. cbn [C raw_cipher bc_blocksize]. rewrite E1. cbn [andb to_tmp bind fst snd]. exact H. }
  pose proof H as (Ha & Hb & Hc & Hd). apply in_range_true in E1.
  cbn [C raw_cipher bc_blocksize]. rewrite blit_ok by (cbn [fst snd]; lia). cbn [to_tmp bind fst snd].
  assert (Hok : bytes_ok (splice (ms_tmp m) 0 (sub src so bs))).
  { rewrite splice_to_end by (rewrite ?zlen_sub; lia). apply bytes_ok_app. split; [constructor|apply bytes_ok_sub; assumption]. }
  set (t := splice (ms_tmp m) 0 (sub src so bs)) in *.
  assert (Ht : zlen t = bs) by (unfold t; rewrite zlen_splice; rewrite ?zlen_sub; lia).
  fold C.
  match goal with |- minv (fst (fst ?r)) => enough (sinv (fst r)) by apply H0 end.
  apply sinv_bind; [apply sinv_c_dst; [|assumption]; split; [unfold minv; cbn; auto|assumption]|].
  intros s a Hs (Hs1 & Hs2).
  assert (Et : ms_tmp (fst s) = t).
  { unfold c_transform_dst in Hs. injection Hs as <- _. reflexivity. }
  apply sinv_bind; [apply sinv_to_dst; [split; assumption|]; intros x Hx;
    eapply (xor_facts (ms_iv (fst s)) 0); [apply Hs1|exact Hs2|exact Hx]|].
  intros s2 a2 Hs2' Hi. assert (Et2 : ms_tmp (fst s2) = t).
  { destruct (xor_bytes _ _ _ _ _) in Hs2'; cbn in Hs2'; try discriminate. injection Hs2' as <-. exact Et. }
  apply sinv_to_iv; [assumption|]. intros x Hx. destruct Hi as ((Hi1 & Hi2 & _) & _).
  apply blit_facts in Hx; [destruct Hx; split; [assumption|lia]|rewrite Et2; assumption|assumption].
Qed.
Lemma cfb_encrypt_inv n m src so dst d : minv m -> bytes_ok src -> bytes_ok dst ->
  minv (fst (fst (bc_transform (cfb_encrypt C n) m src so dst d))).
Proof.
  intros H H1 H2. enough (sinv (fst (bc_transform (cfb_encrypt C n) m src so dst d))) by apply H0.
  cbn [cfb_encrypt bc_transform bc_blocksize].
  destruct (sinv_iv_tmp (m, dst) (conj H H2)) as (s1 & -> & I1 & T1). cbn [bind].
  apply sinv_bind; [apply sinv_to_dst; [assumption|]; intros x Hx; eapply blit_facts; [exact H1|apply I1|exact Hx]|].
  intros s2 u2 E2 I2. assert (T2 : bytes_ok (ms_tmp (fst s2))).
  { destruct (blit _ _ _ _ _) in E2; cbn in E2; try discriminate. injection E2 as <-. exact T1. }
  apply sinv_bind; [apply sinv_to_dst; [assumption|]; intros x Hx; eapply xor_facts; [exact T2|apply I2|exact Hx]|].
  intros s3 u3 E3 I3.
  apply sinv_bind.
  { apply sinv_to_iv; [assumption|]. destruct I3 as ((A & B & _) & D). intros x Hx.
    apply blit_facts in Hx; [destruct Hx; split; [assumption|lia]|assumption..]. }
  intros s4 u4 E4 I4. apply sinv_to_iv; [assumption|]. destruct I4 as ((A & B & _) & D). intros x Hx.
  apply blit_facts in Hx; [destruct Hx; split; [assumption|lia]|assumption..].
Qed.
Lemma cfb_decrypt_inv n m src so dst d : minv m -> bytes_ok src -> bytes_ok dst ->
  minv (fst (fst (bc_transform (cfb_decrypt C n) m src so dst d))).
Proof.
  intros H H1 H2. enough (sinv (fst (bc_transform (cfb_decrypt C n) m src so dst d))) by apply H0.
  cbn [cfb_decrypt bc_transform bc_blocksize].
  destruct (sinv_iv_tmp (m, dst) (conj H H2)) as (s1 & -> & I1 & T1). cbn [bind].
  apply sinv_bind.
  { apply sinv_to_iv; [assumption|]. destruct I1 as ((A & B & _) & D). intros x Hx.
    apply blit_facts in Hx; [destruct Hx; split; [assumption|lia]|assumption..]. }
  intros s2 u2 E2 I2. assert (T2 : bytes_ok (ms_tmp (fst s2))).
  { destruct (blit _ _ _ _ _) in E2; cbn in E2; try discriminate. injection E2 as <-. exact T1. }
  apply sinv_bind.
  { apply sinv_to_iv; [assumption|]. destruct I2 as ((A & B & _) & D). intros x Hx.
    apply blit_facts in Hx; [destruct Hx; split; [assumption|lia]|assumption..]. }
  intros s3 u3 E3 I3. assert (T3 : bytes_ok (ms_tmp (fst s3))).
  { destruct (blit _ _ _ _ _) in E3; cbn in E3; try discriminate. injection E3 as <-. exact T2. }
  apply sinv_bind; [apply sinv_to_dst; [assumption|]; intros x Hx; eapply blit_facts; [exact H1|apply I3|exact Hx]|].
  intros s4 u4 E4 I4. assert (T4 : bytes_ok (ms_tmp (fst s4))).
  { destruct (blit _ _ _ _ _) in E4; cbn in E4; try discriminate. injection E4 as <-. exact T3. }
  apply sinv_to_dst; [assumption|]; intros x Hx; eapply xor_facts; [exact T4|apply I4|exact Hx].
Qed.
Lemma ofb_inv n m src so dst d : minv m -> bytes_ok src -> bytes_ok dst ->
  minv (fst (fst (bc_transform (ofb C n) m src so dst d))).
Proof.
  intros H H1 H2. enough (sinv (fst (bc_transform (ofb C n) m src so dst d))) by apply H0.
  cbn [ofb bc_transform bc_blocksize].
  destruct (sinv_iv_iv (m, dst) (conj H H2)) as (s1 & -> & I1). cbn [bind].
  apply sinv_bind; [apply sinv_to_dst; [assumption|]; intros x Hx; eapply blit_facts; [exact H1|apply I1|exact Hx]|].
  intros s2 u2 E2 I2.
  apply sinv_to_dst; [assumption|]; intros x Hx; eapply xor_facts; [| |exact Hx]; apply I2.
Qed.
Lemma ctr_inv n m src so dst d : 0 < n <= bs -> minv m -> bytes_ok src -> bytes_ok dst ->
  minv (fst (fst (bc_transform (ctr C n) m src so dst d))).
Proof.
  intros Hn H H1 H2. enough (sinv (fst (bc_transform (ctr C n) m src so dst d))) by apply H0.
  cbn [ctr bc_transform bc_blocksize].
  destruct (sinv_iv_tmp (m, dst) (conj H H2)) as (s1 & -> & I1 & T1). cbn [bind].
  apply sinv_bind; [apply sinv_to_dst; [assumption|]; intros x Hx; eapply blit_facts; [exact H1|apply I1|exact Hx]|].
  intros s2 u2 E2 I2. assert (T2 : bytes_ok (ms_tmp (fst s2))).
  { destruct (blit _ _ _ _ _) in E2; cbn in E2; try discriminate. injection E2 as <-. exact T1. }
  apply sinv_bind; [apply sinv_to_dst; [assumption|]; intros x Hx; eapply xor_facts; [exact T2|apply I2|exact Hx]|].
  intros s3 u3 E3 I3.
  apply sinv_bind.
  { apply sinv_to_iv; [assumption|]. destruct I3 as ((A & B & _) & D). intros x.
    assert (Hw : (Z.to_nat n <= length (ms_iv (fst s3)))%nat) by (unfold zlen in A; lia).
    change (bc_blocksize C) with bs. rewrite <- A. replace n with (Z.of_nat (Z.to_nat n)) by lia.
    rewrite increment_counter_ok; [|lia|assumption]. intros Hx. injection Hx as <-.
    split; [apply bytes_ok_ctr_block; assumption|]. apply (zlen_ctr_block E); lia. }
  intros s4 u4 E4 I4. destruct (_ =? 0); [assumption|].
  destruct I4 as ((A & B & A2 & A3) & D). split; [|exact D]. unfold minv. cbn. auto.
Qed.

Lemma max_bind {A B} z (r : St * out A) (f : St -> A -> St * out B) (P : Z -> Prop) :
  ms_max (fst (fst r)) = z -> P z -> (forall s a, ms_max (fst s) = z -> P (ms_max (fst (fst (f s a))))) ->
  P (ms_max (fst (fst (bind r f)))).
Proof. destruct r as [s [a|e| |]]; cbn; intros <-; auto. Qed.
Lemma max_to_iv (s : St) r : ms_max (fst (fst (to_iv C s r))) = ms_max (fst s).
Proof. destruct r; reflexivity. Qed.
Lemma max_to_dst (s : St) r : ms_max (fst (fst (to_dst C s r))) = ms_max (fst s).
Proof. destruct r; reflexivity. Qed.
Lemma ctr_max_inv n m src so dst d : 0 <= ms_max m < 2 ^ 64 ->
  0 <= ms_max (fst (fst (bc_transform (ctr C n) m src so dst d))) < 2 ^ 64.
Proof.
  intros H. cbn [ctr bc_transform bc_blocksize].
  apply (max_bind (ms_max m) _ _ (fun z => 0 <= z < 2 ^ 64)); [reflexivity|assumption|]. intros s1 u1 E1.
  apply (max_bind (ms_max m) _ _ (fun z => 0 <= z < 2 ^ 64)); [rewrite max_to_dst; exact E1|assumption|]. intros s2 u2 E2.
  apply (max_bind (ms_max m) _ _ (fun z => 0 <= z < 2 ^ 64)); [rewrite max_to_dst; exact E2|assumption|]. intros s3 u3 E3.
  apply (max_bind (ms_max m) _ _ (fun z => 0 <= z < 2 ^ 64)); [rewrite max_to_iv; exact E3|assumption|]. intros s4 u4 E4.
  destruct (_ =? 0); cbn [fst snd ms_max]; [rewrite E4; assumption|]. apply Z.mod_pos_bound. lia.
Qed.

Lemma init_inv max iv c0 s : (forall v, iv = Some v -> bytes_ok v) -> c0 = k ->
  mode_init fresh C max iv c0 = Ret s -> minv s.
Proof.
  intros Hv Hc. unfold mode_init, make_initial_iv. change (bc_blocksize C) with bs.
  destruct iv as [v|]; cbn [obind].
  - destruct (zlen v =? bs) eqn:El; [|discriminate]. cbn. intros H. injection H as <-.
    unfold minv. cbn [ms_iv ms_tmp ms_c]. rewrite fresh_len by lia.
    split; [lia|]. split; [apply Hv; reflexivity|auto].
  - intros H. injection H as <-. unfold minv. cbn [ms_iv ms_tmp ms_c]. rewrite fresh_len by lia.
    rewrite zlen_zeros by lia. split; [reflexivity|]. split; [apply bytes_ok_zeros|auto].
Qed.
Lemma init_max max iv c0 s : mode_init fresh C max iv c0 = Ret s -> ms_max s = max.
Proof.
  unfold mode_init. destruct (make_initial_iv _ _); try discriminate. cbn. intros H. injection H as <-. reflexivity.
Qed.
Lemma reach_minv (M : block_cipher) (P : bc_st M -> Prop) s0 s :
  (forall s src so dst d, P s -> bytes_ok src -> bytes_ok dst -> P (fst (fst (bc_transform M s src so dst d)))) ->
  P s0 -> reach M s0 s -> P s.
Proof. intros HP H0. induction 1; auto. Qed.

(* what a call of the transform method does, in terms of the ranges *)
Definition range_respecting (M : block_cipher) (s : bc_st M) (src : bytes) (so : Z) (dst : bytes) (d : Z) : Prop :=
  frame d (bc_blocksize M) dst (snd (fst (bc_transform M s src so dst d))) /\
  (in_range src so (bc_blocksize M) && in_range dst d (bc_blocksize M) = false ->
   snd (bc_transform M s src so dst d) = Raise Invalid_argument /\ snd (fst (bc_transform M s src so dst d)) = dst) /\
  (in_range src so (bc_blocksize M) && in_range dst d (bc_blocksize M) = true ->
   snd (bc_transform M s src so dst d) = Ret tt \/ snd (bc_transform M s src so dst d) = Raise (Error Message_too_long)).

Lemma respects M (P : bc_st M -> Prop) f rel s src so dst d :
  bc_frame M -> bc_checks M P -> bc_implements M f rel -> P s -> (exists sg, rel s sg) ->
  bytes_ok src -> range_respecting M s src so dst d.
Proof.
  intros HF HK HI HP (sg & Hr) Hok. split; [apply HF|]. split.
  - intros Hb. destruct (HK s src so dst d HP Hb) as (s' & ->). split; reflexivity.
  - intros Hb. apply andb_true_iff in Hb. destruct Hb as (B1 & B2).
    pose proof (HI s sg src so dst d Hr B1 B2 ltac:(apply bytes_ok_sub; assumption)) as H. cbv zeta in H.
    destruct (bf_step f sg (sub src so (bc_blocksize M))) as [sg' r]. cbn [fst snd] in H.
    destruct H as (s' & dst' & H & _). rewrite H. cbn. destruct r; auto.
Qed.

Hypothesis prim_len : forall k b r, prim k b = Ret r -> zlen r = bs.

Lemma chain_respects m d iv cc s src so dst d' : mode_ok bs m -> (forall v, iv = Some v -> bytes_ok v) ->
  chain fresh m d iv (BObj C k) = Ret cc -> ~ (m = CBC /\ d = Encrypt) ->
  reach (b_bc cc) (b_st cc) s -> bytes_ok src -> bytes_ok dst ->
  range_respecting (b_bc cc) s src so dst d'.
Proof.
  intros Hm Hv Hc Hn Hr Hs Hd.
  pose proof (raw_frame K bs prim wipe ltac:(lia) prim_len : bc_frame C) as HF.
  assert (G : forall s : mode_st C, minv s -> exists sg, mode_R C good s sg) by (intros x Hx; apply minv_good in Hx; exact Hx).
  assert (GG : forall s : mode_st C, minv s -> mode_good C good s) by (intros x Hx; apply minv_good in Hx; exact Hx).
  assert (INIT : forall n max, chunked_init fresh C n max iv k = mode_init fresh C max iv k \/ chunked_init fresh C n max iv k = Raise Assert_failure).
  { intros n max. unfold chunked_init. destruct (chunk_ok C n); auto. }
  assert (CTRC : forall n s0 s, 0 < n <= bs -> ms_max s0 = ctr_max n -> minv s0 -> reach (ctr C n) s0 s ->
    range_respecting (ctr C n) s src so dst d').
  { clear s Hr. intros n s0 s Hn2 Hmax E0 Hr.
    assert (B : minv s /\ 0 <= ms_max s < 2 ^ 64).
    { eapply (reach_minv (ctr C n) (fun s => minv s /\ 0 <= ms_max s < 2 ^ 64)); [| |exact Hr].
      - intros x sr o ds dd (P1 & P2) P3 P4. split; [apply ctr_inv; assumption|apply ctr_max_inv; assumption].
      - split; [exact E0|]. rewrite Hmax. unfold ctr_max. destruct (n <? 8) eqn:En; [|lia].
        split; [apply Z.pow_nonneg; lia|apply Z.pow_lt_mono_r; lia]. }
    destruct B as (B1 & B2). replace n with (Z.of_nat (Z.to_nat n)) in * by lia.
    eapply respects; [apply ctr_frame|apply (ctr_checks fresh fresh_len C E good bs_pos HC)|
      apply (ctr_implements fresh fresh_len C E good bs_pos HC); change (bc_blocksize C) with bs; lia|auto| |auto].
    destruct (G s B1) as (iv' & HR). exists (iv', if ms_max s =? 0 then 2 ^ 64 else ms_max s).
    unfold ctr_R. cbn [fst snd]. split; [exact HR|]. destruct (ms_max s =? 0) eqn:Em.
    - rewrite Z.mod_same by lia. lia.
    - rewrite Z.mod_small by lia. lia. }
  destruct m as [| |n|n| |n]; [|destruct d|destruct d|..]; try (exfalso; apply Hn; split; reflexivity);
    cbn [chain b_bc b_st] in Hc.
  - injection Hc as <-. cbn [b_bc b_st] in *.
    assert (s = k). { eapply (reach_minv C (fun s => s = k)); [|reflexivity|exact Hr]. intros. apply raw_step; assumption. }
    eapply (respects C good); [exact HF|exact HS|exact HC|assumption|exists tt; assumption|assumption].
  - destruct (mode_init fresh C 0 iv k) as [s0|e| |] eqn:E0; try discriminate. injection Hc as <-. cbn [b_bc b_st] in *.
    apply init_inv in E0; [|assumption|reflexivity].
    assert (minv s) by (eapply reach_minv; [|exact E0|exact Hr]; intros; apply cbc_decrypt_inv; assumption).
    eapply respects; [apply cbc_decrypt_frame; exact HF|apply (cbc_decrypt_checks fresh fresh_len C good bs_pos HS)|
      apply (cbc_decrypt_implements fresh fresh_len C E good bs_pos HC)|auto..].
  - destruct (INIT n 0) as [Ei|Ei]; rewrite Ei in Hc; [|discriminate].
    destruct (mode_init fresh C 0 iv k) as [s0|e| |] eqn:E0; try discriminate. injection Hc as <-. cbn [b_bc b_st] in *.
    apply init_inv in E0; [|assumption|reflexivity].
    assert (minv s) by (eapply reach_minv; [|exact E0|exact Hr]; intros; apply cfb_encrypt_inv; assumption).
    cbn [mode_ok] in Hm. replace n with (Z.of_nat (Z.to_nat n)) in * by lia.
    eapply respects; [apply cfb_encrypt_frame|apply (cfb_encrypt_checks fresh fresh_len C E good bs_pos HC); change (bc_blocksize C) with bs; lia|
      apply (cfb_encrypt_implements fresh fresh_len C E good bs_pos HC); change (bc_blocksize C) with bs; lia|..]; auto.
  - destruct (INIT n 0) as [Ei|Ei]; rewrite Ei in Hc; [|discriminate].
    destruct (mode_init fresh C 0 iv k) as [s0|e| |] eqn:E0; try discriminate. injection Hc as <-. cbn [b_bc b_st] in *.
    apply init_inv in E0; [|assumption|reflexivity].
    assert (minv s) by (eapply reach_minv; [|exact E0|exact Hr]; intros; apply cfb_decrypt_inv; assumption).
    cbn [mode_ok] in Hm. replace n with (Z.of_nat (Z.to_nat n)) in * by lia.
    eapply respects; [apply cfb_decrypt_frame|apply (cfb_decrypt_checks fresh fresh_len C E good bs_pos HC); change (bc_blocksize C) with bs; lia|
      apply (cfb_decrypt_implements fresh fresh_len C E good bs_pos HC); change (bc_blocksize C) with bs; lia|..]; auto.
  - destruct (INIT n 0) as [Ei|Ei]; rewrite Ei in Hc; [|discriminate].
    destruct (mode_init fresh C 0 iv k) as [s0|e| |] eqn:E0; try discriminate. injection Hc as <-. cbn [b_bc b_st] in *.
    apply init_inv in E0; [|assumption|reflexivity].
    assert (minv s) by (eapply reach_minv; [|exact E0|exact Hr]; intros; apply ofb_inv; assumption).
    cbn [mode_ok] in Hm. replace n with (Z.of_nat (Z.to_nat n)) in * by lia.
    eapply respects; [apply ofb_frame|apply (ofb_checks fresh fresh_len C E good bs_pos HC); change (bc_blocksize C) with bs; lia|
      apply (ofb_implements fresh fresh_len C E good bs_pos HC); change (bc_blocksize C) with bs; lia|..]; auto.
  - destruct (mode_init fresh C (ctr_max (bc_blocksize C)) iv k) as [s0|e| |] eqn:E0; try discriminate. injection Hc as <-. cbn [b_bc b_st] in *.
    apply (CTRC bs s0); [lia|apply init_max in E0; exact E0|apply init_inv in E0; [exact E0|assumption|reflexivity]|exact Hr].
  - destruct (INIT n (ctr_max n)) as [Ei|Ei]; rewrite Ei in Hc; [|discriminate]. cbn [mode_ok] in Hm.
    destruct (mode_init fresh C (ctr_max n) iv k) as [s0|e| |] eqn:E0; try discriminate. injection Hc as <-. cbn [b_bc b_st] in *.
    apply (CTRC n s0); [lia|apply init_max in E0; exact E0|apply init_inv in E0; [exact E0|assumption|reflexivity]|exact Hr].
Qed.
End Reach.

(* ---- states of transforms after a history ---- *)
Lemma growth_reach T M F R OK K A : implements true T M F R -> growth M F OK K A ->
  forall ops s sg q, R s sg q -> OK sg -> Forall op_valid ops ->
  zlen q + K * zlen (fed ops) + A * (zlen ops + 1) <= max_string_length ->
  failure ops (t_run T s ops) = None ->
  exists s' sg' q', R s' sg' q' /\ zlen q' <= zlen q + K * zlen (fed ops) + A * zlen ops /\
    forall o, t_run T s (ops ++ [o]) = t_run T s ops ++ [snd (t_step T s' o)].
Proof.
  intros HI G. pose proof (g_KA _ _ _ _ _ G) as (HK & HA).
  induction ops as [|o ops IH]; intros s sg q HR HO Hv Hsz Hf.
  - exists s, sg, q. split; [exact HR|]. change (zlen (fed [])) with 0. change (zlen (@nil op)) with 0. split; [lia|].
    intros o. cbn [app t_run]. destruct (t_step T s o) as [s1 ob]. destruct (ends o ob); reflexivity.
  - pose proof (growth_run_fits M F OK K A G (o :: ops) sg q HO Hv Hsz) as (Hf1 & _).
    apply Forall_cons_iff in Hv. destruct Hv as (Hv1 & Hv2).
    destruct (t_step_ok T M F R HI s sg q o HR Hv1 Hf1) as (Hs1 & Hs2).
    assert (GB : ends o (snd (t_step T s o)) = false ->
      OK (fst (fst (spec_step M sg q o))) /\
      zlen (snd (fst (spec_step M sg q o))) <= zlen q + K * zlen (op_data o) + A).
    { rewrite Hs1. clear Hs1 Hs2 Hf IH.
      assert (N : forall r, (r_exn r = None -> OK (r_st r) /\ zlen (r_out r) <= K * zlen (op_data o) + A) ->
        match snd (emit_obs q r) with OExn _ | OUndef | OHang => true | _ => false end = false ->
        OK (fst (fst (emit_obs q r))) /\ zlen (snd (fst (emit_obs q r))) <= zlen q + K * zlen (op_data o) + A).
      { intros r Hr. unfold emit_obs. cbn [fst snd]. destruct (r_exn r); [discriminate|]. intros _.
        destruct (Hr eq_refl). rewrite zlen_app. split; [assumption|lia]. }
      pose proof (zlen_nonneg q). pose proof (zlen_nonneg (op_data o)).
      destruct o; cbn [spec_step ends op_data] in *.
      - apply N. intros He. destruct (g_run _ _ _ _ _ G sg (sub b ofs len) HO ltac:(apply bytes_ok_sub; apply Hv1) He). tauto.
      - apply N. intros He. destruct (g_run _ _ _ _ _ G sg s0 HO ltac:(apply Hv1) He). tauto.
      - apply N. intros He. destruct (g_run _ _ _ _ _ G sg [c] HO ltac:(repeat constructor; apply Hv1) He). tauto.
      - apply N. intros He. destruct (g_run _ _ _ _ _ G sg [n] HO ltac:(repeat constructor; apply Hv1) He). tauto.
      - apply N. intros He. destruct (g_flush _ _ _ _ _ G sg HO He) as (? & ? & ?). change (zlen (@nil Z)) with 0. split; [assumption|lia].
      - apply N. intros He. destruct (g_finish _ _ _ _ _ G sg HO He) as (? & ? & ?). change (zlen (@nil Z)) with 0. split; [assumption|lia].
      - intros _. cbn [fst snd]. split; [assumption|]. change (zlen (@nil Z)) with 0. lia.
      - intros _. cbn [fst snd]. split; [assumption|]. change (zlen (@nil Z)) with 0. lia.
      - intros _. cbn [fst snd]. split; [assumption|]. change (zlen (@nil Z)) with 0. lia.
      - intros _. destruct q as [|x q']; cbn [fst snd]; (split; [assumption|]); rewrite ?zlen_cons; change (zlen (@nil Z)) with 0; lia.
      - intros _. destruct q as [|x q']; cbn [fst snd]; (split; [assumption|]); rewrite ?zlen_cons; change (zlen (@nil Z)) with 0; lia. }
    cbn [t_run app] in *. unfold failure in Hf. 
    destruct (t_step T s o) as [s1 ob] eqn:Es. cbn [fst snd] in *.
    destruct (ends o ob) eqn:Ee.
    { exfalso. cbn [combine find fst snd] in Hf. rewrite Ee in Hf. discriminate. }
    cbn [combine find fst snd] in Hf. rewrite Ee in Hf.
    destruct (GB eq_refl) as (G1 & G2). destruct (spec_step M sg q o) as [[sg1 q1] ob1]. cbn [fst snd] in *.
    cbn [fed flat_map] in *. fold (fed ops) in *. rewrite zlen_app, !zlen_cons in *.
    destruct (IH s1 sg1 q1) as (s' & sg' & q' & I1 & I2 & I3); try assumption; [apply Hs2; reflexivity|lia|].
    exists s', sg', q'. split; [exact I1|]. split; [lia|]. intros o'. rewrite I3. reflexivity.
Qed.

Section Api.
Variable fresh : Z -> bytes.
Hypothesis fresh_len : forall n, 0 <= n -> zlen (fresh n) = n.

(* the last observation of a history *)
Definition last_obs (l : list obs) : obs := last l OUnit.

Lemma cipher_bad_range nb key bs E D m p iv d ops src ofs len : block_family nb key bs E D ->
  mode_ok bs (dmode m) -> iv_ok bs (dmode m) iv ->
  Forall op_valid ops -> bytes_ok src -> is_int ofs -> is_int len -> in_range src ofs len = false ->
  let B := 4 * mode_bs bs (dmode m) in
  zlen (fed ops) + zlen src + B * (zlen ops + 2) <= max_string_length ->
  exists o, make_cipher fresh nb m (option_map scheme_of p) iv key d = Ret o /\
  (failure ops (run_ops o ops) = None ->
   let r := last_obs (run_ops o (ops ++ [PutSubstring src ofs len])) in
   if len <=? 0 then r = OUnit else r = OExn Invalid_argument \/ r = OExn (Error Message_too_long)).
Proof.
  intros [Hbs Hnew HE HD] Hm Hiv Hv Hs Ho Hl Hr B Hsz. subst B. unfold make_cipher.
  destruct (Hnew (normalize_dir m d)) as (c & gd & Hc & Hcb & HC & Hg). rewrite Hc. cbn [obind].
  rewrite <- Hcb in *.
  destruct (make_block_cipher_shape fresh fresh_len m p iv d c _ gd Hbs HC Hg Hm Hiv)
    as (C & rel & fin & s & F & OK & H1 & H2 & H3 & H4 & H5 & H6 & H7 & H8).
  eexists. split; [exact H1|]. intros Hf. cbv zeta. unfold run_ops in *. cbn [o_tr o_st] in *.
  change (match m with Some m0 => m0 | None => CBC end) with (dmode m) in *. set (bm := mode_bs (bc_blocksize (b_bc c)) (dmode m)) in *.
  assert (Hbm : 0 < bm) by (rewrite <- H2; lia).
  pose proof (zlen_nonneg src). pose proof (zlen_nonneg (fed ops)). pose proof (zlen_nonneg ops).
  destruct (growth_reach _ _ _ _ _ _ _ H5 H6 ops s _ [] H7 H8 Hv) as (s' & sg' & q' & I1 & I2 & I3).
  { change (zlen (@nil Z)) with 0. fold bm in Hsz |- *. clear - Hsz Hbm H H0 H9. nia. }
  { exact Hf. }
  rewrite I3. unfold last_obs. rewrite last_last. cbn [t_step]. unfold unit_obs.
  pose proof (put_substring_bad fresh fresh_len C _ rel H3 H4 s' sg' q' src ofs len I1 Hs Ho Hl Hr) as Hp.
  change (zlen (@nil Z)) with 0 in I2. fold bm in Hsz, I2. rewrite H2 in Hp. specialize (Hp ltac:(lia)).
  cbn [cipher_with_finish t_put_substring].
  destruct (len <=? 0); [rewrite Hp; reflexivity|].
  destruct Hp as (e & Hp & He). destruct (cipher_put_substring fresh C s' src ofs len) as [s2 r2]. cbn [snd] in *. subst r2.
  destruct He as [->| ->]; [left|right]; reflexivity.
Qed.

Lemma cipher_chunking nb key bs E D m p iv d ops1 ops2 : block_family nb key bs E D ->
  mode_ok bs (dmode m) -> iv_ok bs (dmode m) iv ->
  Forall op_valid ops1 -> Forall op_valid ops2 -> events ops1 = events ops2 ->
  let b := mode_bs bs (dmode m) in
  zlen (fed ops1) + 2 * b * finishes ops1 + b <= max_string_length ->
  exists o, make_cipher fresh nb m (option_map scheme_of p) iv key d = Ret o /\
    failure ops1 (run_ops o ops1) = failure ops2 (run_ops o ops2) /\
    (failure ops1 (run_ops o ops1) = None ->
     all_got (ops1 ++ [GetString]) (run_ops o (ops1 ++ [GetString])) =
     all_got (ops2 ++ [GetString]) (run_ops o (ops2 ++ [GetString]))).
Proof.
  intros HF Hm Hiv H1 H2 H3 b H4.
  destruct (make_cipher_ok fresh fresh_len nb key bs E D m p iv d HF Hm Hiv) as (o & Ho & HB).
  exists o. split; [exact Ho|]. eapply chunking_independent; eassumption.
Qed.

Lemma cipher_iv_size nb key bs E D m p iv d : block_family nb key bs E D -> mode_ok bs (dmode m) ->
  (forall v, iv = Some v -> bytes_ok v) ->
  match iv with
  | Some v => if zlen v =? bs then exists o, make_cipher fresh nb m p iv key d = Ret o
              else if match dmode m with ECB => true | _ => false end
              then exists o, make_cipher fresh nb m p iv key d = Ret o
              else make_cipher fresh nb m p iv key d = Raise (Error Wrong_IV_size)
  | None => exists o, make_cipher fresh nb m p iv key d = Ret o
  end.
Proof.
  intros [Hbs Hnew HE HD] Hm Hv. unfold make_cipher.
  destruct (Hnew (normalize_dir m d)) as (c & gd & Hc & Hcb & _). rewrite Hc. cbn [obind]. clear Hc Hnew.
  unfold make_block_cipher. fold (dmode m). clear Hv.
  assert (A : forall s : out bobj, (exists x, s = Ret x) ->
    exists o, (olet cc := s in Ret (match p with
       | None => TObj (cipher fresh (b_bc cc)) (cipher_new fresh (b_bc cc) (b_st cc))
       | Some p => match d with
           | Encrypt => TObj (cipher_padded_encrypt fresh (b_bc cc) p) (cipher_new fresh (b_bc cc) (b_st cc))
           | Decrypt => TObj (cipher_padded_decrypt fresh (b_bc cc) p) (cipher_new fresh (b_bc cc) (b_st cc)) end end)) = Ret o).
  { intros s (x & ->). cbn [obind]. eauto. }
  assert (Hch : forall n, 0 < n <= bs -> chunk_ok (b_bc c) n = true) by (intros n Hn; unfold chunk_ok; rewrite Hcb; lia).
  unfold chain, chunked_init, mode_init, make_initial_iv. rewrite Hcb.
  destruct iv as [v|]; [destruct (zlen v =? bs) eqn:Ev|]; (destruct (dmode m) as [| |n|n| |n]; cbn [mode_ok] in Hm;
    try rewrite Hch by exact Hm); destruct d; cbn [obind]; try apply A; eauto.
Qed.
End Api.

(* ---- padding ---- *)
Lemma length_pad_strip buf used : bytes_ok buf -> 0 <= used < zlen buf -> zlen buf - used < 256 ->
  exists b, pad padding_length buf used = Ret b /\ sub b 0 used = sub buf 0 used /\ zlen b = zlen buf /\
    strip padding_length b = Ret used.
Proof.
  intros Hok Hu H256. pose proof (length_pad_ok (zlen buf) buf used eq_refl Hu) as H.
  destruct (length_pad (zlen buf) used) as [l|] eqn:El; [|unfold length_pad in El; destruct (_ && _) eqn:Eb in El; [discriminate|lia]].
  destruct H as (H1 & H2 & H3). eexists. split; [exact H1|].
  assert (Hd : zlen (sub buf 0 used) = used) by (apply zlen_sub; lia).
  split; [rewrite sub_app_l by lia; apply sub_0_all; symmetry; exact Hd|]. split; [rewrite zlen_app; lia|].
  pose proof (length_strip_ok (sub buf 0 used ++ l)) as HS. rewrite zlen_app in HS.
  specialize (HS ltac:(lia) ltac:(apply bytes_ok_app; split; [apply bytes_ok_sub; assumption|assumption])).
  rewrite <- Hd in El. rewrite (length_roundtrip (zlen buf)) in HS by (lia || exact El).
  destruct HS as (HS & _). rewrite Hd in HS. exact HS.
Qed.

Lemma length_strip_exact blk : 0 < zlen blk -> bytes_ok blk ->
  (forall v, strip padding_length blk = Ret v <-> exists data, length_padded blk data /\ v = zlen data) /\
  ((exists v, strip padding_length blk = Ret v) \/ strip padding_length blk = Raise (Error Bad_padding)).
Proof.
  intros Hl Hok. pose proof (length_strip_ok blk Hl Hok) as H.
  destruct (length_unpad blk) as [v|] eqn:E.
  - destruct H as (-> & _). split; [|eauto]. intros v'. rewrite <- length_unpad_spec, E.
    split; intros H; injection H as ->; reflexivity.
  - rewrite H. split; [|auto]. intros v'. rewrite <- length_unpad_spec, E. split; discriminate.
Qed.

Lemma zeros_pad_strip buf used : 0 <= used < zlen buf ->
  exists b, pad padding_8000 buf used = Ret b /\ sub b 0 used = sub buf 0 used /\ zlen b = zlen buf /\
    strip padding_8000 b = Ret used.
Proof.
  intros Hu. pose proof (zeros_pad_ok (zlen buf) buf used eq_refl Hu) as H.
  destruct (zeros_pad (zlen buf) used) as [l|] eqn:El; [|discriminate El].
  destruct H as (H1 & H2 & H3). eexists. split; [exact H1|].
  assert (Hd : zlen (sub buf 0 used) = used) by (apply zlen_sub; lia).
  split; [rewrite sub_app_l by lia; apply sub_0_all; symmetry; exact Hd|]. split; [rewrite zlen_app; lia|].
  pose proof (zeros_strip_ok (sub buf 0 used ++ l)) as HS.
  rewrite <- Hd in El. rewrite (zeros_roundtrip (zlen buf)) in HS by exact El.
  destruct HS as (HS & _). rewrite Hd in HS. exact HS.
Qed.

Lemma zeros_strip_exact blk :
  (forall v, strip padding_8000 blk = Ret v <-> exists data, zeros_padded blk data /\ v = zlen data) /\
  ((exists v, strip padding_8000 blk = Ret v) \/ strip padding_8000 blk = Raise (Error Bad_padding)).
Proof.
  pose proof (zeros_strip_ok blk) as H. destruct (zeros_unpad blk) as [v|] eqn:E.
  - destruct H as (-> & _). split; [|eauto]. intros v'. rewrite <- zeros_unpad_spec, E.
    split; intros H; injection H as ->; reflexivity.
  - rewrite H. split; [|auto]. intros v'. rewrite <- zeros_unpad_spec, E. split; discriminate.
Qed.

Lemma ctr_accepts fresh : (forall n, 0 <= n -> zlen (fresh n) = n) ->
  forall nb key bs E D n iv d X, block_family nb key bs E D ->
  0 < n <= bs -> iv_ok bs (CTR_N n) iv -> blocks_ok bs X ->
  zlen (concat X) + 3 * bs <= max_string_length -> zlen X <= 256 ^ Z.min n 8 - 1 ->
  exists o r, make_cipher fresh nb (Some (CTR_N n)) None iv key d = Ret o /\ run_string o (concat X) = Ret r.
Proof.
  intros fresh_len nb key bs E D n iv d X HF Hn Hiv HX Hs Hl.
  destruct (cipher_computes_mode fresh fresh_len nb key bs E D (Some (CTR_N n)) iv d X HF Hn Hiv HX Hs) as (o & Ho & H & _).
  destruct H as (Y & _ & HY & _).
  { cbn [dmode]. unfold within_limit. cbn [mode_limit]. unfold ctr_limit.
    replace (Z.of_nat (Nat.min (Z.to_nat n) 8)) with (Z.min n 8) by lia. exact Hl. }
  exists o, (concat Y). split; [exact Ho|exact HY].
Qed.
