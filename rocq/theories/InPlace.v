(* The memory versions of the block ciphers and modes do on arrays what the list versions do on copies. *)
From Verif Require Import Prelude PreludeFacts BlockModel BlockBounds CipherModel DesModel InPlaceModel.

Lemma upd_same m r x : upd m r x r = x.
Proof. unfold upd. now rewrite Nat.eqb_refl. Qed.
Lemma upd_other m r x i : i <> r -> upd m r x i = m i.
Proof. intros H. unfold upd. now rewrite (proj2 (Nat.eqb_neq _ _) H). Qed.

Lemma store_upd l : forall m dst d, 0 <= d -> d + zlen l <= zlen (m dst) ->
  forall x, store m dst d l x = upd m dst (splice (m dst) d l) x.
Proof.
  induction l as [|b l IH]; intros m dst d Hd Hl x; cbn [store].
  - rewrite splice_nil. unfold upd. destruct (Nat.eqb x dst) eqn:E; [apply Nat.eqb_eq in E; now subst|reflexivity].
  - rewrite zlen_cons in Hl. pose proof (zlen_nonneg l). rewrite IH; [|lia|rewrite upd_same, zlen_splice by (change (zlen [b]) with 1; lia); lia].
    unfold upd. rewrite Nat.eqb_refl. destruct (Nat.eqb x dst); [|reflexivity].
    change (d + 1) with (d + zlen [b]). rewrite splice_splice_app; [reflexivity|assumption|change (zlen [b]) with 1; lia].
Qed.

(* [R] relates the states of the two objects and the private arrays [own] *)
Definition simulates (M : mcipher) (C : block_cipher) (own : list nat) (R : mc_st M -> mem -> bc_st C -> Prop) : Prop :=
  mc_blocksize M = bc_blocksize C /\
  (forall s m m' c, R s m c -> (forall x, In x own -> m' x = m x) -> R s m' c) /\
  (forall s m c src so dst d, R s m c -> ~ In src own -> ~ In dst own ->
     let r := mc_transform M s m src so dst d in
     let q := bc_transform C c (m src) so (m dst) d in
     snd r = snd q /\ R (fst (fst r)) (snd (fst r)) (fst (fst q)) /\
     forall x, ~ In x own -> snd (fst r) x = upd m dst (snd (fst q)) x).

Lemma upd_self m r x : upd m r (m r) x = m x.
Proof. unfold upd. destruct (Nat.eqb x r) eqn:E; [apply Nat.eqb_eq in E; now subst|reflexivity]. Qed.

Lemma raw_sim K bs prim wipe k0 : 0 <= bs -> (forall b r, prim k0 b = Ret r -> zlen r = bs) ->
  simulates (raw_m K bs prim) (raw_cipher K bs prim wipe) [] (fun s _ c => s = k0 /\ c = k0).
Proof.
  intros Hb Hp. split; [reflexivity|]. split; [intros; assumption|].
  intros s m c src so dst d (-> & ->) _ _. cbn [raw_m raw_cipher mc_transform bc_transform].
  destruct ((so <? 0) || (so >? zlen (m src) - bs) || (d <? 0) || (d >? zlen (m dst) - bs)) eqn:E.
  - cbn [fst snd]. split; [reflexivity|]. split; [auto|]. intros x _. now rewrite upd_self.
  - destruct (prim k0 (sub (m src) so bs)) as [r|e| |] eqn:Er; cbn [fst snd];
      (split; [reflexivity|]; split; [auto|]; intros x _); try (now rewrite upd_self).
    apply store_upd; [lia|]. rewrite (Hp _ _ Er). lia.
Qed.

Lemma des_len k b : zlen (d3des_transform k b) = 8.
Proof. unfold d3des_transform. rewrite zlen_app. reflexivity. Qed.

Lemma triple_sim : simulates triple_des_m triple_des_class [] (fun s _ c => s = c).
Proof.
  split; [reflexivity|]. split; [intros; assumption|].
  intros [[k1 k2] k3] m c src so dst d <- _ _. cbn [triple_des_m triple_des_class mc_transform bc_transform].
  destruct ((so <? 0) || (so >? zlen (m src) - 8) || (d <? 0) || (d >? zlen (m dst) - 8)) eqn:E.
  - cbn [fst snd]. split; [reflexivity|]. split; [reflexivity|]. intros x _. now rewrite upd_self.
  - cbn [fst snd]. split; [reflexivity|]. split; [reflexivity|]. intros x _. unfold des_transform_m.
    assert (Z1 : forall k b, zlen (d3des_transform k b) = 8) by (intros; apply des_len).
    assert (H : forall l k b, zlen l = zlen (m dst) -> zlen (splice l d (d3des_transform k b)) = zlen (m dst))
      by (intros l k b Hl; rewrite zlen_splice; [assumption|lia|rewrite Z1; lia]).
    set (m1 := store m dst d (d3des_transform k1 (sub (m src) so 8))).
    assert (E1 : m1 dst = splice (m dst) d (d3des_transform k1 (sub (m src) so 8))).
    { unfold m1. rewrite store_upd by (rewrite ?Z1; lia). apply upd_same. }
    set (m2 := store m1 dst d (d3des_transform k2 (sub (m1 dst) d 8))).
    assert (L1 : zlen (m1 dst) = zlen (m dst)) by (rewrite E1; apply H; reflexivity).
    assert (E2 : m2 dst = splice (m1 dst) d (d3des_transform k2 (sub (m1 dst) d 8))).
    { unfold m2. rewrite store_upd by (rewrite ?Z1; lia). apply upd_same. }
    assert (L2 : zlen (m2 dst) = zlen (m dst)) by (rewrite E2; apply H; assumption).
    rewrite store_upd by (rewrite ?Z1; lia). rewrite <- E1, <- E2. unfold upd. destruct (Nat.eqb x dst) eqn:Ex; [reflexivity|].
    unfold m2. rewrite store_upd by (rewrite ?Z1; lia). unfold upd. rewrite Ex.
    unfold m1. rewrite store_upd by (rewrite ?Z1; lia). unfold upd. rewrite Ex. reflexivity.
Qed.

Ltac cc := cbn [fst snd mm_iv mm_tmp mm_max mm_c set_c set_iv set_tmp ms_iv ms_tmp ms_max ms_c].
Section Mode.
Variable fresh : Z -> bytes.
Variables (M : mcipher) (C : block_cipher) (own : list nat) (R : mc_st M -> mem -> bc_st C -> Prop).
Hypothesis Hsim : simulates M C own R.
Variables riv rtmp : nat.
Hypothesis Hnd : NoDup (riv :: rtmp :: own).
Let own' := riv :: rtmp :: own.
Let bs := bc_blocksize C.

Definition RM (s : mm_st M) (m : mem) (c : mode_st C) : Prop :=
  mm_iv s = riv /\ mm_tmp s = rtmp /\ mm_max s = ms_max c /\ m riv = ms_iv c /\ m rtmp = ms_tmp c /\ R (mm_c s) m (ms_c c).

Section Call.
Variables (m0 : mem) (src dst : nat).
Hypothesis Hs : ~ In src own'.
Hypothesis Hd : ~ In dst own'.
(* in the middle of a call *)
Definition P (s : mm_st M * mem) (c : mode_st C * bytes) : Prop :=
  RM (fst s) (snd s) (fst c) /\ snd s dst = snd c /\ forall x, ~ In x own' -> x <> dst -> snd s x = m0 x.
Definition P0 s c := P s c /\ snd c = m0 dst.
Definition RR (Q : mm_st M * mem -> mode_st C * bytes -> Prop) (r : (mm_st M * mem) * out unit) (q : (mode_st C * bytes) * out unit) : Prop :=
  snd r = snd q /\ Q (fst r) (fst q).

Lemma ne_iv_tmp : riv <> rtmp.
Proof. inversion Hnd as [|? ? H1 H2]; subst. intros ->. apply H1. now left. Qed.
Lemma iv_own : ~ In riv own.
Proof. inversion Hnd as [|? ? H1 H2]; subst. intros H. apply H1. now right. Qed.
Lemma tmp_own : ~ In rtmp own.
Proof. inversion Hnd as [|? ? H1 H2]; subst. now inversion H2. Qed.
Lemma d_iv : dst <> riv. Proof. intros ->. apply Hd. now left. Qed.
Lemma d_tmp : dst <> rtmp. Proof. intros ->. apply Hd. right. now left. Qed.
Lemma d_own : ~ In dst own. Proof. intros H. apply Hd. right. now right. Qed.
Lemma s_own : ~ In src own. Proof. intros H. apply Hs. right. now right. Qed.

Lemma src_kept s c : P0 s c -> snd s src = m0 src.
Proof.
  intros ((_ & H1 & H2) & H3). destruct (Nat.eq_dec src dst) as [->|H]; [congruence|]. apply H2; assumption.
Qed.

Lemma bind_RR (Q1 Q2 : mm_st M * mem -> mode_st C * bytes -> Prop) r q k k' : (forall s c, Q1 s c -> P s c) -> (forall s c, Q2 s c -> P s c) ->
  RR Q1 r q -> (forall s c, Q1 s c -> RR P (k s tt) (k' c tt)) -> RR P (bind r k) (bind q k').
Proof.
  intros HQ1 _ (H1 & H2) Hk. destruct r as [s o], q as [c o']. cbn [fst snd] in *. subst o'.
  destruct o as [[]|e| |]; cbn [bind]; [apply Hk; exact H2|split; cbn [fst snd]; auto..].
Qed.

(* stores to the private arrays and to dst *)
Lemma st_iv s c x y : x = y -> P s c -> RR P (mm_mem M s (mset (snd s) riv x)) (to_iv C c y).
Proof.
  intros <- ((A1 & A2 & A3 & A4 & A5 & A6) & B & D). destruct x as [x|e| |]; unfold mm_mem; cbn [mset to_iv fst snd];
    (split; [reflexivity|]); [|repeat split; assumption..].
  cbn [fst snd]. split; [|split].
  - split; [cc; first [assumption|reflexivity]|]; split; [assumption|]; split; [assumption|]; split; [|split]; cc.
    + apply upd_same. + rewrite upd_other by (intros H; apply ne_iv_tmp; auto). assumption.
    + eapply (proj1 (proj2 Hsim)); [exact A6|]. intros z Hz. apply upd_other. intros ->. exact (iv_own Hz).
  - cc. rewrite upd_other by exact d_iv. assumption.
  - intros z Hz Hz'. cc. rewrite upd_other; [auto|]. intros ->. apply Hz. now left.
Qed.
Lemma st_iv0 s c x y : x = y -> P0 s c -> RR P0 (mm_mem M s (mset (snd s) riv x)) (to_iv C c y).
Proof.
  intros H (H0 & H1). destruct (st_iv s c x y H H0) as (A & B). split; [exact A|]. split; [exact B|].
  destruct y; exact H1.
Qed.
Lemma st_tmp0 s c x y : x = y -> P0 s c -> RR P0 (mm_mem M s (mset (snd s) rtmp x)) (to_tmp C c y).
Proof.
  intros <- (((A1 & A2 & A3 & A4 & A5 & A6) & B & D) & F). destruct x as [x|e| |]; unfold mm_mem; cbn [mset to_tmp fst snd];
    (split; [reflexivity|]); [|repeat split; assumption..].
  cbn [fst snd]. split; [|exact F]. split; [|split].
  - split; [cc; first [assumption|reflexivity]|]; split; [assumption|]; split; [assumption|]; split; [|split]; cc.
    + rewrite upd_other by exact ne_iv_tmp. assumption. + apply upd_same.
    + eapply (proj1 (proj2 Hsim)); [exact A6|]. intros z Hz. apply upd_other. intros ->. exact (tmp_own Hz).
  - cbn [fst snd]. rewrite upd_other by exact d_tmp. assumption.
  - intros z Hz Hz'. cbn [fst snd]. rewrite upd_other; [auto|]. intros ->. apply Hz. right. now left.
Qed.
Lemma st_dst s c x y : x = y -> P s c -> RR P (mm_mem M s (mset (snd s) dst x)) (to_dst C c y).
Proof.
  intros <- ((A1 & A2 & A3 & A4 & A5 & A6) & B & D). destruct x as [x|e| |]; unfold mm_mem; cbn [mset to_dst fst snd];
    (split; [reflexivity|]); [|repeat split; assumption..].
  cbn [fst snd]. split; [|split].
  - split; [cc; first [assumption|reflexivity]|]; split; [assumption|]; split; [assumption|]; split; [|split]; cc.
    + cbn [fst snd]. rewrite upd_other by (intros H; apply d_iv; auto). assumption.
    + cbn [fst snd]. rewrite upd_other by (intros H; apply d_tmp; auto). assumption.
    + eapply (proj1 (proj2 Hsim)); [exact A6|]. intros z Hz. apply upd_other. intros ->. exact (d_own Hz).
  - apply upd_same.
  - intros z Hz Hz'. cbn [fst snd]. rewrite upd_other by assumption. auto.
Qed.

(* calls of the underlying cipher *)
Lemma call_iv_dst s c d : P s c -> RR P (mm_call M s (mm_iv (fst s)) 0 dst d) (c_transform_dst C c (ms_iv (fst c)) 0 d).
Proof.
  intros ((A1 & A2 & A3 & A4 & A5 & A6) & B & D). unfold mm_call, c_transform_dst.
  pose proof (proj2 (proj2 Hsim) (mm_c (fst s)) (snd s) (ms_c (fst c)) riv 0 dst d A6 iv_own d_own) as H. cbv zeta in H.
  rewrite A4, B in H. rewrite A1. destruct (bc_transform C (ms_c (fst c)) (ms_iv (fst c)) 0 (snd c) d) as [[c' l] o] eqn:E.
  cbn [fst snd] in *. destruct H as (H1 & H2 & H3).
  split; [exact H1|]. cbn [fst snd]. split; [|split].
  - split; [cc; first [assumption|reflexivity]|]; split; [assumption|]; split; [assumption|]; split; [|split]; cc.
    + rewrite H3 by exact iv_own. rewrite upd_other by (intros X; apply d_iv; auto). assumption.
    + rewrite H3 by exact tmp_own. rewrite upd_other by (intros X; apply d_tmp; auto). assumption.
    + exact H2.
  - cbn [fst snd]. rewrite H3 by exact d_own. apply upd_same.
  - intros z Hz Hz'. cbn [fst snd]. rewrite H3 by (intros X; apply Hz; right; now right). rewrite upd_other by assumption. auto.
Qed.
Lemma call_src_dst s c so d : P0 s c -> RR P (mm_call M s src so dst d) (c_transform_dst C c (m0 src) so d).
Proof.
  intros HP. pose proof (src_kept s c HP) as Hk. destruct HP as (((A1 & A2 & A3 & A4 & A5 & A6) & B & D) & F). unfold mm_call, c_transform_dst.
  pose proof (proj2 (proj2 Hsim) (mm_c (fst s)) (snd s) (ms_c (fst c)) src so dst d A6 s_own d_own) as H. cbv zeta in H.
  rewrite Hk, B in H. destruct (bc_transform C (ms_c (fst c)) (m0 src) so (snd c) d) as [[c' l] o] eqn:E.
  cbn [fst snd] in *. destruct H as (H1 & H2 & H3).
  split; [exact H1|]. cbn [fst snd]. split; [|split].
  - split; [cc; first [assumption|reflexivity]|]; split; [assumption|]; split; [assumption|]; split; [|split]; cc.
    + rewrite H3 by exact iv_own. rewrite upd_other by (intros X; apply d_iv; auto). assumption.
    + rewrite H3 by exact tmp_own. rewrite upd_other by (intros X; apply d_tmp; auto). assumption.
    + exact H2.
  - cbn [fst snd]. rewrite H3 by exact d_own. apply upd_same.
  - intros z Hz Hz'. cbn [fst snd]. rewrite H3 by (intros X; apply Hz; right; now right). rewrite upd_other by assumption. auto.
Qed.
Lemma call_iv_tmp s c : P0 s c -> RR P0 (mm_call M s riv 0 rtmp 0) (c_transform_iv_tmp C c).
Proof.
  intros (((A1 & A2 & A3 & A4 & A5 & A6) & B & D) & F). unfold mm_call, c_transform_iv_tmp.
  pose proof (proj2 (proj2 Hsim) (mm_c (fst s)) (snd s) (ms_c (fst c)) riv 0 rtmp 0 A6 iv_own tmp_own) as H. cbv zeta in H.
  rewrite A4, A5 in H. destruct (bc_transform C (ms_c (fst c)) (ms_iv (fst c)) 0 (ms_tmp (fst c)) 0) as [[c' l] o] eqn:E.
  cbn [fst snd] in *. destruct H as (H1 & H2 & H3).
  split; [exact H1|]. cbn [fst snd]. split; [|exact F]. split; [|split].
  - split; [cc; first [assumption|reflexivity]|]; split; [assumption|]; split; [assumption|]; split; [|split]; cc.
    + rewrite H3 by exact iv_own. rewrite upd_other by exact ne_iv_tmp. assumption.
    + rewrite H3 by exact tmp_own. apply upd_same.
    + exact H2.
  - cbn [fst snd]. rewrite H3 by exact d_own. rewrite upd_other by exact d_tmp. assumption.
  - intros z Hz Hz'. cbn [fst snd]. rewrite H3 by (intros X; apply Hz; right; now right).
    rewrite upd_other by (intros ->; apply Hz; right; now left). auto.
Qed.
Lemma call_iv_iv s c : P0 s c -> RR P0 (mm_call M s riv 0 riv 0) (c_transform_iv_iv C c).
Proof.
  intros (((A1 & A2 & A3 & A4 & A5 & A6) & B & D) & F). unfold mm_call, c_transform_iv_iv.
  pose proof (proj2 (proj2 Hsim) (mm_c (fst s)) (snd s) (ms_c (fst c)) riv 0 riv 0 A6 iv_own iv_own) as H. cbv zeta in H.
  rewrite A4 in H. destruct (bc_transform C (ms_c (fst c)) (ms_iv (fst c)) 0 (ms_iv (fst c)) 0) as [[c' l] o] eqn:E.
  cbn [fst snd] in *. destruct H as (H1 & H2 & H3).
  split; [exact H1|]. cbn [fst snd]. split; [|exact F]. split; [|split].
  - split; [cc; first [assumption|reflexivity]|]; split; [assumption|]; split; [assumption|]; split; [|split]; cc.
    + rewrite H3 by exact iv_own. apply upd_same.
    + rewrite H3 by exact tmp_own. rewrite upd_other by (intros X; apply ne_iv_tmp; auto). assumption.
    + exact H2.
  - cbn [fst snd]. rewrite H3 by exact d_own. rewrite upd_other by exact d_iv. assumption.
  - intros z Hz Hz'. cbn [fst snd]. rewrite H3 by (intros X; apply Hz; right; now right).
    rewrite upd_other by (intros ->; apply Hz; now left). auto.
Qed.
End Call.

Lemma P_iv m0 dst s c : P m0 dst s c -> snd s riv = ms_iv (fst c).
Proof. intros ((A1 & A2 & A3 & A4 & A5 & A6) & B & D). exact A4. Qed.
Lemma P_tmp m0 dst s c : P m0 dst s c -> snd s rtmp = ms_tmp (fst c).
Proof. intros ((A1 & A2 & A3 & A4 & A5 & A6) & B & D). exact A5. Qed.
Lemma P_dst m0 dst s c : P m0 dst s c -> snd s dst = snd c.
Proof. intros ((A1 & A2 & A3 & A4 & A5 & A6) & B & D). exact B. Qed.
Lemma P_ref m0 dst s c : P m0 dst s c -> mm_iv (fst s) = riv /\ mm_tmp (fst s) = rtmp.
Proof. intros ((A1 & A2 & A3 & A4 & A5 & A6) & B & D). auto. Qed.

Lemma Hbs : mc_blocksize M = bs.
Proof. exact (proj1 Hsim). Qed.

Lemma RM_frame s m m' c : RM s m c -> (forall x, In x own' -> m' x = m x) -> RM s m' c.
Proof.
  intros (A1 & A2 & A3 & A4 & A5 & A6) H. repeat split; try assumption.
  - rewrite H by now left. assumption.
  - rewrite H by (right; now left). assumption.
  - eapply (proj1 (proj2 Hsim)); [exact A6|]. intros x Hx. apply H. right. now right.
Qed.

Lemma start s m c dst : RM s m c -> P0 m dst (s, m) (c, m dst).
Proof. intros H. split; [|reflexivity]. split; [exact H|]. split; [reflexivity|]. auto. Qed.
Lemma RR_done m dst r q : RR (P m dst) r q ->
  snd r = snd q /\ RM (fst (fst r)) (snd (fst r)) (fst (fst q)) /\
  forall x, ~ In x own' -> snd (fst r) x = upd m dst (snd (fst q)) x.
Proof.
  intros (H1 & H2 & H3 & H4). split; [exact H1|]. split; [exact H2|]. intros x Hx. unfold upd.
  destruct (Nat.eqb x dst) eqn:E; [apply Nat.eqb_eq in E; subst; exact H3|]. apply H4; [exact Hx|]. now apply Nat.eqb_neq.
Qed.

Theorem cbc_encrypt_sim : simulates (cbc_encrypt_m M) (cbc_encrypt C) own' RM.
Proof.
  split; [exact Hbs|]. split; [exact RM_frame|]. intros s m c src so dst d HR Hs Hd r q. apply RR_done. unfold r, q.
  cbn [cbc_encrypt_m cbc_encrypt mc_transform bc_transform]. rewrite Hbs. fold bs.
  destruct HR as (E1 & E2 & HR'). pose proof (conj E1 (conj E2 HR') : RM s m c) as HR. rewrite E1.
  pose proof (start s m c dst HR) as H0. unfold mxor, mblit.
  eapply (bind_RR m dst (P0 m dst) (P m dst)); [now intros ? ? [? ?]|auto| |].
  - eapply st_iv0; [exact Hs|exact Hd| |exact H0]. cbn [fst snd]. f_equal. exact (P_iv _ _ _ _ (proj1 H0)).
  - intros s1 c1 H1. eapply (bind_RR m dst (P m dst) (P m dst)); [auto|auto| |].
    + rewrite <- (proj1 (P_ref _ _ _ _ (proj1 H1))). apply call_iv_dst; [assumption|exact (proj1 H1)].
    + intros s2 c2 H2. eapply st_iv; [exact Hs|exact Hd| |exact H2]. rewrite (P_dst _ _ _ _ H2), (P_iv _ _ _ _ H2). reflexivity.
Qed.

Theorem cbc_decrypt_sim : simulates (cbc_decrypt_m M) (cbc_decrypt C) own' RM.
Proof.
  split; [exact Hbs|]. split; [exact RM_frame|]. intros s m c src so dst d HR Hs Hd r q. apply RR_done. unfold r, q.
  cbn [cbc_decrypt_m cbc_decrypt mc_transform bc_transform]. rewrite Hbs. fold bs.
  destruct HR as (E1 & E2 & HR'). pose proof (conj E1 (conj E2 HR') : RM s m c) as HR. rewrite E1, E2.
  pose proof (start s m c dst HR) as H0. unfold mxor, mblit.
  eapply (bind_RR m dst (P0 m dst) (P m dst)); [now intros ? ? [? ?]|auto| |].
  - eapply st_tmp0; [exact Hs|exact Hd| |exact H0]. cbn [fst snd]. f_equal. exact (P_tmp _ _ _ _ (proj1 H0)).
  - intros s1 c1 H1. eapply (bind_RR m dst (P m dst) (P m dst)); [auto|auto| |].
    + apply call_src_dst; [assumption|assumption|exact H1].
    + intros s2 c2 H2. eapply (bind_RR m dst (P m dst) (P m dst)); [auto|auto| |].
      * apply st_dst; [assumption| |exact H2]. rewrite (P_dst _ _ _ _ H2), (P_iv _ _ _ _ H2). reflexivity.
      * intros s3 c3 H3. eapply st_iv; [exact Hs|exact Hd| |exact H3]. rewrite (P_tmp _ _ _ _ H3), (P_iv _ _ _ _ H3). reflexivity.
Qed.

Theorem cfb_encrypt_sim n : simulates (cfb_encrypt_m M n) (cfb_encrypt C n) own' RM.
Proof.
  split; [reflexivity|]. split; [exact RM_frame|]. intros s m c src so dst d HR Hs Hd r q. apply RR_done. unfold r, q.
  cbn [cfb_encrypt_m cfb_encrypt mc_transform bc_transform]. rewrite Hbs. fold bs.
  destruct HR as (E1 & E2 & HR'). pose proof (conj E1 (conj E2 HR') : RM s m c) as HR. rewrite E1, E2.
  pose proof (start s m c dst HR) as H0. unfold mxor, mblit.
  eapply (bind_RR m dst (P0 m dst) (P m dst)); [now intros ? ? [? ?]|auto| |].
  - eapply call_iv_tmp; eassumption.
  - intros s1 c1 H1. eapply (bind_RR m dst (P m dst) (P m dst)); [auto|auto| |].
    + apply st_dst; [assumption| |exact (proj1 H1)]. rewrite (src_kept m src dst Hs s1 c1 H1), (P_dst _ _ _ _ (proj1 H1)). reflexivity.
    + intros s2 c2 H2. eapply (bind_RR m dst (P m dst) (P m dst)); [auto|auto| |].
      * apply st_dst; [assumption| |exact H2]. rewrite (P_dst _ _ _ _ H2), (P_tmp _ _ _ _ H2). reflexivity.
      * intros s3 c3 H3. eapply (bind_RR m dst (P m dst) (P m dst)); [auto|auto| |].
        -- eapply st_iv; [exact Hs|exact Hd| |exact H3]. rewrite (P_iv _ _ _ _ H3). reflexivity.
        -- intros s4 c4 H4. eapply st_iv; [exact Hs|exact Hd| |exact H4]. rewrite (P_dst _ _ _ _ H4), (P_iv _ _ _ _ H4). reflexivity.
Qed.

Theorem cfb_decrypt_sim n : simulates (cfb_decrypt_m M n) (cfb_decrypt C n) own' RM.
Proof.
  split; [reflexivity|]. split; [exact RM_frame|]. intros s m c src so dst d HR Hs Hd r q. apply RR_done. unfold r, q.
  cbn [cfb_decrypt_m cfb_decrypt mc_transform bc_transform]. rewrite Hbs. fold bs.
  destruct HR as (E1 & E2 & HR'). pose proof (conj E1 (conj E2 HR') : RM s m c) as HR. rewrite E1, E2.
  pose proof (start s m c dst HR) as H0. unfold mxor, mblit.
  eapply (bind_RR m dst (P0 m dst) (P m dst)); [now intros ? ? [? ?]|auto| |].
  - eapply call_iv_tmp; eassumption.
  - intros s1 c1 H1. eapply (bind_RR m dst (P0 m dst) (P m dst)); [now intros ? ? [? ?]|auto| |].
    + eapply st_iv0; [exact Hs|exact Hd| |exact H1]. rewrite (P_iv _ _ _ _ (proj1 H1)). reflexivity.
    + intros s2 c2 H2. eapply (bind_RR m dst (P0 m dst) (P m dst)); [now intros ? ? [? ?]|auto| |].
      * eapply st_iv0; [exact Hs|exact Hd| |exact H2]. rewrite (src_kept m src dst Hs s2 c2 H2), (P_iv _ _ _ _ (proj1 H2)). reflexivity.
      * intros s3 c3 H3. eapply (bind_RR m dst (P m dst) (P m dst)); [auto|auto| |].
        -- apply st_dst; [assumption| |exact (proj1 H3)]. rewrite (src_kept m src dst Hs s3 c3 H3), (P_dst _ _ _ _ (proj1 H3)). reflexivity.
        -- intros s4 c4 H4. apply st_dst; [assumption| |exact H4]. rewrite (P_dst _ _ _ _ H4), (P_tmp _ _ _ _ H4). reflexivity.
Qed.

Theorem ofb_sim n : simulates (ofb_m M n) (ofb C n) own' RM.
Proof.
  split; [reflexivity|]. split; [exact RM_frame|]. intros s m c src so dst d HR Hs Hd r q. apply RR_done. unfold r, q.
  cbn [ofb_m ofb mc_transform bc_transform].
  destruct HR as (E1 & E2 & HR'). pose proof (conj E1 (conj E2 HR') : RM s m c) as HR. rewrite E1.
  pose proof (start s m c dst HR) as H0. unfold mxor, mblit.
  eapply (bind_RR m dst (P0 m dst) (P m dst)); [now intros ? ? [? ?]|auto| |].
  - eapply call_iv_iv; eassumption.
  - intros s1 c1 H1. eapply (bind_RR m dst (P m dst) (P m dst)); [auto|auto| |].
    + apply st_dst; [assumption| |exact (proj1 H1)]. rewrite (src_kept m src dst Hs s1 c1 H1), (P_dst _ _ _ _ (proj1 H1)). reflexivity.
    + intros s2 c2 H2. apply st_dst; [assumption| |exact H2]. rewrite (P_dst _ _ _ _ H2), (P_iv _ _ _ _ H2). reflexivity.
Qed.

Theorem ctr_sim n : simulates (ctr_m M n) (ctr C n) own' RM.
Proof.
  split; [exact Hbs|]. split; [exact RM_frame|]. intros s m c src so dst d HR Hs Hd r q. apply RR_done. unfold r, q.
  cbn [ctr_m ctr mc_transform bc_transform]. rewrite Hbs. fold bs.
  destruct HR as (E1 & E2 & HR'). pose proof (conj E1 (conj E2 HR') : RM s m c) as HR. rewrite E1, E2.
  pose proof (start s m c dst HR) as H0. unfold mxor, mblit.
  eapply (bind_RR m dst (P0 m dst) (P m dst)); [now intros ? ? [? ?]|auto| |].
  - eapply call_iv_tmp; eassumption.
  - intros s1 c1 H1. eapply (bind_RR m dst (P m dst) (P m dst)); [auto|auto| |].
    + apply st_dst; [assumption| |exact (proj1 H1)]. rewrite (src_kept m src dst Hs s1 c1 H1), (P_dst _ _ _ _ (proj1 H1)). reflexivity.
    + intros s2 c2 H2. eapply (bind_RR m dst (P m dst) (P m dst)); [auto|auto| |].
      * apply st_dst; [assumption| |exact H2]. rewrite (P_dst _ _ _ _ H2), (P_tmp _ _ _ _ H2). reflexivity.
      * intros s3 c3 H3. eapply (bind_RR m dst (P m dst) (P m dst)); [auto|auto| |].
        -- eapply st_iv; [exact Hs|exact Hd| |exact H3]. rewrite (P_iv _ _ _ _ H3). reflexivity.
        -- intros s4 c4 H4. cbv zeta. destruct H4 as ((A1 & A2 & A3 & A4 & A5 & A6) & B & D). rewrite A3.
           destruct ((ms_max (fst c4) - 1) mod 2 ^ 64 =? 0); (split; [reflexivity|]); cbn [fst snd]; repeat split; try assumption; exact A3.
Qed.
End Mode.
