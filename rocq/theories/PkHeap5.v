(* What the public-key functions leave in memory: the other functions. *)
From Coq Require Import Zpow_facts Znumtheory.
From Verif Require Import Prelude PreludeFacts BytesNum HashModel RngModel BnModel Bn PkModel SpecPk PkCases BnHeapModel SpecPkMem BnHeap PkHeap PkHeap2 PkHeap3 PkHeap4.

(* ---- wipe_key ---- *)
Lemma wipe_strings : forall l h, present h l -> length (fold_left m_wipe_bytes l h) = length h /\
  (forall a, In a l -> str (fold_left m_wipe_bytes l h) a = zeros (zlen (str h a))) /\ (forall i, ~ In i l -> cell_at (fold_left m_wipe_bytes l h) i = cell_at h i).
Proof.
  induction l as [|a l IH]; intros h P; [split; [reflexivity|split; [intros a []|reflexivity]]|]. cbn [fold_left]. apply Forall_cons_iff in P as (Ha & P).
  assert (length (m_wipe_bytes h a) = length h) as L by (now apply length_store). destruct (IH (m_wipe_bytes h a)) as (I1 & I2 & I3). { unfold present. now rewrite L. }
  assert (forall b, str (m_wipe_bytes h a) b = if Nat.eqb a b then zeros (zlen (str h a)) else str h b) as Sb.
  { intros b. destruct (Nat.eqb_spec a b) as [<-|N]; unfold str at 1, m_wipe_bytes; [now rewrite store_same|rewrite store_other by auto; reflexivity]. }
  split; [lia|]. split.
  - intros b Hb. assert (zlen (str (m_wipe_bytes h a) b) = zlen (str h b)) as Z by (rewrite Sb; destruct (Nat.eqb_spec a b) as [<-|N]; [rewrite zlen_zeros; unfold zlen; lia|reflexivity]).
    destruct (in_dec Nat.eq_dec b l) as [I|N]; [rewrite I2, Z by exact I; reflexivity|]. destruct Hb as [<-|Hb]; [|contradiction]. unfold str at 1. rewrite I3 by exact N. fold (str (m_wipe_bytes h a) a). now rewrite Sb, Nat.eqb_refl.
  - intros i Hi. cbn [In] in Hi. rewrite I3 by tauto. apply store_other; [exact Ha|]. intros ->. tauto.
Qed.
Lemma rsa_wipe_key_ok h k : present h (rsa_priv_strings k) -> let h' := m_rsa_wipe_key h k in length h' = length h /\
  rsa_priv_of h' k = rsa_wipe_key (rsa_priv_of h k) /\ (forall i, ~ In i (rsa_priv_strings k) -> cell_at h' i = cell_at h i).
Proof.
  intros P. destruct (wipe_strings (rsa_priv_strings k) h P) as (A & B & C). cbv zeta. unfold m_rsa_wipe_key. fold (rsa_priv_strings k). split; [exact A|]. split; [|exact C].
  unfold rsa_priv_of, rsa_wipe_key. cbn [rk_size rk_n rk_d rk_p rk_q rk_dp rk_dq rk_qinv].
  assert (forall s : bytes, map (fun _ : Z => 0) s = zeros (zlen s)) as M by (intros s; unfold zeros, zlen; rewrite Nat2Z.id; induction s; cbn [map length repeat]; [reflexivity|now f_equal]).
  rewrite !M. f_equal; apply B; unfold rsa_priv_strings; cbn [In]; mem.
Qed.
Lemma rsa_wipe_all_ok h k : present h (rsa_priv_strings k) -> let h' := m_rsa_wipe_key h k in length h' = length h /\
  Forall (fun a => str h' a = repeat 0 (length (str h a))) (rsa_priv_strings k) /\ (forall i, ~ In i (rsa_priv_strings k) -> cell_at h' i = cell_at h i).
Proof.
  intros P. destruct (wipe_strings (rsa_priv_strings k) h P) as (A & B & C). cbv zeta. unfold m_rsa_wipe_key. fold (rsa_priv_strings k). split; [exact A|]. split; [|exact C]. apply Forall_forall. intros a Ha. rewrite (B a Ha). unfold zeros, zlen. now rewrite Nat2Z.id.
Qed.
Lemma pai_wipe_all_ok h k : present h (pai_priv_strings k) -> let h' := m_pai_wipe_key h k in length h' = length h /\
  Forall (fun a => str h' a = repeat 0 (length (str h a))) (pai_priv_strings k) /\ (forall i, ~ In i (pai_priv_strings k) -> cell_at h' i = cell_at h i).
Proof.
  intros P. destruct (wipe_strings (pai_priv_strings k) h P) as (A & B & C). cbv zeta. unfold m_pai_wipe_key. fold (pai_priv_strings k). split; [exact A|]. split; [|exact C]. apply Forall_forall. intros a Ha. rewrite (B a Ha). unfold zeros, zlen. now rewrite Nat2Z.id.
Qed.
Lemma nodup_app_out {A} (l m : list A) x : NoDup (l ++ m) -> In x m -> ~ In x l.
Proof. induction l as [|a l IH]; intros D Hm; [intros []|]. cbn [app] in D. apply NoDup_cons_iff in D as (D1 & D2). intros [->|H]; [apply D1; apply in_or_app; now right|now apply (IH D2 Hm)]. Qed.
Section Wiped.
Variable share : heap -> Z -> list bn -> nat.
Variables (fresh : Z -> bytes) (R : rng) (np : Z -> Z).
Lemma rsa_key_wiped fuel s h e nb s' h' k : m_rsa_new_key share fresh R np fuel (s, h) e nb = ((s', h'), Ret k) -> let h2 := m_rsa_wipe_key h' (fst k) in
  keeps h h2 /\ Forall (fun a => str h2 a = repeat 0 (length (str h' a))) (rsa_priv_strings (fst k)) /\ rsa_pub_of h2 (snd k) = rsa_pub_of h' (snd k).
Proof.
  intros E. pose proof (rsa_new_key_ok share fresh R np fuel s h e nb) as H. cbv zeta in H. rewrite E in H. cbn [fst snd] in H. destruct H as (_ & K & _ & H). destruct (H k eq_refl) as (D & F).
  apply Forall_app in F as (F1 & F2). cbv zeta. assert (present h' (rsa_priv_strings (fst k))) as P by (eapply Forall_impl; [|exact F1]; intros a Ha; apply Ha).
  destruct (rsa_wipe_all_ok h' (fst k) P) as (L & W & O). rewrite Forall_forall in F1. split; [|split; [exact W|]].
  - split; [destruct K; lia|]. intros i Hi. rewrite O; [apply K; exact Hi|]. intros I. apply F1 in I. lia.
  - unfold rsa_pub_of, str. rewrite !O; [reflexivity| |]; apply (nodup_app_out _ _ _ D); unfold rsa_pub_strings; cbn [In]; mem.
Qed.
Lemma pai_key_wiped fuel s h nb s' h' k : m_pai_new_key share fresh R np fuel (s, h) nb = ((s', h'), Ret k) -> let h2 := m_pai_wipe_key h' (fst k) in
  keeps h h2 /\ Forall (fun a => str h2 a = repeat 0 (length (str h' a))) (pai_priv_strings (fst k)) /\ pai_pub_of h2 (snd k) = pai_pub_of h' (snd k).
Proof.
  intros E. pose proof (pai_new_key_ok share fresh R np fuel s h nb) as H. cbv zeta in H. rewrite E in H. cbn [fst snd] in H. destruct H as (_ & K & _ & H). destruct (H k eq_refl) as (D & F).
  apply Forall_app in F as (F1 & F2). cbv zeta. assert (present h' (pai_priv_strings (fst k))) as P by (eapply Forall_impl; [|exact F1]; intros a Ha; apply Ha).
  destruct (pai_wipe_all_ok h' (fst k) P) as (L & W & O). rewrite Forall_forall in F1. split; [|split; [exact W|]].
  - split; [destruct K; lia|]. intros i Hi. rewrite O; [apply K; exact Hi|]. intros I. apply F1 in I. lia.
  - unfold pai_pub_of, str. rewrite !O; [reflexivity|..]; apply (nodup_app_out _ _ _ D); unfold pai_pub_strings; cbn [In]; mem.
Qed.
(* ---- RSA ---- *)
Lemma agrees_ret {A B} h0 (r : heap * out A) (p : out B) Q h' a : agrees h0 r p Q -> r = (h', Ret a) -> exists b, p = Ret b /\ Q h' a b.
Proof. intros (_ & H) ->. cbn [fst snd] in H. destruct p as [b|e| |]; try contradiction. exists b. auto. Qed.
Lemma rsa_encrypt_left h key msg h' t : present h (msg :: rsa_pub_strings key) -> m_rsa_encrypt share h key msg = (h', Ret t) -> nothing_left_but [t] h h'.
Proof. intros P E. destruct (agrees_ret _ _ _ _ _ _ (rsa_encrypt_agrees share h key msg P) E) as (b & _ & O). exact (own_left _ _ _ O). Qed.
Lemma rsa_decrypt_left h key msg h' t : present h (msg :: rsa_priv_strings key) -> m_rsa_decrypt share h key msg = (h', Ret t) -> nothing_left_but [t] h h'.
Proof. intros P E. destruct (agrees_ret _ _ _ _ _ _ (rsa_decrypt_agrees share h key msg P) E) as (b & _ & O). exact (own_left _ _ _ O). Qed.
Lemma forall2_in (h : heap) : forall us zs v, Forall2 (left_ h) us zs -> In v us -> exists z, In z zs /\ left_ h v z.
Proof. induction 1 as [|u z us zs H F IH]; intros [].
  - subst. exists z. split; [now left|exact H].
  - destruct IH as (y & A & B); [assumption|]. exists y. split; [now right|exact B].
Qed.
Lemma left_list h h' us t b zs : own h h' us [(t, b)] -> Forall2 (left_ h') us zs -> forall i, (length h <= i < length h')%nat -> i <> t -> cleared (cell_at h' i) \/ exists z, cell_at h' i = Num z /\ In z zs.
Proof.
  intros O F i Hi Hn. destruct (o_all _ _ _ _ O i Hi) as [C|[C|[C|[]]]]; [now left| |cbn [fst] in C; congruence].
  destruct (forall2_in _ _ _ _ F C) as (z & Z & L). destruct L as (_ & [L|L]); [right; exists z; auto|left; now rewrite L].
Qed.
Lemma pow_abs a b p : p <> 0 -> Zpow_mod a b (Z.abs p) = a ^ b mod Z.abs p.
Proof. intros H. apply Zpow_mod_correct. clear - H. lia. Qed.
Lemma crt_spec a p q dp dq qi z : p <> 0 -> q <> 0 -> In z (crt_values a p q dp dq qi) -> In z (crt_numbers a p q dp dq qi).
Proof.
  intros Hp Hq. unfold crt_values, crt_numbers. rewrite !pow_abs by assumption. cbv zeta. set (mp := _ mod Z.abs p). set (mq := _ mod Z.abs q). change (bn_sub_mod mp mq p) with (if mp - mq <? 0 then mp - mq + p else mp - mq).
  set (d := if _ <? 0 then _ else _). intros Hz. apply (in_rev [_; _; _; _; _; _; _]) in Hz. cbn [rev app] in Hz. exact Hz.
Qed.
Lemma pai_spec n n2 l mu c z : n2 <> 0 -> In z (pai_values n n2 l mu c) -> In z (paillier_numbers n n2 l mu c).
Proof.
  intros Hn. unfold pai_values, paillier_numbers. rewrite pow_abs by assumption. cbv zeta. intros Hz. apply (in_rev [_; _]) in Hz. exact Hz.
Qed.
Lemma crt_not_zero a p q dp dq qi r : bn_mod_power_CRT a p q dp dq qi = Ret r -> p <> 0 /\ q <> 0.
Proof. unfold bn_mod_power_CRT, z_rem. destruct (Z.eqb_spec p 0); [discriminate|]. cbn [obind]. destruct (Z.eqb_spec q 0); [discriminate|]. auto. Qed.
Lemma rsa_crt_left h key msg h' t : present h (msg :: rsa_priv_strings key) -> m_rsa_decrypt_CRT share h key msg = (h', Ret t) ->
  let n a := be (str h a) in forall i, (length h <= i < length h')%nat -> i <> t -> cleared (cell_at h' i) \/
  exists z, cell_at h' i = Num z /\ In z (crt_numbers (n msg) (n (mrk_p key)) (n (mrk_q key)) (n (mrk_dp key)) (n (mrk_dq key)) (n (mrk_qinv key))).
Proof.
  intros P E n i Hi Hn. destruct (agrees_ret _ _ _ _ _ _ (rsa_crt_agrees share h key msg P) E) as (b & Eb & us & O & F). destruct (left_list _ _ _ _ _ _ O F i Hi Hn) as [C|(z & Ez & Hz)]; [now left|right; exists z; split; [exact Ez|]].
  unfold rsa_decrypt_CRT in Eb. destruct (_ >=? _); [discriminate|]. cbn [rsa_priv_of rk_p rk_q rk_dp rk_dq rk_qinv rk_size] in Eb. destruct (bn_mod_power_CRT _ _ _ _ _ _) as [r|e| |] eqn:Er; try discriminate Eb. apply crt_not_zero in Er as (Np & Nq).
  exact (crt_spec _ _ _ _ _ _ z Np Nq Hz).
Qed.
Lemma pai_decrypt_left h key c h' t : present h (c :: pai_priv_strings key) -> m_pai_decrypt share h key c = (h', Ret t) ->
  let n a := be (str h a) in forall i, (length h <= i < length h')%nat -> i <> t -> cleared (cell_at h' i) \/
  exists z, cell_at h' i = Num z /\ In z (paillier_numbers (n (mpk_n key)) (n (mpk_n2 key)) (n (mpk_lambda key)) (n (mpk_mu key)) (n c)).
Proof.
  intros P E n i Hi Hn. destruct (agrees_ret _ _ _ _ _ _ (pai_decrypt_agrees share h key c P) E) as (b & Eb & us & O & F). destruct (left_list _ _ _ _ _ _ O F i Hi Hn) as [C|(z & Ez & Hz)]; [now left|right; exists z; split; [exact Ez|]].
  unfold pai_decrypt in Eb. cbn [pai_priv_of pk_n pk_n2 pk_lambda pk_mu] in Eb. unfold bn_mod_power, z_powm_sec in Eb. destruct (_ || Z.even _) eqn:Ee; [discriminate|].
  assert (bn_of_bytes (str h (mpk_n2 key)) <> 0) as Nz by (intros Z; rewrite Z in Ee; cbn [Z.even] in Ee; rewrite orb_true_r in Ee; discriminate Ee).
  exact (pai_spec _ _ _ _ _ z Nz Hz).
Qed.
(* an exception *)
Lemma rsa_exception_left h key msg : present h (msg :: rsa_priv_strings key) -> be (str h msg) >= be (str h (mrk_n key)) -> ~ immediate (be (str h (mrk_d key))) ->
  let r := m_rsa_decrypt share h key msg in snd r = Raise (Error Message_too_long) /\ exists i, (length h <= i < length (fst r))%nat /\ cell_at (fst r) i = Num (be (str h (mrk_d key))).
Proof.
  intros P Hm Hd. presents P. cbv zeta. unfold m_rsa_decrypt.
  destruct (do_key share h h [] [] msg (own_init h) ltac:(assumption)) as (K1 & H1). destruct (m_of_bytes share h msg) as [h1 [m|e| |]]; cbn [fst snd] in H1; try contradiction. destruct H1 as ((O1 & V1 & _) & _). cbn [bind].
  destruct (do_key share h h1 _ [] (mrk_n key) O1 ltac:(assumption)) as (K2 & H2). destruct (m_of_bytes share h1 (mrk_n key)) as [h2 [n|e| |]]; cbn [fst snd] in H2; try contradiction. destruct H2 as ((O2 & V2 & _) & K12). cbn [bind].
  destruct (do_key share h h2 _ [] (mrk_d key) O2 ltac:(assumption)) as (K3 & H3). destruct (m_of_bytes share h2 (mrk_d key)) as [h3 [d|e| |]]; cbn [fst snd] in H3; try contradiction. destruct H3 as ((O3 & V3 & A3) & K23). cbn [bind].
  assert (bn_of_bytes (str h msg) >= bn_of_bytes (str h (mrk_n key))) as Hm2 by exact Hm. clear Hm. rewrite (proj1 (val_keep _ _ _ _ (keeps_trans _ _ _ K12 K23) V1)), (proj1 (val_keep _ _ _ _ K23 V2)). replace (bn_of_bytes (str h msg) >=? bn_of_bytes (str h (mrk_n key))) with true by (symmetry; apply Z.geb_le; clear - Hm2; lia). cbn [fst snd]. split; [reflexivity|].
  destruct A3 as [(-> & C)|(-> & _)]; [destruct (Hd C)|]. pose proof (o_num _ _ _ _ O3 _ (or_introl eq_refl)) as (N1 & z & N2). exists (S (length h2)). split; [exact N1|]. destruct V3 as (V3 & _). cbn [num] in V3. rewrite N2 in *. now subst.
Qed.
End Wiped.
