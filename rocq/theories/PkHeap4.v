(* What the public-key functions leave in memory. *)
From Coq Require Import Zpow_facts Znumtheory.
From Verif Require Import Prelude PreludeFacts BytesNum HashModel RngModel BnModel Bn PkModel SpecPk Pk PkGen Pk2 Pk3 BnHeapModel SpecPkMem BnHeap PkHeap PkHeap2 PkHeap3.

Lemma invert_range a m x : z_invert a m = Ret x -> 0 < m /\ 0 <= x < m.
Proof. unfold z_invert. destruct (Z.leb_spec m 0); [discriminate|]. destruct (egcd _ _ _ _ _) as (g & s). destruct (g =? 1); [|discriminate]. intros E. injection E as <-. split; [lia|]. now apply Z.mod_pos_bound. Qed.
Lemma invert_self m x : 1 < m -> z_invert m m <> Ret x.
Proof. intros Hm. unfold z_invert. destruct (Z.leb_spec m 0); [lia|]. rewrite Z_mod_same_full. rewrite Nat.add_comm. cbn [Nat.add egcd Z.eqb]. destruct (Z.eqb_spec m 1); [lia|discriminate]. Qed.
Lemma rem_value a b r : z_rem a b = Ret r -> b <> 0 /\ r = Z.rem a b.
Proof. unfold z_rem. destruct (Z.eqb_spec b 0); [discriminate|]. intros E. injection E as <-. auto. Qed.
(* a block survives if none of the erased numbers is in it *)
Lemma wipe_all_other i : forall ws h, Forall (in_heap h) ws -> ~ In (Blk i) ws -> cell_at (m_wipe_all ws h) i = cell_at h i.
Proof.
  induction ws as [|w ws IH]; intros h F N; [reflexivity|]. change (m_wipe_all (w :: ws) h) with (m_wipe_all ws (m_wipe h w)). inversion F; subst. cbn [In] in N. rewrite (IH (m_wipe h w)); [apply wipe_other; [assumption|intros E; apply N; left; now symmetry]| |tauto].
  apply Forall_forall. intros u Hu. apply in_wipe; [|assumption]. now apply (proj1 (Forall_forall _ _) H2).
Qed.
Lemma length_wipe_all : forall ws h, Forall (in_heap h) ws -> length (m_wipe_all ws h) = length h.
Proof.
  induction ws as [|w ws IH]; intros h F; [reflexivity|]. change (m_wipe_all (w :: ws) h) with (m_wipe_all ws (m_wipe h w)). inversion F; subst. rewrite (IH (m_wipe h w)).
  - destruct w; [reflexivity|]. cbn [m_wipe]. now apply length_store.
  - apply Forall_forall. intros u Hu. apply in_wipe; [|assumption]. now apply (proj1 (Forall_forall _ _) H2).
Qed.
Lemma own_ins h0 h ws us ss : own h0 h (ws ++ us) ss -> Forall (in_heap h) ws.
Proof. intros O. apply own_in in O. now apply Forall_app in O. Qed.
(* a number of its own *)
Lemma kept_block h0 h ws us ss v z zs : own h0 h (ws ++ us) ss -> In v us -> val h v z -> (forall y, v <> Imm y) -> Forall2 (val h) ws zs -> Forall2 (fun w y => y <> z \/ w <> v) ws zs ->
  exists i, (length h0 <= i < length (m_wipe_all ws h))%nat /\ cell_at (m_wipe_all ws h) i = Num z.
Proof.
  intros O Hv V Nv F2 D. pose proof (o_num _ _ _ _ O v ltac:(apply in_or_app; now right)) as N. destruct v as [y|i]; [now destruct (Nv y)|]. destruct N as (N1 & y & N2). exists i.
  rewrite length_wipe_all by exact (own_ins _ _ _ _ _ O). split; [exact N1|]. rewrite wipe_all_other; [|exact (own_ins _ _ _ _ _ O)|].
  - destruct V as (V & _). cbn [num] in V. rewrite N2 in *. now subst.
  - intros Hi. clear - Hi F2 D V. induction F2 as [|w y ws zs Hw F2 IH]; [contradiction|]. inversion D; subst. destruct Hi as [->|Hi]; [|now apply IH].
    destruct H2 as [H2|H2]; [|now apply H2]. apply H2. destruct V as (V & _), Hw as (Hw & _). congruence.
Qed.

Lemma limbs_pos n : 1 <= n -> 1 <= z_limbs n.
Proof. intros Hn. pose proof (limbs_nonneg n). destruct (Z.eq_dec (z_limbs n) 0) as [E|]; [|lia]. pose proof (limbs_bound n ltac:(lia)) as B. rewrite E in B. change (256 ^ (8 * 0)) with 1 in B. lia. Qed.
Lemma half_57 nb n : 1 <= n -> 8 * z_limbs n <= (nb + 7) / 8 -> 57 <= nb.
Proof. intros Hn L. apply limbs_pos in Hn. pose proof (Z.div_mod (nb + 7) 8 ltac:(lia)). pose proof (Z.mod_pos_bound (nb + 7) 8 ltac:(lia)). lia. Qed.
Lemma phi_distinct zp zq ze zd zdp zdq zqinv : 2 ^ 56 <= zq -> zq < zp ->
  z_invert ze ((zp - 1) * (zq - 1)) = Ret zd -> z_rem zd (zp - 1) = Ret zdp -> z_rem zd (zq - 1) = Ret zdq -> z_invert zq zp = Ret zqinv ->
  2 ^ 62 <= (zp - 1) * (zq - 1) /\ Forall (fun y => y <> (zp - 1) * (zq - 1)) [zp * zq; ze; zd; zp; zq; zp - 1; zq - 1; zdp; zdq; zqinv].
Proof.
  intros Q56 Lt Ed Edp Edq Eqi. change (2 ^ 56) with 72057594037927936 in Q56.
  assert (zp < (zp - 1) * (zq - 1)) as B1 by nia. assert ((zp - 1) * (zq - 1) < zp * zq) as B2 by nia. assert (2 ^ 62 <= (zp - 1) * (zq - 1)) as B3 by (change (2 ^ 62) with 4611686018427387904; nia).
  apply invert_range in Eqi as (_ & Bqi). apply rem_value in Edp as (_ & Rdp). apply rem_value in Edq as (_ & Rdq). pose proof (invert_range _ _ _ Ed) as (_ & Bd).
  assert (0 <= zdp < zp - 1) as Bdp by (rewrite Rdp; apply Z.rem_bound_pos; lia). assert (0 <= zdq < zq - 1) as Bdq by (rewrite Rdq; apply Z.rem_bound_pos; lia). clear Rdp Rdq.
  assert (ze <> (zp - 1) * (zq - 1)) as Nze by (intros Eze; rewrite Eze in Ed; apply invert_self in Ed; [exact Ed|lia]). split; [exact B3|].
  clear Ed B3 Q56. generalize dependent ((zp - 1) * (zq - 1)). generalize (zp * zq). intros zn phi B1 B2 Bd Nze. repeat (apply Forall_cons; [lia|]). constructor.
Qed.
Lemma Forall_2nd {A} (h : heap) (P : Z -> Prop) (Q : A -> Z -> Prop) : forall ws zs, length ws = length zs -> Forall P zs -> (forall w y, P y -> Q w y) -> Forall2 Q ws zs.
Proof. induction ws as [|w ws IH]; intros [|z zs] L F H; try discriminate L; [constructor|]. inversion F; subst. constructor; [now apply H|]. apply IH; auto. Qed.

Section Rsa.
Variable share : heap -> Z -> list bn -> nat.
Variables (fresh : Z -> bytes) (R : rng) (np : Z -> Z).
Lemma nonneg_prime z : fresh_ok fresh -> rng_bytes R -> (forall n, 0 <= n -> prime (np n)) -> drawn_prime fresh R np z -> prime z.
Proof. intros F B NP (s & s' & o & nb & n & E & ->). apply NP. apply bn_random_inv in E; [|exact F|exact B]. destruct E as (H1 & H2 & _). pose proof (Z.pow_pos_nonneg 2 (nb - 1)). lia. Qed.
Lemma made_strings h0 e nb h k kv : rsa_made fresh R np h0 e nb h k kv ->
  (rsa_priv_of h (fst k), rsa_pub_of h (snd k)) = kv /\ NoDup (rsa_priv_strings (fst k) ++ rsa_pub_strings (snd k)) /\ Forall (fun a => (length h0 <= a < length h)%nat) (rsa_priv_strings (fst k) ++ rsa_pub_strings (snd k)).
Proof.
  intros (h1 & n & ev & d & p & q & p1 & q1 & dp & dq & qinv & phi & us & zn & ze & zd & zp & zq & zdp & zdq & zqinv & bn & bd & bp & bq & bdp & bdq & bqinv & be_ & H). cbv zeta in H.
  destruct H as (O & -> & _ & _ & _ & _ & _ & -> & S1 & S2 & _). pose proof (own_wipe_all _ _ _ _ _ O) as W.
  assert (forall a b, In (a, b) [(mrp_e (snd k), be_); (mrp_n (snd k), bn); (mrk_qinv (fst k), bqinv); (mrk_dq (fst k), bdq); (mrk_dp (fst k), bdp); (mrk_q (fst k), bq); (mrk_p (fst k), bp); (mrk_d (fst k), bd); (mrk_n (fst k), bn)] ->
    str (m_wipe_all [n; ev; d; p; q; p1; q1; dp; dq; qinv] h1) a = b) as St by (intros a b; exact (result_str _ _ _ _ a b W)).
  split; [|split].
  - unfold rsa_priv_of, rsa_pub_of. rewrite S1, S2. repeat f_equal; apply St; cbn [In]; mem.
  - pose proof (o_dup _ _ _ _ W) as D. cbn [map fst] in D. unfold rsa_priv_strings, rsa_pub_strings. cbn [app].
    apply NoDup_rev in D. cbn [rev app] in D. revert D. apply Permutation.Permutation_NoDup. do 7 apply Permutation.perm_skip. apply Permutation.Permutation_refl.
  - assert (forall a b, In (a, b) [(mrp_e (snd k), be_); (mrp_n (snd k), bn); (mrk_qinv (fst k), bqinv); (mrk_dq (fst k), bdq); (mrk_dp (fst k), bdp); (mrk_q (fst k), bq); (mrk_p (fst k), bp); (mrk_d (fst k), bd); (mrk_n (fst k), bn)] ->
      (length h0 <= a < length (m_wipe_all [n; ev; d; p; q; p1; q1; dp; dq; qinv] h1))%nat) as Lt by (intros a b Hab; exact (proj1 (o_str _ _ _ _ W a b Hab))).
    repeat (apply Forall_cons; [eapply Lt; cbn [In]; mem|]). constructor.
Qed.
Lemma rsa_new_key_ok fuel s h e nb :
  let r := m_rsa_new_key share fresh R np fuel (s, h) e nb in let v := rsa_new_key fresh R np fuel s e nb in let h' := snd (fst r) in
  fst (fst r) = fst v /\ keeps h h' /\ (olet k := snd r in Ret (rsa_priv_of h' (fst k), rsa_pub_of h' (snd k))) = snd v /\
  (forall k, snd r = Ret k -> let l := rsa_priv_strings (fst k) ++ rsa_pub_strings (snd k) in NoDup l /\ Forall (fun a => (length h <= a < length h')%nat) l).
Proof.
  cbv zeta. pose proof (rsa_new_key_agrees share fresh R np h fuel (s, h) e nb eq_refl) as (E & K & H). cbn [fst snd] in *. destruct (m_rsa_new_key share fresh R np fuel (s, h) e nb) as [[s1 h1] o]. cbn [fst snd] in *.
  split; [exact E|]. split; [exact K|]. destruct o as [k|ex| |], (snd (rsa_new_key fresh R np fuel s e nb)) as [kv|ex'| |]; try contradiction; cbn [obind].
  - pose proof (made_strings _ _ _ _ _ _ H) as (A & B & C). split; [now f_equal|]. intros k' Ek. injection Ek as <-. auto.
  - split; [now f_equal|discriminate].
  - split; [reflexivity|discriminate].
  - split; [reflexivity|discriminate].
Qed.
(* what remains: phi, and what was drawn *)
Lemma rsa_new_key_left fuel s h e nb s' h' k : m_rsa_new_key share fresh R np fuel (s, h) e nb = ((s', h'), Ret k) ->
  forall i, (length h <= i < length h')%nat -> ~ In i (rsa_priv_strings (fst k) ++ rsa_pub_strings (snd k)) -> cleared (cell_at h' i) \/
  exists z, cell_at h' i = Num z /\ (drawn fresh R np z \/ exists p q, drawn_prime fresh R np p /\ drawn_prime fresh R np q /\ z = (p - 1) * (q - 1)).
Proof.
  intros E i Hi Ni. pose proof (rsa_new_key_agrees share fresh R np h fuel (s, h) e nb eq_refl) as (_ & K & H). rewrite E in *. cbn [fst snd] in *.
  destruct (snd (rsa_new_key fresh R np fuel s e nb)) as [kv|ex'| |]; try contradiction.
  destruct H as (h1 & n & ev & d & p & q & p1 & q1 & dp & dq & qinv & phi & us & zn & ze & zd & zp & zq & zdp & zdq & zqinv & bn & bd & bp & bq & bdp & bdq & bqinv & be_ & H). cbv zeta in H.
  destruct H as (O & Eh & F & Vphi & _ & _ & _ & _ & _ & _ & Pp & Pq & _). pose proof (own_wipe_all _ _ _ _ _ O) as W. rewrite <- Eh in W.
  destruct (o_all _ _ _ _ W i Hi) as [C|[C|C]]; [now left| |].
  - assert (forall v z, In v (phi :: us) -> val h1 v z -> left_ h' v z) as L.
    { intros v z Hv V. rewrite Eh. apply (left_after _ _ _ _ _ _ _ O); [intros u Hu; apply in_or_app; now left|apply in_or_app; now right|exact V]. }
    destruct C as [C|C].
    + pose proof (L phi _ (or_introl eq_refl) Vphi) as Lp. rewrite C in Lp. destruct Lp as (_ & [Lp|Lp]); [right|left; now rewrite Lp]. exists ((zp - 1) * (zq - 1)). split; [exact Lp|]. right. exists zp, zq. auto.
    + rewrite Forall_forall in F. destruct (F _ C) as (z & V & D). destruct (L _ z (or_intror C) V) as (_ & [Lp|Lp]); [right|left; now rewrite Lp]. exists z. auto.
  - exfalso. apply Ni. unfold rsa_priv_strings, rsa_pub_strings. cbn [map fst app In] in *. repeat (destruct C as [C|C]; [mem|]). contradiction.
Qed.
Lemma rsa_phi_kept fuel s h e nb s' h' k : fresh_ok fresh -> rng_bytes R -> (forall n, 0 <= n -> prime (np n)) -> (forall x, e = Some x -> 0 < x) ->
  m_rsa_new_key share fresh R np fuel (s, h) e nb = ((s', h'), Ret k) ->
  exists i, (length h <= i < length h')%nat /\ cell_at h' i = Num ((be (str h' (mrk_p (fst k))) - 1) * (be (str h' (mrk_q (fst k))) - 1)).
Proof.
  intros F B NP He E. pose proof (rsa_new_key_agrees share fresh R np h fuel (s, h) e nb eq_refl) as (Es & K & H). rewrite E in *. cbn [fst snd] in *.
  destruct (rsa_new_key fresh R np fuel s e nb) as [sv [kv|ex'| |]] eqn:Ev; cbn [fst snd] in *; try contradiction. subst sv.
  pose proof (made_strings _ _ _ _ _ _ H) as (St & _). pose proof (new_key_inv fresh R np F B NP fuel s e nb s' kv He Ev) as (N32 & Nh & Sp & _ & Lm & _). rewrite <- St in Sp, Lm. unfold new_key_spec in Sp. cbv zeta in Sp.
  cbn [fst snd rsa_priv_of rsa_pub_of rk_p rk_q rk_size rp_size rk_n rk_d rk_dp rk_dq rk_qinv rp_n rp_e] in Sp, Lm.
  destruct H as (h1 & n & ev & d & p & q & p1 & q1 & dp & dq & qinv & phi & us & zn & ze & zd & zp & zq & zdp & zdq & zqinv & bn & bd & bp & bq & bdp & bdq & bqinv & be_ & H). cbv zeta in H.
  destruct H as (O & Eh & _ & Vphi & Cphi & F2 & Hev & Ekv & _ & _ & Pp & Pq & Ezn & Ed & Edp & Edq & Eqi & _ & _ & Ebp & Ebq).
  pose proof (prime_ge_2 _ (nonneg_prime _ F B NP Pp)) as Hp. pose proof (prime_ge_2 _ (nonneg_prime _ F B NP Pq)) as Hq.
  apply to_bytes_inv in Ebp as (_ & _ & _ & Ebp & _); [|clear - Hp; lia|clear - N32 Nh; lia]. apply to_bytes_inv in Ebq as (_ & _ & _ & Ebq & _); [|clear - Hq; lia|clear - N32 Nh; lia].
  rewrite Ekv in St. injection St as _ _ _ Sbp Sbq _ _ _ _ _ _. rewrite Sbp, Sbq, Ebp, Ebq in *.
  destruct Sp as (_ & _ & _ & _ & _ & _ & _ & Lt & Lq & Up & _).
  assert (57 <= nb / 2) as N57. { rewrite Z.quot_div_nonneg in Lm by (clear - N32; lia). apply (half_57 _ zp); [clear - Hp; lia|exact Lm]. }
  assert (2 ^ 56 <= zq) as Q56 by (eapply Z.le_trans; [|exact Lq]; apply Z.pow_le_mono_r; clear - N57; lia).
  destruct (phi_distinct _ _ _ _ _ _ _ Q56 Lt Ed Edp Edq Eqi) as (B62 & Dist). rewrite <- Ezn in Dist. clear - O Eh Vphi Cphi F2 B62 Dist.
  rewrite Eh. eapply (kept_block _ _ _ _ _ phi _ _ O); [now left|exact Vphi| |exact F2|].
  - intros y Ey. rewrite Ey in Vphi. destruct Vphi as (Vphi & _). cbn [num] in Vphi. rewrite !Forall_forall in Dist. destruct (Cphi y Ey) as [C|[C|C]]; [unfold immediate in C; lia| |]; (apply (Dist y); [rewrite C; cbn [In]; mem|exact Vphi]).
  - eapply Forall_2nd; [exact h1|reflexivity|exact Dist|]. intros w y Hy. now left.
Qed.
End Rsa.

Section Pai.
Variable share : heap -> Z -> list bn -> nat.
Variables (fresh : Z -> bytes) (R : rng) (np : Z -> Z).
Lemma pai_made_strings h0 nb h k kv : pai_made fresh R np h0 nb h k kv ->
  (pai_priv_of h (fst k), pai_pub_of h (snd k)) = kv /\ NoDup (pai_priv_strings (fst k) ++ pai_pub_strings (snd k)) /\ Forall (fun a => (length h0 <= a < length h)%nat) (pai_priv_strings (fst k) ++ pai_pub_strings (snd k)).
Proof.
  intros (h1 & n & n2 & g & p & q & p1 & q1 & lambda & mu & us & zp & zq & zmu & bn & bn2 & bp & bq & bl & bmu & bg & H). cbv zeta in H.
  destruct H as (O & -> & _ & _ & _ & _ & -> & S1 & S2 & _). pose proof (own_wipe_all _ _ _ _ _ O) as W.
  set (ss := [(mpp_g (snd k), bg); (mpp_n2 (snd k), bn2); (mpp_n (snd k), bn); (mpk_mu (fst k), bmu); (mpk_lambda (fst k), bl); (mpk_q (fst k), bq); (mpk_p (fst k), bp); (mpk_n2 (fst k), bn2); (mpk_n (fst k), bn)]) in *.
  assert (forall a b, In (a, b) ss -> str (m_wipe_all [n; n2; g; p; q; p1; q1; lambda; mu] h1) a = b) as St by (intros a b; exact (result_str _ _ _ _ a b W)).
  split; [|split].
  - unfold pai_priv_of, pai_pub_of. rewrite S1, S2. repeat f_equal; apply St; unfold ss; cbn [In]; mem.
  - pose proof (o_dup _ _ _ _ W) as D. unfold ss in D. cbn [map fst] in D. unfold pai_priv_strings, pai_pub_strings. cbn [app].
    apply NoDup_rev in D. cbn [rev app] in D. revert D. apply Permutation.Permutation_NoDup. do 6 apply Permutation.perm_skip. apply Permutation.Permutation_refl.
  - assert (forall a b, In (a, b) ss -> (length h0 <= a < length (m_wipe_all [n; n2; g; p; q; p1; q1; lambda; mu] h1))%nat) as Lt by (intros a b Hab; exact (proj1 (o_str _ _ _ _ W a b Hab))).
    repeat (apply Forall_cons; [eapply Lt; unfold ss; cbn [In]; mem|]). constructor.
Qed.
Lemma pai_new_key_ok fuel s h nb :
  let r := m_pai_new_key share fresh R np fuel (s, h) nb in let v := pai_new_key fresh R np fuel s nb in let h' := snd (fst r) in
  fst (fst r) = fst v /\ keeps h h' /\ (olet k := snd r in Ret (pai_priv_of h' (fst k), pai_pub_of h' (snd k))) = snd v /\
  (forall k, snd r = Ret k -> let l := pai_priv_strings (fst k) ++ pai_pub_strings (snd k) in NoDup l /\ Forall (fun a => (length h <= a < length h')%nat) l).
Proof.
  cbv zeta. pose proof (pai_new_key_agrees share fresh R np h fuel (s, h) nb eq_refl) as (E & K & H). cbn [fst snd] in *. destruct (m_pai_new_key share fresh R np fuel (s, h) nb) as [[s1 h1] o]. cbn [fst snd] in *.
  split; [exact E|]. split; [exact K|]. destruct o as [k|ex| |], (snd (pai_new_key fresh R np fuel s nb)) as [kv|ex'| |]; try contradiction; cbn [obind].
  - pose proof (pai_made_strings _ _ _ _ _ H) as (A & B & C). split; [now f_equal|]. intros k' Ek. injection Ek as <-. auto.
  - split; [now f_equal|discriminate].
  - split; [reflexivity|discriminate].
  - split; [reflexivity|discriminate].
Qed.
Lemma pai_new_key_left fuel s h nb s' h' k : m_pai_new_key share fresh R np fuel (s, h) nb = ((s', h'), Ret k) ->
  forall i, (length h <= i < length h')%nat -> ~ In i (pai_priv_strings (fst k) ++ pai_pub_strings (snd k)) -> cleared (cell_at h' i) \/
  exists z, cell_at h' i = Num z /\ drawn_product fresh R np z.
Proof.
  intros E i Hi Ni. pose proof (pai_new_key_agrees share fresh R np h fuel (s, h) nb eq_refl) as (_ & K & H). rewrite E in *. cbn [fst snd] in *.
  destruct (snd (pai_new_key fresh R np fuel s nb)) as [kv|ex'| |]; try contradiction.
  destruct H as (h1 & n & n2 & g & p & q & p1 & q1 & lambda & mu & us & zp & zq & zmu & bn & bn2 & bp & bq & bl & bmu & bg & H). cbv zeta in H.
  destruct H as (O & Eh & F & _). pose proof (own_wipe_all _ _ _ _ _ O) as W. rewrite <- Eh in W.
  destruct (o_all _ _ _ _ W i Hi) as [C|[C|C]]; [now left| |].
  - rewrite Forall_forall in F. destruct (F _ C) as (z & V & D). assert (left_ h' (Blk i) z) as (_ & [Lp|Lp]); [|right; exists z; auto|left; now rewrite Lp].
    rewrite Eh. apply (left_after _ _ _ _ _ _ _ O); [intros u Hu; apply in_or_app; now left|apply in_or_app; now right|exact V].
  - exfalso. apply Ni. unfold pai_priv_strings, pai_pub_strings. cbn [map fst app In] in *. repeat (destruct C as [C|C]; [mem|]). contradiction.
Qed.
Lemma lcm_smaller p q : Z.odd p = true -> Z.odd q = true -> 2 < p -> 2 < q -> 0 <= Z.lcm (p - 1) (q - 1) < (p - 1) * (q - 1).
Proof.
  intros Op Oq Hp Hq. split; [apply Z.lcm_nonneg|]. destruct (Zdivide_dec 2 (p - 1)) as [(a & Ea)|N]; [|exfalso; apply N; apply Zmod_divide; [lia|]; rewrite Zmod_odd, Z.odd_sub, Op; reflexivity].
  destruct (Zdivide_dec 2 (q - 1)) as [(b & Eb)|N]; [|exfalso; apply N; apply Zmod_divide; [lia|]; rewrite Zmod_odd, Z.odd_sub, Oq; reflexivity].
  assert (Z.lcm (p - 1) (q - 1) | a * (q - 1)) as D by (apply Z.lcm_least; [exists b; lia|exists a; lia]). apply Z.divide_pos_le in D; nia.
Qed.
Lemma pai_phi_kept fuel s h nb s' h' k : fresh_ok fresh -> rng_bytes R -> (forall n, 0 <= n -> prime (np n)) -> nb <= 2 ^ 50 ->
  m_pai_new_key share fresh R np fuel (s, h) nb = ((s', h'), Ret k) ->
  exists i, (length h <= i < length h')%nat /\ cell_at h' i = Num ((be (str h' (mpk_p (fst k))) - 1) * (be (str h' (mpk_q (fst k))) - 1)).
Proof.
  intros F B NP Hnb E. pose proof (pai_new_key_agrees share fresh R np h fuel (s, h) nb eq_refl) as (Es & K & H). rewrite E in *. cbn [fst snd] in *.
  destruct (pai_new_key fresh R np fuel s nb) as [sv [kv|ex'| |]] eqn:Ev; cbn [fst snd] in *; try contradiction. subst sv.
  pose proof (pai_made_strings _ _ _ _ _ H) as (St & _). pose proof (pai_new_key_inv fresh R np F B NP fuel s nb s' kv Hnb Ev) as (_ & _ & _ & N32' & _).
  destruct H as (h1 & n & n2 & g & p & q & p1 & q1 & lambda & mu & us & zp & zq & zmu & bn & bn2 & bp & bq & bl & bmu & bg & H). cbv zeta in H.
  destruct H as (O & Eh & _ & (phi & Iphi & Vphi & Cphi) & F2 & Hmu & Ekv & _ & _ & Pp & Pq & (f' & sa & sb & Eg) & N32 & Ebp & Ebq).
  pose proof (pai_gen_factors_inv fresh R np F B NP f' sa _ sb _ Eg) as (Gp & Gq & Npq & _). cbn [fst snd] in *. pose proof (prime_ge_2 _ (proj1 Gp)) as Hp. pose proof (prime_ge_2 _ (proj1 Gq)) as Hq.
  apply to_bytes_inv in Ebp as (_ & _ & _ & Ebp & Lm); [|clear - Hp; lia|destruct Gp; lia]. apply to_bytes_inv in Ebq as (_ & _ & _ & Ebq & _); [|clear - Hq; lia|destruct Gp; lia].
  rewrite Ekv in St. injection St as _ _ _ Sbp Sbq _ _ _ _ _ _. rewrite Sbp, Sbq, Ebp, Ebq.
  assert (57 <= Z.quot nb 2) as N57 by (apply (half_57 _ zp); [clear - Hp; lia|exact Lm]).
  assert (2 ^ 56 <= zq) as Q56 by (eapply Z.le_trans; [|apply (proj2 (proj2 Gq))]; apply Z.pow_le_mono_r; clear - N57; lia).
  assert (2 ^ 56 <= zp) as P56 by (eapply Z.le_trans; [|apply (proj2 (proj2 Gp))]; apply Z.pow_le_mono_r; clear - N57; lia).
  change (2 ^ 56) with 72057594037927936 in *.
  assert (forall z, prime z -> 2 < z -> Z.odd z = true) as Odd.
  { intros z Pz Hz. destruct (Z.odd z) eqn:Oz; [reflexivity|]. exfalso. assert (2 | z) as D by (apply Zmod_divide; [lia|]; rewrite Zmod_odd, Oz; reflexivity). apply (prime_divisors z Pz) in D. lia. }
  pose proof (lcm_smaller zp zq (Odd zp (proj1 Gp) ltac:(lia)) (Odd zq (proj1 Gq) ltac:(lia)) ltac:(lia) ltac:(lia)) as Lc.
  assert (zp < (zp - 1) * (zq - 1)) as B1 by (clear - P56 Q56; nia). assert (zq < (zp - 1) * (zq - 1)) as B1' by (clear - P56 Q56; nia). assert ((zp - 1) * (zq - 1) < zp * zq) as B2 by (clear - P56 Q56; nia).
  assert (2 ^ 62 <= (zp - 1) * (zq - 1)) as B62 by (clear - P56 Q56; change (2 ^ 62) with 4611686018427387904; nia).
  assert (zp * zq < zp * zq * (zp * zq)) as B3 by (clear - P56 Q56; nia).
  assert (forall y, phi <> Imm y) as Nphi.
  { intros y Ey. rewrite Ey in Vphi. destruct Vphi as (Vphi & _). cbn [num] in Vphi. destruct (Cphi y Ey) as [C|[C|C]]; [unfold immediate in C; clear - C Vphi B62; lia|clear - C Vphi B1; lia|clear - C Vphi B1'; lia]. }
  assert (forall w zw, val h1 w zw -> zw <> (zp - 1) * (zq - 1) -> w <> phi) as Dw by (intros w zw Vw Hz ->; apply Hz; destruct Vw as (Vw & _), Vphi as (Vphi & _); congruence).
  assert (val h1 n (zp * zq)) as Vn by (inversion F2; assumption).
  assert (val h1 lambda (Z.lcm (zp - 1) (zq - 1))) as Vl by (do 7 (inversion F2 as [|? ? ? ? _ F3]; subst; clear F2; rename F3 into F2); inversion F2; assumption).
  rewrite Eh. eapply (kept_block _ _ _ _ _ phi _ _ O); [exact Iphi|exact Vphi|exact Nphi|exact F2|].
  assert (mu <> phi) as Nmu by (intros Em; destruct (Hmu phi Iphi Em) as [(y & Ey)|[Ey|Ey]]; [exact (Nphi y Ey)|symmetry in Ey; revert Ey; apply (Dw _ _ Vl); clear - Lc; lia|symmetry in Ey; revert Ey; apply (Dw _ _ Vn); clear - B2; lia]).
  clear - Nmu B1 B1' B2 B3 Lc. generalize dependent ((zp - 1) * (zq - 1)). generalize dependent (zp * zq). intros zn B3 ph Lc B1 B1' B2. generalize dependent (Z.lcm (zp - 1) (zq - 1)). generalize dependent (zn * zn). intros.
  repeat (apply Forall2_cons; [(right; exact Nmu) || (left; lia)|]). constructor.
Qed.
End Pai.
