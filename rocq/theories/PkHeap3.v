(* Key generation over a memory. *)
From Verif Require Import Prelude PreludeFacts BytesNum HashModel RngModel BnModel PkModel BnHeapModel SpecPkMem BnHeap PkHeap PkHeap2.

Section Keys.
Variable share : heap -> Z -> list bn -> nat.
Variable fresh : Z -> bytes.
Variable R : rng.
Variable np : Z -> Z.
Notation mst := (ms R).

(* both the memory and the generator *)
Definition agrees_s {A B} (h0 : heap) (r : mst * out A) (p : r_st R * out B) (Q : heap -> A -> B -> Prop) : Prop :=
  fst (fst r) = fst p /\ agrees h0 (snd (fst r), snd r) (snd p) Q.
Lemma s_bind {A B C D} h0 (r : mst * out A) (p : r_st R * out B) (k : mst -> A -> mst * out C) (k' : r_st R -> B -> r_st R * out D) Q Q' :
  agrees_s h0 r p Q -> (forall s a b, p = (fst s, Ret b) -> Q (snd s) a b -> agrees_s h0 (k s a) (k' (fst s) b) Q') -> agrees_s h0 (bind r k) (bind p k') Q'.
Proof.
  intros (E & K & H) G. destruct r as [[rs h] [a|e| |]], p as [rs' [b|e'| |]]; cbn [fst snd bind] in *; try contradiction; subst; try (split; [reflexivity|split; [exact K|exact H || reflexivity]]).
  exact (G (rs', h) a b eq_refl H).
Qed.
(* a step on the memory only, of a known value *)
Lemma s_let {A B C D} h0 s (r : heap * out A) (b : B) (k : mst -> A -> mst * out C) (p : r_st R * out D) Q Q' :
  agrees h0 r (Ret b) Q -> (forall h a, Q h a b -> agrees_s h0 (k (fst s, h) a) p Q') -> agrees_s h0 (bind (on_heap R s r) k) p Q'.
Proof.
  intros (K & H) G. destruct r as [h [a|e| |]]; cbn [fst snd] in *; try contradiction. cbn [on_heap lift bind]. now apply G.
Qed.
Lemma s_end {A B} h0 s (r : heap * out A) (p : out B) Q : agrees h0 r p Q -> agrees_s h0 (on_heap R s r) (fst s, p) Q.
Proof. intros H. destruct r as [h o]. split; [reflexivity|exact H]. Qed.
Lemma s_ret {A B} h0 (s : mst) (a : A) (b : B) (Q : heap -> A -> B -> Prop) : keeps h0 (snd s) -> Q (snd s) a b -> agrees_s h0 (s, Ret a) (fst s, Ret b) Q.
Proof. intros K H. split; [reflexivity|split; [exact K|exact H]]. Qed.
Lemma s_hang {A B} h0 (s : mst) Q : keeps h0 (snd s) -> @agrees_s A B h0 (s, Hang) (fst s, Hang) Q.
Proof. intros K. split; [reflexivity|split; [exact K|exact I]]. Qed.
Lemma s_weaken {A B} h0 (r : mst * out A) (p : r_st R * out B) (Q Q' : heap -> A -> B -> Prop) : agrees_s h0 r p Q -> (forall h a b, Q h a b -> Q' h a b) -> agrees_s h0 r p Q'.
Proof. intros (E & H) G. split; [exact E|]. exact (agrees_weaken _ _ _ _ _ H G). Qed.

Lemma random_agrees h0 (s : mst) vs ss odd nb : own h0 (snd s) vs ss ->
  agrees_s h0 (m_random share fresh R s odd nb) (bn_random fresh R (fst s) odd nb) (fun h v z => (own h0 h (v :: vs) ss /\ val h v z) /\ keeps (snd s) h).
Proof.
  intros O. unfold m_random, bn_random. destruct s as [rs h]. cbn [fst snd] in *. cbv zeta.
  destruct (rng_string fresh R rs (Z.quot (nb + 7) 8)) as [rs1 [buf|e| |]]; cbn [lift bind fst snd]; try (split; [reflexivity|split; [apply O|reflexivity || exact I]]).
  destruct (if odd then _ else _) as [buf1|e| |]; cbn [bind fst snd]; try (split; [reflexivity|split; [apply O|reflexivity || exact I]]).
  destruct (change_byte buf1 _ _) as [buf2|e| |]; cbn [bind fst snd]; try (split; [reflexivity|split; [apply O|reflexivity || exact I]]).
  unfold alloc. pose proof (own_alloc_str _ _ _ _ buf2 O) as O1. assert (str (h ++ [Str buf2]) (length h) = buf2) as E1 by (unfold str; now rewrite cell_app_r). rewrite E1.
  destruct (z_res_ok share h0 (h ++ [Str buf2]) vs _ (le buf2) [] O1) as (h2 & v & -> & K2 & G1 & G2 & G3); [intros u []|].
  assert (length h < length h2)%nat as L2 by (destruct K2 as (K2 & _); rewrite app_length in K2; cbn [length] in K2; lia).
  pose proof (own_wipe_str _ _ _ _ _ _ G1) as O2. assert (keeps h (m_wipe_bytes h2 (length h))) as K3 by (apply keeps_store; [exact (keeps_trans _ _ _ (keeps_app _ _) K2)|lia]).
  assert (val (m_wipe_bytes h2 (length h)) v (le buf2)) as V2.
  { destruct G2 as (V1 & V2). split; [|destruct v; [exact I|]; unfold m_wipe_bytes; rewrite length_store by lia; exact V2]. rewrite <- V1. destruct v as [z|b]; [reflexivity|]. cbn [num].
    unfold m_wipe_bytes. rewrite store_other; [reflexivity|lia|]. intros ->. pose proof (o_num _ _ _ _ G1 _ (or_introl eq_refl)) as (_ & z & Hz).
    pose proof (o_str _ _ _ _ G1 _ _ (or_introl eq_refl)) as (_ & Hs). congruence. }
  rewrite (proj1 V2). destruct (negb _); [split; [reflexivity|split; [apply O2|reflexivity]]|].
  destruct (odd && _); [split; [reflexivity|split; [apply O2|reflexivity]]|].
  split; [reflexivity|split; [apply O2|]]. cbn [snd fst]. auto.
Qed.

Definition Dr (h : heap) (u : bn) : Prop := exists z, val h u z /\ drawn fresh R np z.
Lemma Dr_keep h h' u : keeps h h' -> Dr h u -> Dr h' u.
Proof. intros K (z & V & D). exists z. split; [exact (val_keep _ _ _ _ K V)|exact D]. Qed.
Definition gens (h0 h : heap) vs ss (P : Z -> Prop) (h' : heap) (v : bn) (z : Z) : Prop :=
  (exists us, own h0 h' (v :: us ++ vs) ss /\ Forall (Dr h') us) /\ val h' v z /\ P z /\ keeps h h'.
Definition is_prime := drawn_prime fresh R np.
Definition is_num z := exists s s' odd nb n, bn_random fresh R s odd nb = (s', Ret n) /\ z = n.
Lemma prime_drawn z : is_prime z -> drawn fresh R np z /\ drawn fresh R np (z - 1) /\ forall y, drawn fresh R np (Z.gcd (z - 1) y).
Proof. intros (s & s' & o & nb & n & E & ->). splits; [|..|intros y]; exists s, s', o, nb, n; (split; [exact E|]); [auto|auto|right; right; right; exists y; auto]. Qed.
Lemma num_drawn z : is_num z -> drawn fresh R np z /\ forall y, drawn fresh R np (Z.gcd z y).
Proof. intros (s & s' & o & nb & n & E & ->). splits; [|intros y]; exists s, s', o, nb, n; (split; [exact E|]); [auto|right; right; right; exists y; auto]. Qed.
Lemma random_prime_agrees h0 vs ss nb : forall fuel (s : mst) us, own h0 (snd s) (us ++ vs) ss -> Forall (Dr (snd s)) us ->
  agrees_s h0 (m_random_prime share fresh R np fuel s nb) (bn_random_prime fresh R np fuel (fst s) nb) (gens h0 (snd s) vs ss is_prime).
Proof.
  induction fuel as [|fuel IH]; intros s us O F; cbn [m_random_prime bn_random_prime]; [apply s_hang, O|].
  eapply s_bind; [apply (random_agrees h0 s _ ss true nb O)|]. intros s1 n z En ((O1 & V1) & K1). cbv zeta.
  eapply s_let; [eapply do_z; [exact O1|rewrite (proj1 V1); reflexivity|kn]|]. intros h p (G & K). cbn [fst snd].
  assert (is_num z) as Nz by (exists (fst s), (fst s1), true, nb, z; auto). assert (is_prime (np z)) as Pz by (exists (fst s), (fst s1), true, nb, z; auto).
  pose proof (keeps_trans _ _ _ K1 K) as K2.
  assert (Forall (Dr h) (n :: us)) as F2.
  { constructor; [exists z; split; [exact (val_keep _ _ _ _ K V1)|apply (num_drawn z Nz)]|]. eapply Forall_impl; [|exact F]. intros u. now apply Dr_keep. }
  rewrite (proj1 (proj1 (proj2 G))). destruct (_ =? _).
  - apply (s_ret h0 (fst s1, h) p (np z)); cbn [snd]; [apply (proj1 G)|]. split; [exists (n :: us); split; [apply G|exact F2]|]. splits; [apply G|exact Pz|exact K2].
  - eapply s_weaken; [apply (IH (fst s1, h) (p :: n :: us)); cbn [snd]; [apply G|constructor; [exists (np z); split; [apply G|apply (prime_drawn _ Pz)]|exact F2]]|].
    intros h' v y (A & B & C & D). cbn [snd] in D. split; [exact A|splits; [exact B|exact C|exact (keeps_trans _ _ _ K2 D)]].
Qed.
Lemma rel_prime_agrees h0 h vs ss a b za zb : own h0 h vs ss -> val h a za -> val h b zb -> known vs a -> known vs b ->
  agrees h0 (m_relative_prime share h a b) (Ret (bn_relative_prime za zb)) (fun h' x y => x = y /\ (exists g, own h0 h' (g :: vs) ss /\ val h' g (Z.gcd za zb)) /\ keeps h h').
Proof.
  intros O Va Vb Ka Kb. unfold m_relative_prime, bn_relative_prime. eapply do_zlet; [exact O|rewrite (proj1 Va), (proj1 Vb); reflexivity|kn|].
  intros h' g G K. split; [apply (proj1 G)|]. cbn [fst snd]. rewrite (proj1 (proj1 (proj2 G))). split; [reflexivity|]. split; [exists g; split; apply G|exact K].
Qed.
Lemma Drs_keep h h' us : keeps h h' -> Forall (Dr h) us -> Forall (Dr h') us.
Proof. intros K. apply Forall_impl. intros u. now apply Dr_keep. Qed.
Lemma gens_from h0 h h1 vs ss P h' v z : keeps h h1 -> gens h0 h1 vs ss P h' v z -> gens h0 h vs ss P h' v z.
Proof. intros K (A & B & C & D). split; [exact A|splits; [exact B|exact C|exact (keeps_trans _ _ _ K D)]]. Qed.
Lemma gen_factor_agrees h0 vs ss nb e : forall fuel (s : mst) us, own h0 (snd s) (us ++ vs) ss -> Forall (Dr (snd s)) us ->
  agrees_s h0 (m_gen_factor share fresh R np fuel s e nb) (gen_factor fresh R np fuel (fst s) e nb) (gens h0 (snd s) vs ss is_prime).
Proof.
  induction fuel as [|fuel IH]; intros s us O F; cbn [m_gen_factor gen_factor]; [apply s_hang, O|].
  eapply s_bind; [apply (random_prime_agrees h0 vs ss nb (S fuel) s us O F)|]. intros s1 p z En ((us1 & O1 & F1) & V1 & P1 & K1). pose proof (prime_drawn z P1) as (D1 & D2 & D3).
  destruct e as [e|].
  - eapply s_let; [eapply do_z; [exact O1|rewrite (proj1 V1); reflexivity|kn]|]. intros h n1 (G & K). cbn [fst snd].
    pose proof (proj1 G) as O2. pose proof (proj1 (proj2 G)) as V2. cbn [num] in V2.
    eapply s_let; [eapply (rel_prime_agrees h0 h _ ss n1 (Imm e) _ e O2 V2 (val_imm _ _)); [apply known_head|right; eexists; reflexivity]|].
    intros h3 ok (-> & (g & O3 & V3) & K3). cbn [fst snd]. pose proof (keeps_trans _ _ _ K K3) as K4. pose proof (keeps_trans _ _ _ K1 K4) as K5.
    assert (Forall (Dr h3) ([g; n1] ++ us1)) as F3.
    { repeat (apply Forall_cons); [exists (Z.gcd (z - 1) e); auto|exists (z - 1); split; [exact (val_keep _ _ _ _ K3 V2)|exact D2]|exact (Drs_keep _ _ _ K4 F1)]. }
    destruct (bn_relative_prime (z - 1) e).
    + apply (s_ret h0 (fst s1, h3) p z); cbn [snd]; [apply O3|]. split; [exists ([g; n1] ++ us1); split; [apply (own_incl _ _ _ _ _ O3); same_elements|exact F3]|].
      splits; [exact (val_keep _ _ _ _ K4 V1)|exact P1|exact K5].
    + eapply s_weaken; [apply (IH (fst s1, h3) (p :: [g; n1] ++ us1)); cbn [snd]|].
      * apply (own_incl _ _ _ _ _ O3); same_elements.
      * constructor; [exists z; split; [exact (val_keep _ _ _ _ K4 V1)|exact D1]|exact F3].
      * intros h' v y. now apply gens_from.
  - apply (s_ret h0 s1 p z); [apply O1|]. split; [exists us1; auto|auto].
Qed.
Definition gens2 (h0 h : heap) vs ss (h' : heap) (v : bn * bn) (z : Z * Z) : Prop :=
  (exists us, own h0 h' (fst v :: snd v :: us ++ vs) ss /\ Forall (Dr h') us) /\ val h' (fst v) (fst z) /\ val h' (snd v) (snd z) /\ is_prime (fst z) /\ is_prime (snd z) /\ keeps h h'.
Lemma gen_factors_agrees h0 vs ss nb e : forall fuel (s : mst) us, own h0 (snd s) (us ++ vs) ss -> Forall (Dr (snd s)) us ->
  agrees_s h0 (m_gen_factors share fresh R np fuel s e nb) (gen_factors fresh R np fuel (fst s) e nb) (gens2 h0 (snd s) vs ss).
Proof.
  induction fuel as [|fuel IH]; intros s us O F; [apply s_hang, O|]. cbn [m_gen_factors gen_factors].
  eapply s_bind; [apply (gen_factor_agrees h0 vs ss nb e (S fuel) s us O F)|]. intros s1 q zq Eq ((us1 & O1 & F1) & V1 & P1 & K1).
  eapply s_bind; [apply (gen_factor_agrees h0 (q :: us1 ++ vs) ss nb e (S fuel) s1 [] O1 (Forall_nil _))|]. intros s2 p zp Ep ((us2 & O2 & F2) & V2 & P2 & K2).
  pose proof (val_keep _ _ _ _ K2 V1) as V3. pose proof (Drs_keep _ _ _ K2 F1) as F3. pose proof (keeps_trans _ _ _ K1 K2) as K3.
  rewrite (proj1 V2), (proj1 V3). assert (Forall (Dr (snd s2)) (us2 ++ us1)) as F4 by (apply Forall_app; auto).
  destruct (zp =? zq).
  - eapply s_weaken; [apply (IH s2 (p :: q :: us2 ++ us1))|].
    + apply (own_incl _ _ _ _ _ O2). same_elements.
    + repeat (apply Forall_cons); [exists zp; split; [exact V2|now apply prime_drawn]|exists zq; split; [exact V3|now apply prime_drawn]|exact F4].
    + intros h' v y (A & B & C & D & E & G). exact (conj A (conj B (conj C (conj D (conj E (keeps_trans _ _ _ K3 G)))))).
  - destruct (zp <? zq); (apply s_ret; [apply O2|]); (split; [exists (us2 ++ us1); split; [apply (own_incl _ _ _ _ _ O2); cbn [fst snd]; same_elements|exact F4]|]); cbn [fst snd]; auto.
Qed.
Lemma gen_exponent_agrees h0 vs ss nb p1 q1 zp1 zq1 : In p1 vs -> In q1 vs -> forall fuel (s : mst) us, own h0 (snd s) (us ++ vs) ss -> Forall (Dr (snd s)) us -> val (snd s) p1 zp1 -> val (snd s) q1 zq1 ->
  agrees_s h0 (m_gen_exponent share fresh R fuel s nb p1 q1) (gen_exponent fresh R fuel (fst s) nb zp1 zq1) (gens h0 (snd s) vs ss is_num).
Proof.
  intros Ip Iq. induction fuel as [|fuel IH]; intros s us O F Vp Vq; [apply s_hang, O|]. cbn [m_gen_exponent gen_exponent].
  eapply s_bind; [apply (random_agrees h0 s _ ss false nb O)|]. intros s1 n z En ((O1 & V1) & K1). assert (is_num z) as Nz by (exists (fst s), (fst s1), false, nb, z; auto).
  pose proof (num_drawn z Nz) as (D1 & D2).
  eapply s_let; [eapply (rel_prime_agrees h0 (snd s1) _ ss n p1 _ zp1 O1 V1); [exact (val_keep _ _ _ _ K1 Vp)|apply known_head|left; right; apply in_or_app; now right]|].
  intros h2 ok (-> & (g & O2 & V2) & K2). cbn [fst snd]. pose proof (keeps_trans _ _ _ K1 K2) as K3.
  assert (Forall (Dr h2) (g :: us)) as F2 by (constructor; [exists (Z.gcd z zp1); auto|exact (Drs_keep _ _ _ K3 F)]).
  destruct (bn_relative_prime z zp1); cbn [andb].
  - eapply (s_let h0 (fst s1, h2)); [eapply (rel_prime_agrees h0 h2 _ ss n q1 z zq1 O2); [exact (val_keep _ _ _ _ K2 V1)|exact (val_keep _ _ _ _ K3 Vq)|left; right; now left|left; right; right; apply in_or_app; now right]|].
    intros h4 ok (-> & (g2 & O4 & V4) & K4). cbn [fst snd]. pose proof (keeps_trans _ _ _ K3 K4) as K5.
    assert (Forall (Dr h4) (g2 :: g :: us)) as F4 by (constructor; [exists (Z.gcd z zq1); auto|exact (Drs_keep _ _ _ K4 F2)]).
    pose proof (val_keep _ _ _ _ (keeps_trans _ _ _ K2 K4) V1) as V5.
    destruct (bn_relative_prime z zq1).
    + apply (s_ret h0 (fst s1, h4) n z); cbn [snd]; [apply O4|]. split; [exists (g2 :: g :: us); split; [apply (own_incl _ _ _ _ _ O4); same_elements|exact F4]|]. auto.
    + eapply s_weaken; [apply (IH (fst s1, h4) (n :: g2 :: g :: us)); cbn [snd]|].
      * apply (own_incl _ _ _ _ _ O4); same_elements.
      * constructor; [exists z; auto|exact F4].
      * exact (val_keep _ _ _ _ K5 Vp).
      * exact (val_keep _ _ _ _ K5 Vq).
      * intros h' v y. now apply gens_from.
  - cbn [bind]. eapply s_weaken; [apply (IH (fst s1, h2) (n :: g :: us)); cbn [snd]|].
    + apply (own_incl _ _ _ _ _ O2); same_elements.
    + constructor; [exists z; split; [exact (val_keep _ _ _ _ K2 V1)|exact D1]|exact F2].
    + exact (val_keep _ _ _ _ K3 Vp).
    + exact (val_keep _ _ _ _ K3 Vq).
    + intros h' v y. now apply gens_from.
Qed.

Lemma do_tbind {A B} h0 h vs ss nb n z (k : heap -> nat -> heap * out A) (k' : bytes -> out B) Q : own h0 h vs ss -> val h n z ->
  (forall h' t b, bn_to_bytes nb z = Ret b -> own h0 h' vs ((t, b) :: ss) -> keeps h h' -> agrees h0 (k h' t) (k' b) Q) -> agrees h0 (bind (m_to_bytes h nb n) k) (obind (bn_to_bytes nb z) k') Q.
Proof.
  intros O V G. pose proof (do_to_bytes share h0 h vs ss nb n z O V) as (K & H). destruct (m_to_bytes h nb n) as [h' [t|e| |]], (bn_to_bytes nb z) as [b|e'| |]; cbn [fst snd bind obind] in *; try contradiction; try (split; [exact K|exact H]).
  destruct H. now apply G.
Qed.
Lemma do_tlet {A B} h0 h vs ss nb n z b (k : heap -> nat -> heap * out A) (p : out B) Q : own h0 h vs ss -> val h n z -> bn_to_bytes nb z = Ret b ->
  (forall h' t, own h0 h' vs ((t, b) :: ss) -> keeps h h' -> agrees h0 (k h' t) p Q) -> agrees h0 (bind (m_to_bytes h nb n) k) p Q.
Proof.
  intros O V E G. pose proof (do_to_bytes share h0 h vs ss nb n z O V) as (K & H). rewrite E in H. destruct (m_to_bytes h nb n) as [h' [t|e| |]]; cbn [fst snd bind] in *; try contradiction. destruct H. now apply G.
Qed.
Ltac tb := eapply do_tbind; [eassumption|eassumption|let h := fresh "h" in let t := fresh "t" in let b := fresh "b" in let E := fresh "E" in let O := fresh "O" in let K := fresh "K" in
  intros h t b E O K; carry2 K; match goal with F : Forall (Dr ?x) ?l, K : keeps ?x h |- _ => apply (Drs_keep _ _ _ K) in F end].
Ltac fwd := match goal with K : keeps ?x ?h, F : Forall (Dr ?x) ?l |- _ => apply (Drs_keep _ _ _ K) in F end.
(* the memory just before the numbers are erased *)
Definition rsa_made (h0 : heap) (eo : option Z) (numbits : Z) (h' : heap) (k : m_rsa_private * m_rsa_public) (kv : rsa_private * rsa_public) : Prop :=
  exists h n e d p q p1 q1 dp dq qinv phi us zn ze zd zp zq zdp zdq zqinv bn bd bp bq bdp bdq bqinv be_,
  let ws := [n; e; d; p; q; p1; q1; dp; dq; qinv] in let sk := fst k in let pk := snd k in
  own h0 h (ws ++ phi :: us) [(mrp_e pk, be_); (mrp_n pk, bn); (mrk_qinv sk, bqinv); (mrk_dq sk, bdq); (mrk_dp sk, bdp); (mrk_q sk, bq); (mrk_p sk, bp); (mrk_d sk, bd); (mrk_n sk, bn)] /\
  h' = m_wipe_all ws h /\ Forall (Dr h) us /\ val h phi ((zp - 1) * (zq - 1)) /\ (forall z, phi = Imm z -> immediate z \/ z = zp - 1 \/ z = zq - 1) /\
  Forall2 (val h) ws [zn; ze; zd; zp; zq; zp - 1; zq - 1; zdp; zdq; zqinv] /\ (forall z, eo = Some z -> e = Imm z) /\
  kv = (RsaPriv numbits bn bd bp bq bdp bdq bqinv, RsaPub numbits bn be_) /\ mrk_size sk = numbits /\ mrp_size pk = numbits /\
  is_prime zp /\ is_prime zq /\ zn = zp * zq /\ z_invert ze ((zp - 1) * (zq - 1)) = Ret zd /\ z_rem zd (zp - 1) = Ret zdp /\ z_rem zd (zq - 1) = Ret zdq /\ z_invert zq zp = Ret zqinv /\
  bn_to_bytes (Some numbits) zn = Ret bn /\ bn_to_bytes (Some numbits) ze = Ret be_ /\ bn_to_bytes (Some (Z.quot numbits 2)) zp = Ret bp /\ bn_to_bytes (Some (Z.quot numbits 2)) zq = Ret bq.
Lemma rsa_new_key_agrees h fuel (s : mst) e numbits : h = snd s ->
  agrees_s h (m_rsa_new_key share fresh R np fuel s e numbits) (rsa_new_key fresh R np fuel (fst s) e numbits) (rsa_made h e numbits).
Proof.
  intros Hh. unfold m_rsa_new_key, rsa_new_key. assert (own h (snd s) [] []) as O by (subst h; apply own_init). destruct (_ || _); [split; [reflexivity|split; [apply O|reflexivity]]|].
  eapply s_bind; [apply (gen_factors_agrees h [] [] (Z.quot numbits 2) e fuel s [] O (Forall_nil _))|]. intros s1 [p q] [zp zq] Epq ((us & O1 & F1) & Vp & Vq & Pp & Pq & K1). cbn [fst snd] in *. cbv zeta.
  rewrite app_nil_r in O1.
  eapply s_let; [eapply do_z; [exact O1|rewrite (proj1 Vp); reflexivity|kn]|]. intros h2 p1 (G2 & K2). cbn [fst snd num] in *. pose proof (proj1 G2) as O2. pose proof (proj1 (proj2 G2)) as Vp1. carry2 K2. apply (Drs_keep _ _ _ K2) in F1.
  eapply (s_let _ (fst s1, h2)); [eapply do_z; [exact O2|cbn [snd]; rewrite (proj1 Vq); reflexivity|kn]|]. intros h3 q1 (G3 & K3). cbn [fst snd num] in *. pose proof (proj1 G3) as O3. pose proof (proj1 (proj2 G3)) as Vq1. carry2 K3. apply (Drs_keep _ _ _ K3) in F1.
  eapply (s_bind _ _ _ _ _ (fun h' v z => (exists us', own h h' (v :: us' ++ [q1; p1; p; q]) [] /\ Forall (Dr h') us') /\ val h' v z /\ keeps h3 h' /\ (forall z, e = Some z -> v = Imm z))).
  { destruct e as [e|].
    - apply (s_ret h (fst s1, h3)); cbn [snd]; [apply O3|]. split; [exists us; split; [|exact F1]|split; [apply val_imm|split; [apply keeps_refl|intros z E; now injection E as ->]]].
      apply own_share; [|exact I]. apply (own_incl _ _ _ _ _ O3). same_elements.
    - eapply s_weaken; [apply (gen_exponent_agrees h [q1; p1; p; q] [] numbits p1 q1 (zp - 1) (zq - 1)) with (us := us) (s := (fst s1, h3)); cbn [snd In]; [mem|mem| |exact F1|exact Vp1|exact Vq1]|].
      + apply (own_incl _ _ _ _ _ O3). same_elements.
      + intros h' v z (A & B & _ & D). split; [exact A|split; [exact B|split; [exact D|discriminate]]]. }
  intros s4 ev ze Ee ((us' & O4 & F4) & Ve & K4 & He). apply s_end. clear O1 O2 O3 F1 G2 G3. carry2 K4.
  assert (own h (snd s4) (ev :: q1 :: p1 :: p :: q :: us') []) as O5 by (apply (own_incl _ _ _ _ _ O4); same_elements). clear O4.
  unfold m_mult, m_invert, m_rem. zl. fwd. zl. fwd. rename v into n, v0 into phi.
  assert (forall z, phi = Imm z -> immediate z \/ z = zp - 1 \/ z = zq - 1) as Iphi.
  { intros z Ez. destruct G0 as (_ & _ & [(E & Gi)|[(E & _)|[E|[E|[]]]]]); [left; congruence|congruence| |].
    - right; left. assert (p1 = Imm z) as Ep by congruence. rewrite Ep in Vp1. apply Vp1.
    - right; right. assert (q1 = Imm z) as Eq1 by congruence. rewrite Eq1 in Vq1. apply Vq1. }
  zb. fwd. zb. fwd. zb. fwd. zb. fwd. rename v into d, v0 into dp, v1 into dq, v2 into qinv. rename z into zd, z0 into zdp, z1 into zdq, z2 into zqinv.
  clear G G0 G1 G2 G3 G4. tb. tb. tb. tb. tb. tb. tb. eapply do_tlet; [eassumption|eassumption|eassumption|]. intros hn tn On Kn. carry2 Kn. apply (Drs_keep _ _ _ Kn) in F4.
  tb.
  match goal with |- agrees _ (m_wipe_all ?ws ?x, _) _ _ => set (W := ws); set (hf := x) in * end.
  assert (own h hf (W ++ phi :: us') [(t6, b6); (tn, b); (t5, b5); (t4, b4); (t3, b3); (t2, b2); (t1, b1); (t0, b0); (t, b)]) as Of.
  { match goal with O : own h hf _ _ |- _ => apply (own_incl _ _ _ _ _ O) end. unfold W. same_elements. }
  split; [exact (o_keep _ _ _ _ (own_wipe_all _ _ _ _ _ Of))|]. cbn [fst snd].
  exists hf, n, ev, d, p, q, p1, q1, dp, dq, qinv, phi, us', (zp * zq), ze, zd, zp, zq, zdp, zdq, zqinv, b, b0, b1, b2, b3, b4, b5, b6. cbn [fst snd mrk_size mrk_n mrk_d mrk_p mrk_q mrk_dp mrk_dq mrk_qinv mrp_size mrp_n mrp_e]. cbv zeta. fold W.
  split; [exact Of|]. split; [reflexivity|]. split; [exact F4|]. split; [assumption|]. split; [exact Iphi|]. split; [repeat (apply Forall2_cons; [assumption|]); constructor|]. split; [exact He|].
  repeat (split; [reflexivity || assumption|]). assumption.
Qed.

(* ---- Paillier ---- *)
Lemma pai_get_r_agrees h0 key : (mpp_n key < length h0)%nat -> forall fuel (s : mst) vs, own h0 (snd s) vs [] ->
  agrees_s h0 (m_pai_get_r share fresh R fuel s key) (pai_get_r fresh R fuel (fst s) (pai_pub_of h0 key)) (fun h t b => exists vs, own h0 h vs [(t, b)]).
Proof.
  intros Hn. induction fuel as [|fuel IH]; intros s vs O; [apply s_hang, O|]. cbn [m_pai_get_r pai_get_r].
  eapply s_bind; [apply (random_agrees h0 s _ [] false (mpp_size key - 1) O)|]. intros s1 r z En ((O1 & V1) & K1). cbn [pp_size pai_pub_of pp_n].
  eapply s_let; [apply (do_key share h0 (snd s1) _ _ (mpp_n key) O1 Hn)|]. intros h2 n ((O2 & V2 & _) & K2). cbn [fst snd]. pose proof (val_keep _ _ _ _ K2 V1) as V3.
  eapply (s_let h0 (fst s1, h2)); [eapply (rel_prime_agrees h0 h2 _ [] r n _ _ O2 V3 V2); [apply known_cons, known_head|apply known_head]|].
  intros h3 ok (-> & (g & O3 & V4) & K3). cbn [fst snd]. destruct (bn_relative_prime z _); cbn [andb].
  - match goal with |- agrees_s _ (bind (bind ?m ?k1) ?k2) _ _ => replace (bind (bind m k1) k2) with (bind m (fun s a => bind (k1 s a) k2)) by (destruct m as [? [?|?| |]]; reflexivity) end.
    eapply (s_let h0 (fst s1, h3)); [apply (do_key share h0 h3 _ _ (mpp_n key) O3 Hn)|]. intros h4 n' ((O4 & V5 & _) & K4). cbn [fst snd bind].
    pose proof (val_keep _ _ _ _ K4 (val_keep _ _ _ _ K3 V3)) as V6. rewrite (proj1 V6), (proj1 V5). destruct (_ <? _).
    + apply (s_end h0 (fst s1, h4)). eapply agrees_weaken; [eapply (do_to_bytes share); eassumption|]. intros h5 t b (O5 & _). eexists. exact O5.
    + exact (IH (fst s1, h4) _ O4).
  - cbn [bind]. exact (IH (fst s1, h3) _ O3).
Qed.
Lemma pai_encrypt_agrees h fuel (s : mst) key msg : h = snd s -> present h (msg :: pai_pub_strings key) ->
  agrees_s h (m_pai_encrypt share fresh R fuel s key msg) (pai_encrypt fresh R fuel (fst s) (pai_pub_of h key) (str h msg))
   (fun h' t c => ((length h <= t < length h')%nat /\ cell_at h' t = Str c) /\ exists i r s', pai_get_r fresh R fuel (fst s) (pai_pub_of h key) = (s', Ret r) /\ (length h <= i < length h')%nat /\ cell_at h' i = Str r).
Proof.
  intros Hh P. presents P. assert (own h (snd s) [] []) as O by (subst h; apply own_init). unfold m_pai_encrypt, pai_encrypt.
  eapply s_bind; [eapply pai_get_r_agrees; [assumption|exact O]|]. intros s1 t r Er (vs & O1). apply s_end. pose proof (o_keep _ _ _ _ O1) as K1. assert (length h <= length (snd s1))%nat as L1 by apply K1.
  destruct (o_str _ _ _ _ O1 t r (or_introl eq_refl)) as (Ht & Et). assert (str (snd s1) t = r) as Es by (unfold str; now rewrite Et).
  cbn [pp_g pp_n pp_n2 pai_pub_of].
  assert (forall a, (a < length h)%nat -> str h a = str (snd s1) a) as S1 by (intros a Ha; now apply str_keep).
  eapply agrees_bind; [rewrite (S1 (mpp_g key)), (S1 msg), (S1 (mpp_n2 key)) by assumption; eapply pow_agrees; [exact O1|lia|lia|lia]|]. intros h2 tg gm ((w2 & O2) & K2). assert (length (snd s1) <= length h2)%nat as L2 by apply K2.
  assert (forall a, (a < length h)%nat -> str h a = str h2 a) as S2 by (intros a Ha; rewrite S1 by exact Ha; apply str_keep; [exact K2|lia]).
  pose proof (pow_agrees share h h2 _ _ t (mpp_n key) (mpp_n2 key) O2 ltac:(lia) ltac:(lia) ltac:(lia)) as A3. rewrite <- (str_keep (snd s1) h2 t K2), Es, <- (S2 (mpp_n key)), <- (S2 (mpp_n2 key)) in A3 by (assumption || lia).
  eapply agrees_bind; [exact A3|]. intros h3 tr rn ((w3 & O3) & K3). assert (length h2 <= length h3)%nat as L3 by apply K3.
  destruct (o_str _ _ _ _ O3 tg gm (or_intror (or_introl eq_refl))) as (Hg & Eg). destruct (o_str _ _ _ _ O3 tr rn (or_introl eq_refl)) as (Hr & Err).
  assert (str h3 tg = gm) as Sg by (unfold str; now rewrite Eg). assert (str h3 tr = rn) as Sr by (unfold str; now rewrite Err).
  pose proof (mul_agrees share h h3 _ _ tg tr (mpp_n2 key) O3 ltac:(lia) ltac:(lia) ltac:(lia)) as A4. rewrite Sg, Sr, <- (str_keep h2 h3 (mpp_n2 key) K3), <- (S2 (mpp_n2 key)) in A4 by (assumption || lia).
  eapply agrees_weaken; [exact A4|].
  intros h4 t4 b4 ((w4 & O4) & K4). split; [exact (o_str _ _ _ _ O4 t4 b4 (or_introl eq_refl))|]. exists t, r, (fst s1). split; [exact Er|].
  exact (o_str _ _ _ _ O4 t r (or_intror (or_intror (or_intror (or_introl eq_refl))))).
Qed.

Definition Dp (h : heap) (u : bn) : Prop := exists z, val h u z /\ drawn_product fresh R np z.
Lemma Dps_keep h h' us : keeps h h' -> Forall (Dp h) us -> Forall (Dp h') us.
Proof. intros K. apply Forall_impl. intros u (z & V & D). exists z. split; [exact (val_keep _ _ _ _ K V)|exact D]. Qed.
Lemma Dr_Dp h us : Forall (Dr h) us -> Forall (Dp h) us.
Proof. apply Forall_impl. intros u (z & V & D). exists z. split; [exact V|now left]. Qed.
Definition phi_in (h : heap) (p1 q1 : Z) (us : list bn) : Prop :=
  exists phi, In phi us /\ val h phi (p1 * q1) /\ (forall z, phi = Imm z -> immediate z \/ z = p1 \/ z = q1).
Definition gens4 (h0 h : heap) (h' : heap) (v : bn * bn * bn * bn) (z : Z * Z) : Prop :=
  let p := fst (fst (fst v)) in let q := snd (fst (fst v)) in let p1 := snd (fst v) in let q1 := snd v in
  (exists us, own h0 h' (p :: q :: p1 :: q1 :: us) [] /\ Forall (Dp h') us /\ phi_in h' (fst z - 1) (snd z - 1) us) /\
  val h' p (fst z) /\ val h' q (snd z) /\ val h' p1 (fst z - 1) /\ val h' q1 (snd z - 1) /\ is_prime (fst z) /\ is_prime (snd z) /\ keeps h h'.
Lemma pai_gen_factors_agrees h0 nb : forall fuel (s : mst) us, own h0 (snd s) us [] -> Forall (Dp (snd s)) us ->
  agrees_s h0 (m_pai_gen_factors share fresh R np fuel s nb) (pai_gen_factors fresh R np fuel (fst s) nb) (gens4 h0 (snd s)).
Proof.
  induction fuel as [|fuel IH]; intros s us O F; [apply s_hang, O|]. cbn [m_pai_gen_factors pai_gen_factors].
  eapply s_bind; [apply (random_prime_agrees h0 us [] nb (S fuel) s [] O (Forall_nil _))|]. intros s1 q zq Eq ((us1 & O1 & F1) & V1 & P1 & K1).
  eapply s_bind; [apply (random_prime_agrees h0 (q :: us1 ++ us) [] nb (S fuel) s1 [] O1 (Forall_nil _))|]. intros s2 p zp Ep ((us2 & O2 & F2) & V2 & P2 & K2). carry2 K2.
  eapply s_let; [eapply do_z; [exact O2|rewrite (proj1 V2); reflexivity|kn]|]. intros h3 p1 (G3 & K3). cbn [fst snd num] in *. pose proof (proj1 G3) as O3. pose proof (proj1 (proj2 G3)) as V3. carry2 K3.
  eapply (s_let h0 (fst s2, h3)); [eapply (do_z share); [exact O3|rewrite (proj1 V1); reflexivity|]|].
  { intros u [<-|[<-|[]]]; [left; right; right; apply in_or_app; right; now left|right; eexists; reflexivity]. }
  intros h4 q1 (G4 & K4). cbn [fst snd num] in *. pose proof (proj1 G4) as O4. pose proof (proj1 (proj2 G4)) as V4. carry2 K4.
  pose proof (prime_drawn _ P1) as (D1 & D1' & _). pose proof (prime_drawn _ P2) as (D2 & D2' & _).
  pose proof (keeps_trans _ _ _ K3 K4) as K34. pose proof (keeps_trans _ _ _ K2 K34) as K24. pose proof (keeps_trans _ _ _ K1 K24) as K14.
  assert (Forall (Dp h4) (us2 ++ us1 ++ us)) as F4.
  { repeat (apply Forall_app; split); [apply Dr_Dp, (Drs_keep _ _ _ K34 F2)|apply Dr_Dp, (Drs_keep _ _ _ K24 F1)|apply (Dps_keep _ _ _ K14 F)]. }
  rewrite (proj1 V1), (proj1 V2). destruct (zp =? zq).
  { eapply s_weaken; [apply (IH (fst s2, h4) (q1 :: p1 :: p :: q :: us2 ++ us1 ++ us)); cbn [snd]|].
    - apply (own_incl _ _ _ _ _ O4). same_elements.
    - repeat (apply Forall_cons); [exists (zq - 1)|exists (zp - 1)|exists zp|exists zq|exact F4]; (split; [assumption|left; assumption]).
    - intros h' v z (A & B1 & B2 & B3 & B4 & C1 & C2 & K). exact (conj A (conj B1 (conj B2 (conj B3 (conj B4 (conj C1 (conj C2 (keeps_trans _ _ _ K14 K)))))))). }
  assert (own h0 h4 ([q1; p1; p; q] ++ us2 ++ us1 ++ us) []) as O4' by (apply (own_incl _ _ _ _ _ O4); same_elements). clear O4 G4 G3 O3. cbn [app] in O4'.
  eapply (s_let h0 (fst s2, h4)); [eapply (do_z share); [exact O4'|rewrite (proj1 V1), (proj1 V2); reflexivity|kn]|]. intros h5 n (G5 & K5). cbn [fst snd] in *. pose proof (proj1 G5) as O5. pose proof (proj1 (proj2 G5)) as V5. carry2 K5.
  eapply (s_let h0 (fst s2, h5)); [eapply (do_z share); [exact O5|rewrite (proj1 V3), (proj1 V4); reflexivity|kn]|]. intros h6 phi (G6 & K6). cbn [fst snd] in *. pose proof (proj1 G6) as O6. pose proof (proj1 (proj2 G6)) as V6. carry2 K6.
  eapply (s_let h0 (fst s2, h6)); [eapply (rel_prime_agrees h0 h6 _ [] n phi _ _ O6 V5 V6); [apply known_cons, known_head|apply known_head]|].
  intros h7 ok (-> & (g & O7 & V7) & K7). cbn [fst snd]. carry2 K7. pose proof (keeps_trans _ _ _ K5 (keeps_trans _ _ _ K6 K7)) as K57. apply (Dps_keep _ _ _ K57) in F4.
  pose proof (keeps_trans _ _ _ K14 K57) as K17.
  assert (forall z, (z = zp * zq \/ z = (zp - 1) * (zq - 1) \/ z = Z.gcd (zp * zq) ((zp - 1) * (zq - 1))) -> drawn_product fresh R np z) as Dz by (intros z Hz; right; exists zp, zq; auto).
  assert (Forall (Dp h7) (g :: phi :: n :: us2 ++ us1 ++ us)) as F7 by (repeat (apply Forall_cons); [eexists; split; [exact V7|apply Dz; auto]|eexists; split; [exact V6|apply Dz; auto]|eexists; split; [exact V5|apply Dz; auto]|exact F4]).
  destruct (bn_relative_prime _ _).
  - apply (s_ret h0 (fst s2, h7)); cbn [snd]; [apply O7|]. unfold gens4. cbn [fst snd]. split; [exists (g :: phi :: n :: us2 ++ us1 ++ us); split; [|split; [exact F7|]]|auto 10].
    + apply (own_incl _ _ _ _ _ O7). same_elements.
    + exists phi. split; [right; now left|]. split; [exact V6|]. intros z Ez. destruct G6 as (_ & _ & [(E & Gi)|[(E & _)|[E|[E|[]]]]]); [left; congruence|congruence| |].
      * right; left. assert (p1 = Imm z) as E' by congruence. rewrite E' in V3. apply V3.
      * right; right. assert (q1 = Imm z) as E' by congruence. rewrite E' in V4. apply V4.
  - eapply s_weaken; [apply (IH (fst s2, h7) ([q1; p1; p; q] ++ g :: phi :: n :: us2 ++ us1 ++ us)); cbn [snd]|].
    + apply (own_incl _ _ _ _ _ O7). same_elements.
    + cbn [app]. repeat (apply Forall_cons); [exists (zq - 1)|exists (zp - 1)|exists zp|exists zq|..]; try (split; [assumption|left; assumption]); now repeat match goal with F : Forall _ (_ :: _) |- _ => apply Forall_cons_iff in F; destruct F end.
    + intros h' v z (A & B1 & B2 & B3 & B4 & C1 & C2 & K). exact (conj A (conj B1 (conj B2 (conj B3 (conj B4 (conj C1 (conj C2 (keeps_trans _ _ _ K17 K)))))))).
Qed.
Ltac fwd2 := match goal with K : keeps ?x ?h, F : Forall (Dp ?x) ?l |- _ => apply (Dps_keep _ _ _ K) in F end.
Ltac tb2 := eapply do_tbind; [eassumption|eassumption|let h := fresh "h" in let t := fresh "t" in let b := fresh "b" in let E := fresh "E" in let O := fresh "O" in let K := fresh "K" in
  intros h t b E O K; carry2 K; fwd2].
Definition pai_made (h0 : heap) (numbits : Z) (h' : heap) (k : m_pai_private * m_pai_public) (kv : pai_private * pai_public) : Prop :=
  exists h n n2 g p q p1 q1 lambda mu us zp zq zmu bn bn2 bp bq bl bmu bg,
  let ws := [n; n2; g; p; q; p1; q1; lambda; mu] in let sk := fst k in let pk := snd k in let zn := zp * zq in let zl := Z.lcm (zp - 1) (zq - 1) in
  own h0 h (ws ++ us) [(mpp_g pk, bg); (mpp_n2 pk, bn2); (mpp_n pk, bn); (mpk_mu sk, bmu); (mpk_lambda sk, bl); (mpk_q sk, bq); (mpk_p sk, bp); (mpk_n2 sk, bn2); (mpk_n sk, bn)] /\
  h' = m_wipe_all ws h /\ Forall (Dp h) us /\ phi_in h (zp - 1) (zq - 1) us /\
  Forall2 (val h) ws [zn; zn * zn; zn + 1; zp; zq; zp - 1; zq - 1; zl; zmu] /\
  (forall u, In u us -> mu = u -> (exists z, u = Imm z) \/ u = lambda \/ u = n) /\
  kv = (PaiPriv numbits bn bn2 bp bq bl bmu, PaiPub numbits bn bn2 bg) /\ mpk_size sk = numbits /\ mpp_size pk = numbits /\
  is_prime zp /\ is_prime zq /\ (exists fuel s s', pai_gen_factors fresh R np fuel s (Z.quot numbits 2) = (s', Ret (zp, zq))) /\ 32 <= numbits /\
  bn_to_bytes (Some (Z.quot numbits 2)) zp = Ret bp /\ bn_to_bytes (Some (Z.quot numbits 2)) zq = Ret bq.
Lemma pai_new_key_agrees h fuel (s : mst) numbits : h = snd s ->
  agrees_s h (m_pai_new_key share fresh R np fuel s numbits) (pai_new_key fresh R np fuel (fst s) numbits) (pai_made h numbits).
Proof.
  intros Hh. unfold m_pai_new_key, pai_new_key. assert (own h (snd s) [] []) as O by (subst h; apply own_init). destruct (_ || _) eqn:E32; [split; [reflexivity|split; [apply O|reflexivity]]|].
  eapply s_bind; [apply (pai_gen_factors_agrees h (Z.quot numbits 2) fuel s [] O (Forall_nil _))|].
  intros s1 [[[p q] p1] q1] [zp zq] Epq ((us & O1 & F1 & (phi & Iphi & Vphi & Cphi)) & Vp & Vq & Vp1 & Vq1 & Pp & Pq & K1). cbn [fst snd] in *. cbv zeta. apply s_end.
  unfold m_mult, m_add, m_lcm, m_invert. zl. fwd2. zl. fwd2. zl. fwd2. zl. fwd2. rename v into n, v0 into n2, v1 into g, v2 into lambda. cbn [num] in *.
  assert (forall u, In u us -> in_heap h3 u) as Iu.
  { intros u Hu. match goal with O : own h h3 _ _ |- _ => pose proof (own_in _ _ _ _ O) as Fi; rewrite Forall_forall in Fi end. apply Fi. cbn [In]. tauto. }
  zb. fwd2. rename v into mu, z into zmu.
  assert (forall u, In u us -> mu = u -> (exists z, u = Imm z) \/ u = lambda \/ u = n) as Hmu.
  { intros u Hu Em. match goal with G : gives _ _ _ _ [lambda; n] _ _ _ |- _ => destruct G as (_ & _ & [(E' & _)|[(E' & _)|[E'|[E'|[]]]]]) end;
      [left; exists zmu; congruence| |right; left; congruence|right; right; congruence]. exfalso. pose proof (Iu u Hu) as Hi. rewrite <- Em, E' in Hi. cbn [in_heap] in Hi. lia. }
  tb2. tb2. tb2. tb2. tb2. tb2.
  eapply do_tlet; [eassumption|eassumption|eassumption|]. intros hn tn On Kn. carry2 Kn. fwd2. eapply do_tlet; [eassumption|eassumption|eassumption|]. intros hn2 tn2 On2 Kn2. carry2 Kn2. fwd2.
  tb2. match goal with |- agrees _ (m_wipe_all ?ws ?x, _) _ _ => set (W := ws); set (hf := x) in * end.
  assert (own h hf (W ++ us) [(t5, b5); (tn2, b0); (tn, b); (t4, b4); (t3, b3); (t2, b2); (t1, b1); (t0, b0); (t, b)]) as Of.
  { match goal with O : own h hf _ _ |- _ => apply (own_incl _ _ _ _ _ O) end. unfold W. same_elements. }
  split; [exact (o_keep _ _ _ _ (own_wipe_all _ _ _ _ _ Of))|]. cbn [fst snd].
  exists hf, n, n2, g, p, q, p1, q1, lambda, mu, us, zp, zq, zmu, b, b0, b1, b2, b3, b4, b5. cbn [fst snd mpk_size mpk_n mpk_n2 mpk_p mpk_q mpk_lambda mpk_mu mpp_size mpp_n mpp_n2 mpp_g]. cbv zeta. fold W.
  split; [exact Of|]. split; [reflexivity|]. split; [assumption|]. split; [exists phi; auto|]. split; [repeat (apply Forall2_cons; [assumption|]); constructor|]. split; [exact Hmu|]. assert (32 <= numbits) as N32 by (clear - E32; lia).
  repeat (split; [reflexivity || assumption || (do 3 eexists; exact Epq)|]). assumption.
Qed.
End Keys.
