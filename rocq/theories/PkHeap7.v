(* Diffie-Hellman over a memory: parameters, private secrets, whole exchanges. *)
From Coq Require Import Znumtheory.
From Verif Require Import Prelude PreludeFacts BytesNum HashModel RngModel BnModel Bn PkModel SpecPk PkGen Pk2 PkCases BnHeapModel BnHeapDhModel SpecPkMem BnHeap PkHeap PkHeap2 PkHeap3 PkHeap4 PkHeap5 PkHeap6.

Section Dh.
Variable share : heap -> Z -> list bn -> nat.
Variable fresh : Z -> bytes.
Variable R : rng.
Variable np : Z -> Z.
Notation mst := (ms R).

Lemma random_secret (s : mst) odd nb s' v : m_random share fresh R s odd nb = (s', Ret v) -> secret_ok (snd s') v /\ forall i, v = Blk i -> (length (snd s) <= i < length (snd s'))%nat.
Proof.
  unfold m_random. cbv zeta. destruct s as [rs h]. cbn [fst snd]. destruct (rng_string fresh R rs _) as [rs1 [buf|e| |]]; cbn [lift bind fst snd]; try discriminate.
  destruct (if odd then _ else _) as [buf1|e| |]; cbn [bind]; try discriminate. destruct (change_byte buf1 _ _) as [buf2|e| |]; cbn [bind fst snd]; try discriminate.
  unfold alloc. set (h1 := h ++ [Str buf2]). assert (L1 : length h1 = S (length h)) by (unfold h1; rewrite app_length; cbn [length]; lia). set (z := le (str h1 (length h))). unfold z_res.
  replace (nth_error [] (share h1 z [])) with (@None bn) by (destruct (share h1 z []); reflexivity).
  destruct ((- 2 ^ 62 <=? z) && (z <? 2 ^ 62)) eqn:Ez; cbv iota beta; destruct (negb _); try discriminate; destruct (odd && _); try discriminate; intros E; injection E as <- <-; cbn [snd secret_ok].
  - split; [unfold immediate; lia|discriminate].
  - assert (L2 : length (m_wipe_bytes (h1 ++ [Num z]) (length h)) = S (S (length h))) by (unfold m_wipe_bytes; rewrite length_store; rewrite app_length; cbn [length]; lia).
    rewrite L2. split; [|intros i Ei; injection Ei as <-; lia]. split; [lia|]. exists z. split; [|right; unfold immediate; lia].
    unfold m_wipe_bytes. rewrite store_other; [apply cell_app_r|rewrite app_length; cbn [length]; lia|lia].
Qed.
Lemma private_secret_mem s h params : let r := m_dh_private_secret share fresh R (s, h) params in let v := dh_private_secret fresh R s (dh_params_of h params) in let h' := snd (fst r) in
  fst (fst r) = fst v /\ keeps h h' /\ (olet x := snd r in Ret (num h' x)) = snd v /\
  forall x, snd r = Ret x -> secret_ok h' x /\ (forall i, x = Blk i -> (length h <= i < length h')%nat) /\ forall i, (length h <= i < length h')%nat -> Blk i <> x -> cleared (cell_at h' i).
Proof.
  cbv zeta. unfold m_dh_private_secret, dh_private_secret. change (dh_privlen (dh_params_of h params)) with (mdh_privlen params).
  pose proof (random_agrees share fresh R (fun z => z) h (s, h) [] [] false (mdh_privlen params) (own_init h)) as (E1 & K & H). cbn [fst snd] in *.
  pose proof (random_secret (s, h) false (mdh_privlen params)) as RS. destruct (m_random share fresh R (s, h) false (mdh_privlen params)) as [[s1 h1] [x|e| |]]; cbn [fst snd obind] in *;
    destruct (bn_random fresh R s false (mdh_privlen params)) as [s2 [z|e'| |]]; cbn [fst snd] in *; try contradiction; try (split; [exact E1|split; [exact K|split; [congruence|intros x0 Ex; discriminate Ex]]]).
  destruct H as ((O & V) & _). split; [exact E1|]. split; [exact K|]. split; [f_equal; apply V|]. intros x0 Ex. injection Ex as <-. destruct (RS (s1, h1) x eq_refl) as (A & B). split; [exact A|]. split; [exact B|].
  intros i Hi Ni. destruct (o_all _ _ _ _ O i Hi) as [C|[[C|[]]|[]]]; [exact C|congruence].
Qed.

Lemma find_generator_agrees h0 vs ss nb : forall fuel (s : mst) us, own h0 (snd s) (us ++ vs) ss -> Forall (Dr fresh R np (snd s)) us ->
  agrees_s R h0 (m_dh_find_generator share fresh R fuel s nb) (dh_find_generator fresh R fuel (fst s) nb) (gens fresh R np h0 (snd s) vs ss (is_num fresh R)).
Proof.
  induction fuel as [|fuel IH]; intros s us O F; cbn [m_dh_find_generator dh_find_generator]; [apply s_hang, O|].
  eapply s_bind; [apply (random_agrees share fresh R np h0 s _ ss false (nb - 1) O)|]. intros s1 n z En ((O1 & V1) & K1).
  assert (is_num fresh R z) as Nz by (exists (fst s), (fst s1), false, (nb - 1), z; auto). pose proof (Drs_keep fresh R np _ _ _ K1 F) as F1.
  rewrite (proj1 V1). destruct (z <=? 1).
  - eapply s_weaken; [apply (IH s1 (n :: us)); [exact O1|constructor; [exists z; split; [exact V1|apply (num_drawn fresh R np z Nz)]|exact F1]]|].
    intros h' v y (A & B & C & D). split; [exact A|]. splits; [exact B|exact C|exact (keeps_trans _ _ _ K1 D)].
  - apply s_ret; [apply O1|]. split; [exists us; split; [exact O1|exact F1]|]. splits; [exact V1|exact Nz|exact K1].
Qed.
(* what is left: p, g, and numbers that were drawn *)
Definition dh_made (h0 h' : heap) (k : m_dh_params) (kv : dh_params) : Prop :=
  dh_params_of h' k = kv /\ NoDup [mdh_p k; mdh_g k] /\ Forall (fun a => (length h0 <= a < length h')%nat) [mdh_p k; mdh_g k] /\
  forall i, (length h0 <= i < length h')%nat -> ~ In i [mdh_p k; mdh_g k] -> cleared (cell_at h' i) \/ exists z, cell_at h' i = Num z /\ drawn fresh R np z.
Lemma new_parameters_agrees h fuel (s : mst) privlen nb : h = snd s ->
  agrees_s R h (m_dh_new_parameters share fresh R np fuel s privlen nb) (dh_new_parameters fresh R np fuel (fst s) privlen nb) (dh_made h).
Proof.
  intros Hh. unfold m_dh_new_parameters, dh_new_parameters. assert (own h (snd s) [] []) as O by (subst h; apply own_init). destruct (_ || _); [split; [reflexivity|split; [apply O|reflexivity]]|].
  eapply s_bind; [apply (random_prime_agrees share fresh R np h [] [] nb fuel s [] O (Forall_nil _))|]. intros s1 p zp Ep ((us & O1 & F1) & Vp & Pp & K1). rewrite app_nil_r in O1.
  eapply s_bind; [apply (find_generator_agrees h (p :: us) [] nb fuel s1 [] O1 (Forall_nil _))|]. intros s2 g zg Eg ((us2 & O2 & F2) & Vg & Ng & K2). apply s_end.
  pose proof (val_keep _ _ _ _ K2 Vp) as Vp2. pose proof (Drs_keep fresh R np _ _ _ K2 F1) as F12.
  eapply do_tbind; [exact share|exact O2|exact Vp2|]. intros h3 bp zbp Ebp O3 K3. eapply do_tbind; [exact share|exact O3|exact (val_keep _ _ _ _ K3 Vg)|]. intros h4 bg zbg Ebg O4 K4. pose proof (keeps_trans _ _ _ K3 K4) as K34.
  split; [apply O4|]. cbn [fst snd]. unfold dh_made. cbn [mdh_p mdh_g].
  pose proof (o_str _ _ _ _ O4 bg zbg (or_introl eq_refl)) as (Lg & Cg). pose proof (o_str _ _ _ _ O4 bp zbp (or_intror (or_introl eq_refl))) as (Lp & Cp). pose proof (o_dup _ _ _ _ O4) as D. cbn [map fst] in D.
  split; [unfold dh_params_of, str; cbn [mdh_p mdh_g mdh_privlen]; rewrite Cg, Cp; reflexivity|]. split.
  { apply NoDup_cons_iff in D as (D & _). constructor; [cbn [In] in *; intuition|constructor; [intros []|constructor]]. }
  split; [repeat constructor; lia|]. intros i Hi Ni. destruct (o_all _ _ _ _ O4 i Hi) as [C|[C|C]]; [left; exact C| |exfalso; apply Ni; cbn [map fst In] in *; intuition]. right.
  pose proof (prime_drawn fresh R np _ Pp) as (Dp & _). pose proof (num_drawn fresh R np _ Ng) as (Dg & _).
  assert (U : forall u z, val h4 u z -> drawn fresh R np z -> u = Blk i -> exists z', cell_at h4 i = Num z' /\ drawn fresh R np z').
  { intros u z V Dz Eu. subst u. pose proof (o_num _ _ _ _ O4 (Blk i) C) as (_ & z' & Ez). exists z'. split; [exact Ez|]. destruct V as (V & _). cbn [num] in V. rewrite Ez in V. subst z'. exact Dz. }
  pose proof (Drs_keep fresh R np _ _ _ K34 F2) as G2. pose proof (Drs_keep fresh R np _ _ _ K34 F12) as G1. rewrite Forall_forall in G1, G2.
  cbn [In] in C. rewrite in_app_iff in C. destruct C as [C|[C|[C|C]]].
  - exact (U g zg (val_keep _ _ _ _ K34 Vg) Dg C).
  - destruct (G2 _ C) as (z & V & Dz). exact (U _ z V Dz eq_refl).
  - exact (U p zp (val_keep _ _ _ _ K34 Vp2) Dp C).
  - destruct (G1 _ C) as (z & V & Dz). exact (U _ z V Dz eq_refl).
Qed.
Lemma new_parameters_mem fuel s h privlen nb : let r := m_dh_new_parameters share fresh R np fuel (s, h) privlen nb in let v := dh_new_parameters fresh R np fuel s privlen nb in let h' := snd (fst r) in
  fst (fst r) = fst v /\ keeps h h' /\ (olet k := snd r in Ret (dh_params_of h' k)) = snd v /\
  forall k, snd r = Ret k -> NoDup [mdh_p k; mdh_g k] /\ Forall (fun a => (length h <= a < length h')%nat) [mdh_p k; mdh_g k] /\
   forall i, (length h <= i < length h')%nat -> ~ In i [mdh_p k; mdh_g k] -> cleared (cell_at h' i) \/ exists z, cell_at h' i = Num z /\ drawn fresh R np z.
Proof.
  cbv zeta. pose proof (new_parameters_agrees h fuel (s, h) privlen nb eq_refl) as (E1 & K & H). cbn [fst snd] in *.
  destruct (m_dh_new_parameters share fresh R np fuel (s, h) privlen nb) as [[s1 h1] [k|e| |]], (dh_new_parameters fresh R np fuel s privlen nb) as [s2 [kv|e'| |]]; cbn [fst snd obind] in *; try contradiction;
    try (split; [exact E1|split; [exact K|split; [congruence|intros k0 Ek; discriminate Ek]]]).
  destruct H as (A & B & C & D). split; [exact E1|]. split; [exact K|]. split; [now f_equal|]. intros k0 Ek. injection Ek as <-. auto.
Qed.
Hypothesis F : fresh_ok fresh.
Hypothesis RB : rng_bytes R.
Hypothesis NP : forall n, 0 <= n -> prime (np n).
Lemma generated_ok fuel s privlen nb s' pr : nb <= 2 ^ 58 -> dh_new_parameters fresh R np fuel s privlen nb = (s', Ret pr) -> dh_ok pr.
Proof.
  intros Hn E. destruct (new_parameters_inv fresh R np F RB NP fuel s privlen nb s' pr E) as (N & _ & _ & P & B & _ & L & Ok & A). unfold dh_ok, str_ok, zlen. rewrite L. unfold width.
  assert (0 <= (nb + 7) / 8) by (apply Z.div_pos; lia). rewrite Z2Nat.id by assumption. assert (2 <= be (dh_p pr) /\ be (dh_p pr) <> 2) as (P2 & P3).
  { assert (2 ^ 31 <= 2 ^ (nb - 1)) by (apply Z.pow_le_mono_r; lia). lia. }
  splits; [exact Ok|apply Z.div_le_upper_bound; lia|exact A| |lia].
  rewrite <- Z.negb_even. destruct (Z.even (be (dh_p pr))) eqn:Ev; [|reflexivity]. exfalso. apply Z.even_spec in Ev as (q & Eq). destruct (prime_divisors _ P 2) as [D|[D|[D|D]]]; try lia. exists q. lia.
Qed.
End Dh.
(* a whole exchange: parameters, two private secrets from any generators, two messages, the two shared secrets *)
Lemma exchange share fresh R np fuel s h privlen nb s1 h1 params R1 R2 r1 r2 r1' r2' h2 h3 x y : fresh_ok fresh -> rng_bytes R -> (forall n, 0 <= n -> prime (np n)) -> nb <= 2 ^ 58 -> rng_bytes R1 -> rng_bytes R2 ->
  m_dh_new_parameters share fresh R np fuel (s, h) privlen nb = ((s1, h1), Ret params) ->
  m_dh_private_secret share fresh R1 (r1, h1) params = ((r1', h2), Ret x) -> m_dh_private_secret share fresh R2 (r2, h2) params = ((r2', h3), Ret y) ->
  exists h4 mx h5 my h6 k1 h7 k2, m_dh_message share h3 params x = (h4, Ret mx) /\ m_dh_message share h4 params y = (h5, Ret my) /\
  m_dh_shared_secret share h5 params x my = (h6, Ret k1) /\ m_dh_shared_secret share h6 params y mx = (h7, Ret k2) /\ str h7 k1 = str h7 k2 /\
  be (str h7 k2) = be (str h1 (mdh_g params)) ^ (num h3 x * num h3 y) mod be (str h1 (mdh_p params)).
Proof.
  intros F RB NP Hn B1 B2 E0 E1 E2.
  pose proof (new_parameters_mem share fresh R np fuel s h privlen nb) as H0. cbv zeta in H0. rewrite E0 in H0. cbn [fst snd obind] in H0. destruct H0 as (_ & _ & V0 & H0). destruct (H0 params eq_refl) as (_ & P0 & _).
  assert (P1 : present h1 [mdh_g params; mdh_p params]) by (rewrite Forall_forall in P0; repeat constructor; apply P0; cbn [In]; auto).
  assert (Ok : dh_ok (dh_params_of h1 params)).
  { destruct (dh_new_parameters fresh R np fuel s privlen nb) as [s' r] eqn:Ev. cbn [snd] in V0. subst r. exact (generated_ok share fresh R np F RB NP fuel s privlen nb s' _ Hn Ev). }
  pose proof (private_secret_mem share fresh R1 (fun z => z) r1 h1 params) as H1. cbv zeta in H1. rewrite E1 in H1. cbn [fst snd obind] in H1. destruct H1 as (_ & K1 & V1 & H1). destruct (H1 x eq_refl) as (S1 & L1 & _).
  pose proof (private_secret_mem share fresh R2 (fun z => z) r2 h2 params) as H2. cbv zeta in H2. rewrite E2 in H2. cbn [fst snd obind] in H2. destruct H2 as (_ & K2 & V2 & H2). destruct (H2 y eq_refl) as (S2 & L2 & _).
  assert (X0 : 0 < num h2 x).
  { destruct (dh_private_secret fresh R1 r1 (dh_params_of h1 params)) as [s' r] eqn:Ev. cbn [snd] in V1. subst r. exact (proj2 (private_secret_bits fresh R1 r1 _ s' _ F B1 Ev)). }
  assert (Y0 : 0 < num h3 y).
  { destruct (dh_private_secret fresh R2 r2 (dh_params_of h2 params)) as [s' r] eqn:Ev. cbn [snd] in V2. subst r. exact (proj2 (private_secret_bits fresh R2 r2 _ s' _ F B2 Ev)). }
  assert (SX : secret_ok h3 x /\ num h3 x = num h2 x).
  { destruct x as [z|a]; [split; [exact S1|reflexivity]|]. destruct S1 as (La & z & Ez & Zz). destruct K2 as (KL & KC). cbn [secret_ok num]. rewrite (KC a La). split; [split; [lia|exists z; auto]|reflexivity]. }
  destruct SX as (SX & NX).
  pose proof (keeps_trans _ _ _ K1 K2) as K13. pose proof (present_keeps _ _ _ K13 P1) as P3. assert (D3 : dh_params_of h3 params = dh_params_of h1 params) by (presents P1; unfold dh_params_of; now rewrite !(keeps_str h1 h3) by assumption).
  destruct (dh_session share (fun _ => []) (fun z => z) h3 params x y) as (h4 & mx & h5 & my & h6 & k1 & h7 & k2 & A1 & A2 & A3 & A4 & _ & A6 & A7); try assumption; [rewrite D3; exact Ok|lia| |].
  { destruct x as [z|a]; [right; exists z; reflexivity|left]. intros <-. pose proof (L1 a eq_refl). pose proof (L2 a eq_refl). lia. }
  exists h4, mx, h5, my, h6, k1, h7, k2. splits; try assumption. presents P1. rewrite <- !(keeps_str h1 h3) by assumption. exact A7.
Qed.
