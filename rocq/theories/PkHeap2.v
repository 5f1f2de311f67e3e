(* Paillier and DH over a memory. *)
From Verif Require Import Prelude PreludeFacts BytesNum HashModel RngModel BnModel PkModel BnHeapModel SpecPkMem BnHeap PkHeap.

Ltac splits := repeat match goal with |- _ /\ _ => split end.
Ltac key := eapply agrees_let; [apply do_key; [eassumption|assumption]|let h := fresh "h" in let v := fresh "v" in let O := fresh "O" in let V := fresh "V" in let A := fresh "A" in let K := fresh "K" in intros h v ((O & V & A) & K); carry].
Ltac zval := repeat match goal with V : val ?h ?v ?z |- context [num ?h ?v] => rewrite (proj1 V) end.
Ltac kn := let u := fresh in let H := fresh in intros u H; cbn [In] in H; repeat (destruct H as [<-|H]); try contradiction;
  repeat first [assumption | apply known_head | apply known_cons | (right; eexists; reflexivity)].
Ltac carry2 K := match type of K with keeps ?h ?h' =>
  repeat match goal with V : val h ?v ?z |- _ => apply (val_keep h h' v z K) in V end end.
Ltac presents P := unfold present, rsa_priv_strings, rsa_pub_strings, pai_pub_strings, pai_priv_strings in P;
  repeat match type of P with Forall _ (_ :: _) => let H := fresh "Pr" in apply Forall_cons_iff in P; destruct P as (H & P) end; clear P.
Lemma do_zbind share {A B} h0 h vs ss (r r' : out Z) args (k : heap -> bn -> heap * out A) (k' : Z -> out B) Q : own h0 h vs ss -> r = r' -> (forall v, In v args -> known vs v) ->
  (forall h' v z, r' = Ret z -> gives h0 h vs ss args h' v z -> keeps h h' -> agrees h0 (k h' v) (k' z) Q) -> agrees h0 (bind (z_ret share h r args) k) (obind r' k') Q.
Proof.
  intros O -> Ha G. destruct r' as [z|e| |].
  - cbn [obind]. eapply do_zlet; [exact O|reflexivity|exact Ha|]. intros h' v H1 H2. now apply G.
  - cbn [z_ret bind obind]. apply fail_ok. apply O.
  - split; [apply O|exact I].
  - split; [apply O|exact I].
Qed.
Ltac zb := eapply do_zbind; [eassumption|zval; reflexivity|kn|let h := fresh "h" in let v := fresh "v" in let z := fresh "z" in let E := fresh "E" in let G := fresh "G" in let K := fresh "K" in
  intros h v z E G K; pose proof (proj1 G); pose proof (proj1 (proj2 G)); carry2 K].
Ltac zl := eapply do_zlet; [eassumption|zval; reflexivity|kn|let h := fresh "h" in let v := fresh "v" in let G := fresh "G" in let K := fresh "K" in
  intros h v G K; pose proof (proj1 G); pose proof (proj1 (proj2 G)); carry2 K].
(* erase ws, keep us *)
Lemma own_split h0 h vs ss ws us : own h0 h vs ss -> (forall v, In v vs <-> In v (ws ++ us)) -> own h0 (m_wipe_all ws h) us ss.
Proof. intros O H. apply own_wipe_all. now apply (own_incl _ _ vs). Qed.
Lemma left_after h0 h vs ss ws v z : own h0 h vs ss -> incl ws vs -> In v vs -> val h v z -> left_ (m_wipe_all ws h) v z.
Proof.
  intros O Hi Hv V. apply left_wipe_all; [exact (left_of _ _ _ _ _ _ O Hv V)|]. apply Forall_forall. intros w Hw. pose proof (own_in _ _ _ _ O) as F. rewrite Forall_forall in F. apply F. now apply Hi.
Qed.
Ltac memof := let u := fresh in let H := fresh in intros u H; cbn [In] in *; repeat (destruct H as [H|H]); try contradiction; mem.

Section Share.
Variable share : heap -> Z -> list bn -> nat.
Definition pai_values (n n2 lambda mu c : Z) : list Z :=
  let cn := Zpow_facts.Zpow_mod c lambda (Z.abs n2) in [Z.quot (cn - 1) n * mu; cn - 1].
Lemma powm_value b e m r : z_powm_sec b e m = Ret r -> r = Zpow_facts.Zpow_mod b e (Z.abs m).
Proof. unfold z_powm_sec. destruct (_ || _); [discriminate|]. now injection 1. Qed.
Lemma div_value a b r : z_div a b = Ret r -> r = Z.quot a b.
Proof. unfold z_div. destruct (_ =? _); [discriminate|]. now injection 1. Qed.
Lemma pai_decrypt_agrees h key c : present h (c :: pai_priv_strings key) ->
  let n a := bn_of_bytes (str h a) in
  agrees h (m_pai_decrypt share h key c) (pai_decrypt (pai_priv_of h key) (str h c))
    (fun h' t b => exists us, own h h' us [(t, b)] /\ Forall2 (left_ h') us (pai_values (n (mpk_n key)) (n (mpk_n2 key)) (n (mpk_lambda key)) (n (mpk_mu key)) (n c))).
Proof.
  intros P. cbv zeta. presents P. unfold m_pai_decrypt, pai_decrypt, pai_priv_of. cbn [pk_size pk_n pk_n2 pk_p pk_q pk_lambda pk_mu].
  pose proof (own_init h) as O. key. key. key. key. key. unfold m_mod_power, bn_mod_power, m_sub, m_div, m_mult, m_rem, pai_values.
  zb. apply powm_value in E. subst z. zl. zb. apply div_value in E. subst z. zl. zb.
  eapply agrees_tail; [eapply do_to_bytes; eassumption|]. intros h11 t b (Ot & Kt).
  carry2 Kt. pose proof (own_split _ _ _ _ [v; v0; v1; v2; v3; v4; v6; v8] [v7; v5] Ot ltac:(same_elements)) as W.
  split; [apply W|]. cbn [fst snd]. exists [v7; v5]. split; [exact W|].
  repeat (apply Forall2_cons; [eapply (left_after _ _ _ _ _ _ _ Ot); [memof|cbn [In]; mem|assumption]|]). constructor.
Qed.

(* ---- mod_power and mod_mult on strings ---- *)
Lemma do_str h0 h1 h vs ss a : own h0 h vs ss -> keeps h1 h -> (a < length h1)%nat ->
  agrees h0 (m_of_bytes share h a) (Ret (bn_of_bytes (str h1 a))) (fun h' v z => (own h0 h' (v :: vs) ss /\ val h' v z /\ (v = Imm z /\ immediate z \/ v = Blk (S (length h)) /\ ~ immediate z)) /\ keeps h h').
Proof. intros O K Ha. apply do_of_bytes; [exact O|destruct K; lia|now apply str_keep]. Qed.
Ltac rd := eapply agrees_let; [eapply do_str; [eassumption|eassumption|eassumption]|let h := fresh "h" in let v := fresh "v" in let O := fresh "O" in let V := fresh "V" in let A := fresh "A" in let K := fresh "K" in
  intros h v ((O & V & A) & K); carry2 K; match goal with K0 : keeps ?h1 ?h2, K : keeps ?h2 h |- _ => pose proof (keeps_trans _ _ _ K0 K); clear K0 end].
Lemma pow_agrees h0 h vs ss a b c : own h0 h vs ss -> (a < length h)%nat -> (b < length h)%nat -> (c < length h)%nat ->
  agrees h0 (m_pow share h a b c) (mod_power (str h a) (str h b) (str h c)) (fun h' t s => (exists ws, own h0 h' (ws ++ vs) ((t, s) :: ss)) /\ keeps h h').
Proof.
  intros O Ha Hb Hc. unfold m_pow, mod_power, m_mod_power, bn_mod_power. pose proof (keeps_refl h) as K. rd. rd. rd. zb.
  match goal with K : keeps h ?x, K' : keeps ?x ?y |- _ => pose proof (keeps_trans _ _ _ K K') as Kf end. rewrite <- (str_keep h _ c Kf Hc).
  eapply agrees_weaken; [eapply do_to_bytes; eassumption|]. intros h5 t s (Ot & Kt). split; [exists [v2; v1; v0; v]; exact Ot|exact (keeps_trans _ _ _ Kf Kt)].
Qed.
Lemma mul_agrees h0 h vs ss a b c : own h0 h vs ss -> (a < length h)%nat -> (b < length h)%nat -> (c < length h)%nat ->
  agrees h0 (m_mul share h a b c) (mod_mult (str h a) (str h b) (str h c)) (fun h' t s => (exists ws, own h0 h' (ws ++ vs) ((t, s) :: ss)) /\ keeps h h').
Proof.
  intros O Ha Hb Hc. unfold m_mul, mod_mult, m_mult, m_rem. pose proof (keeps_refl h) as K. rd. rd. zl.
  match goal with K : keeps h ?x, K' : keeps ?x ?y |- _ => pose proof (keeps_trans _ _ _ K K'); clear K K' end. rd. zb.
  match goal with K : keeps h ?x, K' : keeps ?x ?y |- _ => pose proof (keeps_trans _ _ _ K K') as Kf end. rewrite <- (str_keep h _ c Kf Hc).
  eapply agrees_weaken; [eapply do_to_bytes; eassumption|]. intros h6 t s (Ot & Kt). split; [exists [v3; v2; v1; v0; v]; exact Ot|exact (keeps_trans _ _ _ Kf Kt)].
Qed.
Lemma pai_add_agrees h key c1 c2 : present h (c1 :: c2 :: pai_pub_strings key) ->
  agrees h (m_mul share h c1 c2 (mpp_n2 key)) (pai_add (pai_pub_of h key) (str h c1) (str h c2)) (fun h' t s => (length h <= t < length h')%nat /\ cell_at h' t = Str s).
Proof.
  intros P. presents P. eapply agrees_weaken; [apply (mul_agrees h h [] []); [apply own_init|assumption|assumption|assumption]|].
  intros h' t b ((ws & O) & _). exact (o_str _ _ _ _ O t b (or_introl eq_refl)).
Qed.

(* ---- Diffie-Hellman ---- *)
Lemma secret_val h v : secret_ok h v -> val h v (num h v).
Proof. intros H. split; [reflexivity|]. destruct v; [exact I|apply H]. Qed.
Lemma dh_crypt_ok h b p x (w : bool) : (b < length h)%nat -> (p < length h)%nat -> secret_ok h x ->
  agrees h (let! (h, o) := m_of_bytes share h b in let! (h, p') := m_of_bytes share h p in let! (h, r) := m_mod_power share h o x p' in m_to_bytes h (Some (zlen (str h p) * 8)) r)
   (olet r := bn_mod_power (bn_of_bytes (str h b)) (num h x) (bn_of_bytes (str h p)) in bn_to_bytes (Some (zlen (str h p) * 8)) r)
   (fun h' t s => exists r p' o, own h h' [r; p'; o] [(t, s)] /\ val h' o (bn_of_bytes (str h b)) /\ val h' p' (bn_of_bytes (str h p)) /\
      val h' r (Zpow_facts.Zpow_mod (bn_of_bytes (str h b)) (num h x) (Z.abs (bn_of_bytes (str h p)))) /\ (forall z, r = Imm z -> immediate z)).
Proof.
  intros Hb Hp Hx. pose proof (secret_val h x Hx) as Vx. unfold m_mod_power, bn_mod_power. pose proof (keeps_refl h) as K. pose proof (own_init h) as O. rd. rd. zb. apply powm_value in E. subst z.
  match goal with K : keeps h ?x, K' : keeps ?x ?y |- _ => pose proof (keeps_trans _ _ _ K K') as Kf end. rewrite <- (str_keep h _ p Kf Hp).
  eapply agrees_weaken; [eapply do_to_bytes; eassumption|]. intros h6 t s (Ot & Kt). carry2 Kt. exists v1, v0, v. splits; try assumption. intros z Ez. destruct G as (_ & _ & [(Ev & Gi)|[(Ev & _)|[]]]); congruence.
Qed.
Lemma dh_message_agrees h params x : present h [mdh_g params; mdh_p params] -> secret_ok h x ->
  agrees h (m_dh_message share h params x) (dh_message (dh_params_of h params) (num h x)) (fun h' t s => (length h <= t < length h')%nat /\ cell_at h' t = Str s).
Proof.
  intros P Hx. presents P. eapply agrees_weaken; [apply (dh_crypt_ok h (mdh_g params) (mdh_p params) x true); assumption|].
  intros h' t s (r & p & o & O & _). exact (o_str _ _ _ _ O t s (or_introl eq_refl)).
Qed.
Lemma wipe_other h x i : in_heap h x -> Blk i <> x -> cell_at (m_wipe h x) i = cell_at h i.
Proof. destruct x as [z|a]; [reflexivity|]. cbn [in_heap m_wipe]. intros Ha Hn. apply store_other; [exact Ha|congruence]. Qed.
Lemma wipe_secret h h' x : secret_ok h x -> keeps h h' -> num (m_wipe h' x) x = z_wipe (num h x).
Proof.
  intros Hx (K1 & K2). destruct x as [z|a]; cbn [secret_ok num m_wipe] in *.
  - unfold z_wipe, immediate in *. now destruct (_ && _) eqn:E; [|lia].
  - destruct Hx as (Ha & z & Ez & Hz). rewrite store_same by lia. rewrite Ez. unfold z_wipe, immediate in *. destruct (_ && _) eqn:E; [|reflexivity]. destruct Hz as [->|Hz]; [reflexivity|lia].
Qed.
Definition dh_shared (h : heap) params x msg := Zpow_facts.Zpow_mod (bn_of_bytes (str h msg)) (num h x) (Z.abs (bn_of_bytes (str h (mdh_p params)))).
Lemma dh_shared_agrees h params x msg : present h [msg; mdh_p params] -> secret_ok h x ->
  let r := m_dh_shared_secret share h params x msg in let v := dh_shared_secret (dh_params_of h params) (num h x) (str h msg) in
  string_of r = snd v /\ num (fst r) x = fst v /\ (forall i, (i < length h)%nat -> Blk i <> x -> cell_at (fst r) i = cell_at h i) /\
  (forall t, snd r = Ret t -> (length h <= t < length (fst r))%nat /\ (immediate (dh_shared h params x msg) \/ exists i, (length h <= i < length (fst r))%nat /\ cell_at (fst r) i = Num (dh_shared h params x msg))).
Proof.
  intros P Hx. presents P. cbv zeta. unfold m_dh_shared_secret, dh_shared_secret, dh_params_of. cbn [dh_p].
  pose proof (dh_crypt_ok h msg (mdh_p params) x true ltac:(assumption) ltac:(assumption) Hx) as G.
  set (rr := let! (h0, o) := m_of_bytes share h msg in let! (h1, p') := m_of_bytes share h0 (mdh_p params) in let! (h2, r) := m_mod_power share h1 o x p' in m_to_bytes h2 (Some (zlen (str h2 (mdh_p params)) * 8)) r) in G.
  assert ((let! (h0, o) := m_of_bytes share h msg in let! (h1, p) := m_of_bytes share h0 (mdh_p params) in let! (h2, r) := m_mod_power share h1 o x p in
    let! (h3, res) := m_to_bytes h2 (Some (zlen (str h2 (mdh_p params)) * 8)) r in (m_wipe h3 x, Ret res)) = (let! (h3, res) := rr in (m_wipe h3 x, Ret res))) as E.
  { unfold rr. destruct (m_of_bytes share h msg) as [h1 [o|e| |]]; cbn [bind]; try reflexivity. destruct (m_of_bytes share h1 (mdh_p params)) as [h2 [p|e| |]]; cbn [bind]; try reflexivity.
    destruct (m_mod_power share h2 o x p) as [h3 [r|e| |]]; cbn [bind]; reflexivity. }
  rewrite E. clear E. clearbody rr. destruct G as (K & G). destruct rr as [h1 [t|e| |]]; cbn [fst snd bind] in *.
  all: destruct (olet r := _ in _) as [s|e'| |]; cbn [fst snd] in *; try contradiction.
  1: { destruct G as (r & p & o & O & Vo & Vp & Vr & Ir). assert (in_heap h1 x) as Ix by (destruct x; [exact I|destruct K, Hx; cbn; lia]).
    assert (length (m_wipe h1 x) = length h1) as L by (destruct x; [reflexivity|cbn [m_wipe]; now apply length_store]).
    destruct (o_str _ _ _ _ O t s (or_introl eq_refl)) as (Ht & Et).
    assert (forall i, (length h <= i)%nat -> Blk i <> x) as Nx by (intros i Hi <-; destruct Hx; lia).
    splits.
    + unfold string_of. cbn [fst snd obind]. unfold str. rewrite wipe_other by (auto; apply Nx; lia). now rewrite Et.
    + now apply wipe_secret.
    + intros i Hi Hn. rewrite wipe_other by assumption. now apply K.
    + intros t' Et'. injection Et' as <-. rewrite L. split; [exact Ht|]. fold (dh_shared h params x msg) in Vr.
      pose proof (o_num _ _ _ _ O r (or_introl eq_refl)) as Nr. destruct r as [z|i].
      * left. destruct Vr as (Vr & _). cbn [num] in Vr. rewrite <- Vr. now apply Ir.
      * right. destruct Nr as (N1 & z & N2). exists i. split; [exact N1|]. rewrite wipe_other by (auto; apply Nx; lia). destruct Vr as (Vr & _). cbn [num] in Vr. rewrite N2 in *. now subst. }
  all: try subst e'; splits; [reflexivity|exact (proj1 (val_keep _ _ _ _ K (secret_val _ _ Hx)))|intros i Hi _; now apply K|intros t Et; discriminate Et].
Qed.
End Share.
