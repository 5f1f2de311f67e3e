(* Sessions with the public-key functions, over a memory. *)
From Coq Require Import Zpow_facts Znumtheory.
From Verif Require Import Prelude PreludeFacts BytesNum HashModel RngModel BnModel Bn PkModel SpecPk Pk PkGen Pk2 Pk3 PkCases BnHeapModel SpecPkMem BnHeap PkHeap PkHeap2 PkHeap3 PkHeap4 PkHeap5.

Lemma keeps_str h h' a : keeps h h' -> (a < length h)%nat -> str h' a = str h a.
Proof. intros (_ & K) H. unfold str. now rewrite K. Qed.
Lemma present_keeps h h' l : keeps h h' -> present h l -> present h' l.
Proof. intros (L & _) P. eapply Forall_impl; [|exact P]. cbv beta. intros a H. lia. Qed.
Lemma present_length h h' l : (length h <= length h')%nat -> present h l -> present h' l.
Proof. intros L P. eapply Forall_impl; [|exact P]. cbv beta. intros a H. lia. Qed.
Lemma rsa_pub_keeps h h' k : keeps h h' -> present h (rsa_pub_strings k) -> rsa_pub_of h' k = rsa_pub_of h k.
Proof. intros K P. presents P. unfold rsa_pub_of. now rewrite !(keeps_str h h') by assumption. Qed.
Lemma rsa_priv_keeps h h' k : keeps h h' -> present h (rsa_priv_strings k) -> rsa_priv_of h' k = rsa_priv_of h k.
Proof. intros K P. presents P. unfold rsa_priv_of. now rewrite !(keeps_str h h') by assumption. Qed.
Lemma pai_pub_keeps h h' k : keeps h h' -> present h (pai_pub_strings k) -> pai_pub_of h' k = pai_pub_of h k.
Proof. intros K P. presents P. unfold pai_pub_of. now rewrite !(keeps_str h h') by assumption. Qed.
Lemma pai_priv_keeps h h' k : keeps h h' -> present h (pai_priv_strings k) -> pai_priv_of h' k = pai_priv_of h k.
Proof. intros K P. presents P. unfold pai_priv_of. now rewrite !(keeps_str h h') by assumption. Qed.
Lemma string_ret r b : string_of r = Ret b -> exists t, r = (fst r, Ret t) /\ str (fst r) t = b.
Proof. unfold string_of. destruct r as [h [t|e| |]]; cbn [fst snd obind]; intros E; try discriminate. exists t. split; [reflexivity|]. now injection E. Qed.
(* the result is new *)
Lemma agrees_new h0 r p (Q : heap -> nat -> bytes -> Prop) : agrees h0 r p Q -> (forall h t b, Q h t b -> (length h0 <= t < length h)%nat /\ cell_at h t = Str b) ->
  keeps h0 (fst r) /\ new_string h0 r /\ string_of r = p.
Proof.
  intros A G. destruct (agrees_string _ _ _ _ A) as (K & S). { intros h t b H. apply G in H as (_ & H). unfold str. now rewrite H. }
  split; [exact K|]. split; [|exact S]. intros t Et. destruct A as (_ & A). rewrite Et in A. destruct p as [b|e| |]; try contradiction. apply (G _ _ _ A).
Qed.
Section Use.
Variable share : heap -> Z -> list bn -> nat.
Lemma rsa_encrypt_mem h key msg : present h (msg :: rsa_pub_strings key) -> let r := m_rsa_encrypt share h key msg in
  keeps h (fst r) /\ new_string h r /\ string_of r = rsa_encrypt (rsa_pub_of h key) (str h msg).
Proof. intros P. eapply agrees_new; [exact (rsa_encrypt_agrees share h key msg P)|]. intros h' t b O. apply (o_str _ _ _ _ O); now left. Qed.
Lemma rsa_decrypt_mem h key msg : present h (msg :: rsa_priv_strings key) -> let r := m_rsa_decrypt share h key msg in
  keeps h (fst r) /\ new_string h r /\ string_of r = rsa_decrypt (rsa_priv_of h key) (str h msg).
Proof. intros P. eapply agrees_new; [exact (rsa_decrypt_agrees share h key msg P)|]. intros h' t b O. apply (o_str _ _ _ _ O); now left. Qed.
Lemma rsa_crt_mem h key msg : present h (msg :: rsa_priv_strings key) -> let r := m_rsa_decrypt_CRT share h key msg in
  keeps h (fst r) /\ new_string h r /\ string_of r = rsa_decrypt_CRT (rsa_priv_of h key) (str h msg).
Proof. intros P. eapply agrees_new; [exact (rsa_crt_agrees share h key msg P)|]. intros h' t b (us & O & _). apply (o_str _ _ _ _ O); now left. Qed.
Lemma pai_decrypt_mem h key c : present h (c :: pai_priv_strings key) -> let r := m_pai_decrypt share h key c in
  keeps h (fst r) /\ new_string h r /\ string_of r = pai_decrypt (pai_priv_of h key) (str h c).
Proof. intros P. eapply agrees_new; [exact (pai_decrypt_agrees share h key c P)|]. intros h' t b (us & O & _). apply (o_str _ _ _ _ O); now left. Qed.
Lemma pai_add_mem h key c1 c2 : present h (c1 :: c2 :: pai_pub_strings key) -> let r := m_mul share h c1 c2 (mpp_n2 key) in
  keeps h (fst r) /\ new_string h r /\ string_of r = pai_add (pai_pub_of h key) (str h c1) (str h c2).
Proof. intros P. eapply agrees_new; [exact (pai_add_agrees share h key c1 c2 P)|]. auto. Qed.
Lemma dh_message_mem h params x : present h [mdh_g params; mdh_p params] -> secret_ok h x -> let r := m_dh_message share h params x in
  keeps h (fst r) /\ new_string h r /\ string_of r = dh_message (dh_params_of h params) (num h x).
Proof. intros P S. eapply agrees_new; [exact (dh_message_agrees share h params x P S)|]. auto. Qed.
Lemma dh_shared_mem h params x msg : present h [msg; mdh_p params] -> secret_ok h x ->
  let r := m_dh_shared_secret share h params x msg in let v := dh_shared_secret (dh_params_of h params) (num h x) (str h msg) in
  new_string h r /\ string_of r = snd v /\ num (fst r) x = fst v /\ (forall i, (i < length h)%nat -> Blk i <> x -> cell_at (fst r) i = cell_at h i).
Proof. intros P S. destruct (dh_shared_agrees share h params x msg P S) as (A & B & C & D). cbv zeta. splits; auto. intros t Ht. apply (D t Ht). Qed.
Lemma dh_kept h params x msg h' t : present h [msg; mdh_p params] -> secret_ok h x -> m_dh_shared_secret share h params x msg = (h', Ret t) ->
  let k := be (str h msg) ^ num h x mod Z.abs (be (str h (mdh_p params))) in immediate k \/ exists i, (length h <= i < length h')%nat /\ cell_at h' i = Num k.
Proof.
  intros P S E. cbv zeta. destruct (dh_shared_agrees share h params x msg P S) as (A & _ & _ & D). rewrite E in *. cbn [fst snd] in D. destruct (D t eq_refl) as (_ & H). unfold dh_shared in H.
  rewrite pow_abs in H; [exact H|]. intros Z0. unfold dh_shared_secret, bn_mod_power, z_powm_sec in A. cbn [dh_p dh_params_of] in A. rewrite Z0 in A. cbn [Z.even] in A. rewrite orb_true_r in A. discriminate A.
Qed.
(* the message of Paillier.encrypt *)
Lemma of_bytes_mem h a : (a < length h)%nat -> exists h' v, m_of_bytes share h a = (h', Ret v) /\ keeps h h' /\
  (~ immediate (be (str h a)) -> exists i, (length h <= i < length h')%nat /\ cell_at h' i = Num (be (str h a))).
Proof.
  intros Ha. destruct (do_key share h h [] [] a (own_init h) Ha) as (K1 & H1). destruct (m_of_bytes share h a) as [h1 [m|e| |]]; cbn [fst snd] in *; try contradiction. destruct H1 as ((O1 & V1 & A1) & _).
  exists h1, m. split; [reflexivity|]. split; [exact K1|]. intros Hi. destruct A1 as [(_ & A1)|(-> & _)]; [destruct (Hi A1)|]. pose proof (o_num _ _ _ _ O1 _ (or_introl eq_refl)) as (N1 & z & N2). exists (S (length h)). split; [exact N1|].
  destruct V1 as (V1 & _). cbn [num] in V1. rewrite N2 in *. now subst.
Qed.
Lemma keeps_bind {A B} h (r : heap * out A) (k : heap -> A -> heap * out B) : keeps h (fst r) -> (forall h' a, r = (h', Ret a) -> keeps h (fst (k h' a))) -> keeps h (fst (bind r k)).
Proof. destruct r as [h' [a|e| |]]; cbn [fst snd bind]; intros K H; try exact K. now apply H. Qed.
Lemma z_ret_keeps h r args : keeps h (fst (z_ret share h r args)).
Proof.
  destruct r as [z|e| |]; cbn [z_ret]; try apply keeps_refl. unfold z_res. destruct (_ && _); [apply keeps_refl|]. destruct (nth_error _ _) as [v|]; [|apply keeps_app]. destruct (_ =? _); [apply keeps_refl|apply keeps_app].
Qed.
Lemma to_bytes_keeps h nb n : keeps h (fst (m_to_bytes h nb n)).
Proof.
  unfold m_to_bytes, alloc. apply keeps_bind; [apply keeps_app|]. intros h' l E. injection E as <- _. destruct (_ || _); [apply keeps_app|]. apply keeps_bind; [apply keeps_app|]. intros h' b E. injection E as <- _. cbn [fst].
  apply keeps_store; [exact (keeps_trans _ _ _ (keeps_app _ _) (keeps_app _ _))|]. rewrite !app_length. cbn [length]. lia.
Qed.
Lemma z_res_keeps h z args : keeps h (fst (z_res share h z args)).
Proof. unfold z_res. destruct (_ && _); [apply keeps_refl|]. destruct (nth_error _ _) as [v|]; [|apply keeps_app]. destruct (_ =? _); [apply keeps_refl|apply keeps_app]. Qed.
Lemma of_bytes_keeps h a : keeps h (fst (m_of_bytes share h a)).
Proof.
  unfold m_of_bytes, alloc. pose proof (z_res_keeps (h ++ [Str (rev (str h a))]) (le (str (h ++ [Str (rev (str h a))]) (length h))) []) as K. destruct (z_res _ _ _ _) as [h' v]. cbn [fst] in *.
  apply keeps_store; [exact (keeps_trans _ _ _ (keeps_app _ _) K)|]. destruct K as (K & _). rewrite app_length in K. cbn [length] in K. lia.
Qed.
Lemma ret_keeps {A} h (r : heap * out A) h' a : r = (h', a) -> keeps h (fst r) -> keeps h h'. Proof. now intros ->. Qed.
Ltac kb := apply keeps_bind; [apply of_bytes_keeps || apply z_ret_keeps|let h' := fresh "h" in let a := fresh "v" in let E := fresh "E" in intros h' a E; eapply keeps_trans; [eapply ret_keeps; [exact E|apply of_bytes_keeps || apply z_ret_keeps]|]].
Lemma pow_keeps h a b c : keeps h (fst (m_pow share h a b c)).
Proof. unfold m_pow, m_mod_power. do 4 kb. apply to_bytes_keeps. Qed.
Lemma mul_keeps h a b c : keeps h (fst (m_mul share h a b c)).
Proof. unfold m_mul, m_mult, m_rem. do 5 kb. apply to_bytes_keeps. Qed.
Lemma pow_exponent_kept h a b c : (a < length h)%nat -> (b < length h)%nat -> (c < length h)%nat -> ~ immediate (be (str h b)) ->
  exists i, (length h <= i < length (fst (m_pow share h a b c)))%nat /\ cell_at (fst (m_pow share h a b c)) i = Num (be (str h b)).
Proof.
  intros Ha Hb Hc Hi. unfold m_pow. destruct (of_bytes_mem h a Ha) as (h1 & va & E1 & K1 & _). rewrite E1. cbn [bind]. assert (length h <= length h1)%nat as L1 by apply K1.
  destruct (of_bytes_mem h1 b ltac:(lia)) as (h2 & vb & E2 & K2 & B2). rewrite E2. cbn [bind]. rewrite (keeps_str h h1) in B2 by assumption. destruct (B2 Hi) as (i & Bi & Ci). assert (length h1 <= length h2)%nat as L2 by apply K2.
  match goal with |- context [fst (bind ?r ?k)] => assert (keeps h2 (fst (bind r k))) as K end.
  { destruct (of_bytes_mem h2 c ltac:(lia)) as (h3 & vc & E3 & K3 & _). rewrite E3. cbn [bind]. apply (keeps_trans _ h3); [exact K3|]. apply keeps_bind; [apply z_ret_keeps|]. intros h' r E. eapply keeps_trans; [|apply to_bytes_keeps]. pose proof (z_ret_keeps h3 (z_powm_sec (num h3 va) (num h3 vb) (num h3 vc)) []) as X. unfold m_mod_power in E. rewrite E in X. exact X. }
  exists i. split; [destruct K; lia|]. rewrite (proj2 K) by apply Bi. exact Ci.
Qed.
Variables (fresh : Z -> bytes) (R : rng) (np : Z -> Z).
Lemma pai_encrypt_mem fuel s h key msg : present h (msg :: pai_pub_strings key) -> let r := m_pai_encrypt share fresh R fuel (s, h) key msg in
  let v := pai_encrypt fresh R fuel s (pai_pub_of h key) (str h msg) in let h' := snd (fst r) in
  fst (fst r) = fst v /\ keeps h h' /\ new_string h (h', snd r) /\ string_of (h', snd r) = snd v.
Proof.
  intros P. destruct (pai_encrypt_agrees share fresh R (fun z => z) h fuel (s, h) key msg eq_refl P) as (A & B). cbv zeta. split; [exact A|]. destruct (agrees_new _ _ _ _ B) as (X & Y); [cbv beta; intros h' t b (E & _); exact E|]. split; [exact X|exact Y].
Qed.
Lemma pai_r_kept fuel s h key msg s' h' t : present h (msg :: pai_pub_strings key) -> m_pai_encrypt share fresh R fuel (s, h) key msg = ((s', h'), Ret t) ->
  exists i r s1, pai_get_r fresh R fuel s (pai_pub_of h key) = (s1, Ret r) /\ (length h <= i < length h')%nat /\ cell_at h' i = Str r.
Proof.
  intros P E. destruct (pai_encrypt_agrees share fresh R (fun z => z) h fuel (s, h) key msg eq_refl P) as (_ & B). rewrite E in B. destruct (agrees_ret _ _ _ _ _ _ B eq_refl) as (b & _ & _ & H). exact H.
Qed.

Lemma pai_message_kept fuel s h key msg s' h' t : present h (msg :: pai_pub_strings key) -> ~ immediate (be (str h msg)) -> m_pai_encrypt share fresh R fuel (s, h) key msg = ((s', h'), Ret t) ->
  exists i, (length h <= i < length h')%nat /\ cell_at h' i = Num (be (str h msg)).
Proof.
  intros P Hi E. presents P. unfold m_pai_encrypt in E. 
  destruct (pai_get_r_agrees share fresh R (fun z => z) h key ltac:(assumption) fuel (s, h) [] (own_init h)) as (_ & K1 & H1).
  destruct (m_pai_get_r share fresh R fuel (s, h) key) as [[s1 h1] [r|e| |]]; cbn [bind] in E; try discriminate E. cbn [fst snd] in K1, H1, E. assert (length h <= length h1)%nat as L1 by apply K1.
  assert ((r < length h1)%nat) as Hr. { destruct (snd (pai_get_r fresh R fuel s (pai_pub_of h key))) as [b|e| |] eqn:Eb; cbn [fst snd] in H1; try contradiction. destruct H1 as (vs & O1). apply (o_str _ _ _ _ O1 r b). now left. }
  destruct (pow_exponent_kept h1 (mpp_g key) msg (mpp_n2 key) ltac:(lia) ltac:(lia) ltac:(lia)) as (i & Bi & Ci). { now rewrite (keeps_str h h1). } rewrite (keeps_str h h1) in Ci by assumption.
  pose proof (pow_keeps h1 (mpp_g key) msg (mpp_n2 key)) as K2. destruct (m_pow share h1 (mpp_g key) msg (mpp_n2 key)) as [h2 [gm|e| |]] eqn:E2; cbn [on_heap lift bind fst snd] in *; try discriminate E. assert (length h1 <= length h2)%nat as L2 by apply K2.
  pose proof (pow_keeps h2 r (mpp_n key) (mpp_n2 key)) as K3. destruct (m_pow share h2 r (mpp_n key) (mpp_n2 key)) as [h3 [rn|e| |]] eqn:E3; cbn [on_heap lift bind fst snd] in *; try discriminate E. assert (length h2 <= length h3)%nat as L3 by apply K3.
  pose proof (mul_keeps h3 gm rn (mpp_n2 key)) as K4. destruct (m_mul share h3 gm rn (mpp_n2 key)) as [h4 [x|e| |]] eqn:E4; cbn [on_heap lift bind fst snd] in *; try discriminate E. injection E as <- <- <-. assert (length h3 <= length h4)%nat as L4 by apply K4.
  exists i. split; [lia|]. rewrite (proj2 K4), (proj2 K3) by lia. exact Ci.
Qed.
Lemma rsa_key_valid fuel s h e nb s' h' k : fresh_ok fresh -> rng_bytes R -> (forall n, 0 <= n -> prime (np n)) -> (forall x, e = Some x -> 0 < x) ->
  m_rsa_new_key share fresh R np fuel (s, h) e nb = ((s', h'), Ret k) ->
  rsa_pair (rsa_priv_of h' (fst k)) (rsa_pub_of h' (snd k)) /\ rsa_crt (rsa_priv_of h' (fst k)) /\ present h' (rsa_priv_strings (fst k) ++ rsa_pub_strings (snd k)).
Proof.
  intros F B N X E. pose proof (rsa_new_key_ok share fresh R np fuel s h e nb) as H. cbv zeta in H. rewrite E in H. cbn [fst snd obind] in H. destruct H as (_ & _ & V & H). destruct (H k eq_refl) as (_ & P).
  destruct (rsa_new_key fresh R np fuel s e nb) as [s2 o] eqn:Ev. cbn [snd] in V. subst o. destruct (new_key_valid fresh R np fuel s e nb s2 _ F B N X Ev) as (_ & PR & CR). split; [exact PR|]. split; [exact CR|]. eapply Forall_impl; [|exact P]. intros a Ha. apply Ha.
Qed.
Lemma pai_key_valid fuel s h nb s' h' k : fresh_ok fresh -> rng_bytes R -> (forall n, 0 <= n -> prime (np n)) -> nb <= 2 ^ 50 ->
  m_pai_new_key share fresh R np fuel (s, h) nb = ((s', h'), Ret k) ->
  pai_key (pai_priv_of h' (fst k)) (pai_pub_of h' (snd k)) /\ present h' (pai_priv_strings (fst k) ++ pai_pub_strings (snd k)).
Proof.
  intros F B N L E. pose proof (pai_new_key_ok share fresh R np fuel s h nb) as H. cbv zeta in H. rewrite E in H. cbn [fst snd obind] in H. destruct H as (_ & _ & V & H). destruct (H k eq_refl) as (_ & P).
  destruct (pai_new_key fresh R np fuel s nb) as [s2 o] eqn:Ev. cbn [snd] in V. subst o. destruct (pai_new_key_inv fresh R np F B N fuel s nb s2 _ L Ev) as (PK & _). split; [exact PK|]. eapply Forall_impl; [|exact P]. intros a Ha. apply Ha.
Qed.
(* RSA: a key, a message encrypted, decrypted in both ways, the private key erased, and the same message encrypted again *)
Lemma rsa_session fuel s h e nb s1 h1 k msg : fresh_ok fresh -> rng_bytes R -> (forall n, 0 <= n -> prime (np n)) -> (forall x, e = Some x -> 0 < x) -> aligned nb ->
  m_rsa_new_key share fresh R np fuel (s, h) e nb = ((s1, h1), Ret k) -> (msg < length h)%nat -> bytes_ok (str h msg) -> be (str h msg) < be (str h1 (mrp_n (snd k))) ->
  exists h2 c h3 m3 h4 m4 h6 c6, m_rsa_encrypt share h1 (snd k) msg = (h2, Ret c) /\ m_rsa_decrypt share h2 (fst k) c = (h3, Ret m3) /\ m_rsa_decrypt_CRT share h3 (fst k) c = (h4, Ret m4) /\
   m_rsa_encrypt share (m_rsa_wipe_key h4 (fst k)) (snd k) msg = (h6, Ret c6) /\
   let text := to_be (width nb) (be (str h msg)) in str h3 m3 = text /\ str h4 m4 = text /\ str h6 c6 = str h2 c /\ keeps h h6.
Proof.
  intros F B N X A E Hm Hb Hl. pose proof (rsa_new_key_ok share fresh R np fuel s h e nb) as H. cbv zeta in H. rewrite E in H. cbn [fst snd obind] in H. destruct H as (_ & K1 & V & H). destruct (H k eq_refl) as (D & P). clear H E.
  destruct (rsa_new_key fresh R np fuel s e nb) as [s2 o] eqn:Ev. cbn [snd] in V. subst o. destruct (new_key_valid fresh R np fuel s e nb s2 _ F B N X Ev) as (SP & PR & CR). cbn [fst snd] in SP, PR, CR. clear Ev.
  apply Forall_app in P as (P1 & P2). assert (present h1 (rsa_priv_strings (fst k))) as Q1 by (eapply Forall_impl; [|exact P1]; intros a Ha; apply Ha). assert (present h1 (rsa_pub_strings (snd k))) as Q2 by (eapply Forall_impl; [|exact P2]; intros a Ha; apply Ha).
  assert (str h1 msg = str h msg) as E1 by (now apply keeps_str). assert ((msg < length h1)%nat) as Hm1 by (destruct K1; lia).
  destruct SP as (SZ' & SZ & _ & BN & _ & _ & _ & QP & _). cbn [fst snd] in SZ, BN, QP.
  destruct (rsa_roundtrip _ _ (str h msg) PR) as ((c0 & Ec & Lc & Ed) & _); [rewrite SZ; exact A|exact Hb|exact Hl|]. rewrite SZ in Ed.
  assert (bytes_ok c0) as Bc. { pose proof (proj1 (rsa_exact _ _ (str h msg) PR Hb)) as X1. rewrite Ec in X1. destruct (_ >=? _); [discriminate|]. unfold encode in X1. destruct (_ <=? _); [|discriminate]. injection X1 as ->. apply bytes_ok_to_be. }
  destruct (rsa_encrypt_mem h1 (snd k) msg) as (K2 & N2 & S2); [now constructor|]. rewrite E1, Ec in S2. destruct (string_ret _ _ S2) as (c & Rc & Sc). set (h2 := fst (m_rsa_encrypt share h1 (snd k) msg)) in *.
  assert ((c < length h2)%nat) as Hc by (apply N2; rewrite Rc; reflexivity).
  pose proof (present_keeps _ _ _ K2 Q1) as Q1_2. destruct (rsa_decrypt_mem h2 (fst k) c) as (K3 & N3 & S3); [now constructor|]. rewrite Sc, (rsa_priv_keeps _ _ _ K2 Q1), Ed in S3. destruct (string_ret _ _ S3) as (m3 & R3 & S3'). set (h3 := fst (m_rsa_decrypt share h2 (fst k) c)) in *.
  pose proof (present_keeps _ _ _ K3 Q1_2) as Q1_3. destruct (rsa_crt_mem h3 (fst k) c) as (K4 & N4 & S4); [constructor; [destruct K3; lia|exact Q1_3]|].
  rewrite (keeps_str _ _ _ K3 Hc), Sc, (rsa_priv_keeps _ _ _ K3 Q1_2), (rsa_priv_keeps _ _ _ K2 Q1), (proj1 (rsa_crt_ok _ _ CR QP Bc)), Ed in S4. destruct (string_ret _ _ S4) as (m4 & R4 & S4'). set (h4 := fst (m_rsa_decrypt_CRT share h3 (fst k) c)) in *.
  pose proof (keeps_trans _ _ _ K2 (keeps_trans _ _ _ K3 K4)) as K14. destruct (rsa_wipe_key_ok h4 (fst k) (present_keeps _ _ _ K14 Q1)) as (L5 & _ & O5). set (h5 := m_rsa_wipe_key h4 (fst k)) in *.
  assert (keeps h h5) as K5. { split; [destruct K1, K14; lia|]. intros i Hi. rewrite O5; [rewrite (proj2 K14) by (destruct K1; lia); now apply K1|]. intros I. pose proof P1 as P1'. rewrite Forall_forall in P1'. apply P1' in I. lia. }
  assert (rsa_pub_of h5 (snd k) = rsa_pub_of h1 (snd k)) as E5. { rewrite <- (rsa_pub_keeps _ _ _ K14 Q2). unfold rsa_pub_of, str. rewrite !O5; [reflexivity| |]; apply (nodup_app_out _ _ _ D); unfold rsa_pub_strings; cbn [In]; mem. }
  destruct (rsa_encrypt_mem h5 (snd k) msg) as (K6 & N6 & S6). { apply (present_length h1); [destruct K14; lia|now constructor]. }
  rewrite E5, (keeps_str _ _ _ K5 Hm), Ec in S6. destruct (string_ret _ _ S6) as (c6 & R6 & S6'). set (h6 := fst (m_rsa_encrypt share h5 (snd k) msg)) in *.
  exists h2, c, h3, m3, h4, m4, h6, c6. cbv zeta. splits; try assumption; [congruence|]. eapply keeps_trans; eassumption.
Qed.

(* Paillier: a key, two messages encrypted, the sum decrypted *)
Lemma pai_session fuel s h nb s1 h1 k m1 m2 s2 h2 c1 s3 h3 c2 : fresh_ok fresh -> rng_bytes R -> (forall n, 0 <= n -> prime (np n)) -> nb <= 2 ^ 50 ->
  m_pai_new_key share fresh R np fuel (s, h) nb = ((s1, h1), Ret k) -> present h [m1; m2] -> 0 < be (str h m1) -> 0 < be (str h m2) -> be (str h m1) + be (str h m2) < be (str h1 (mpp_n (snd k))) ->
  m_pai_encrypt share fresh R fuel (s1, h1) (snd k) m1 = ((s2, h2), Ret c1) -> m_pai_encrypt share fresh R fuel (s2, h2) (snd k) m2 = ((s3, h3), Ret c2) ->
  exists h4 c h5 t, m_mul share h3 c1 c2 (mpp_n2 (snd k)) = (h4, Ret c) /\ m_pai_decrypt share h4 (fst k) c = (h5, Ret t) /\ be (str h5 t) = be (str h m1) + be (str h m2) /\ keeps h h5.
Proof.
  intros F B N L E P G1 G2 GL E1 E2. pose proof (pai_new_key_ok share fresh R np fuel s h nb) as H. cbv zeta in H. rewrite E in H. cbn [fst snd obind] in H. destruct H as (_ & K1 & V & H). destruct (H k eq_refl) as (D & PP). clear H E.
  destruct (pai_new_key fresh R np fuel s nb) as [s' o] eqn:Ev. cbn [snd] in V. subst o. destruct (pai_new_key_inv fresh R np F B N fuel s nb s' _ L Ev) as (PK & _ & _). cbn [fst snd] in PK. clear Ev.
  apply Forall_app in PP as (P1 & P2). assert (present h1 (pai_priv_strings (fst k))) as Q1 by (eapply Forall_impl; [|exact P1]; intros a Ha; apply Ha). assert (present h1 (pai_pub_strings (snd k))) as Q2 by (eapply Forall_impl; [|exact P2]; intros a Ha; apply Ha).
  presents P. assert ((m1 < length h1)%nat /\ (m2 < length h1)%nat) as (M1 & M2) by (destruct K1; lia).
  destruct (pai_encrypt_mem fuel s1 h1 (snd k) m1) as (_ & K2 & N2 & S2); [now constructor|]. rewrite E1 in K2, N2, S2. cbn [fst snd] in K2, N2, S2. rewrite (keeps_str h h1 m1) in S2 by assumption.
  destruct (pai_encrypt fresh R fuel s1 (pai_pub_of h1 (snd k)) (str h m1)) as [? o] eqn:V1. unfold string_of in S2. cbn [fst snd obind] in S2. subst o. 
  destruct (pai_encrypt_mem fuel s2 h2 (snd k) m2) as (_ & K3 & N3 & S3); [constructor; [destruct K2; lia|now apply (present_keeps h1)]|]. rewrite E2 in K3, N3, S3. cbn [fst snd] in K3, N3, S3. rewrite (keeps_str h1 h2 m2), (keeps_str h h1 m2), (pai_pub_keeps h1 h2) in S3 by assumption.
  destruct (pai_encrypt fresh R fuel s2 (pai_pub_of h1 (snd k)) (str h m2)) as [? o] eqn:V2. unfold string_of in S3. cbn [fst snd obind] in S3. subst o.
  assert (ciphertext (pai_pub_of h1 (snd k)) (be (str h m1)) (str h2 c1)) as C1 by (eapply C_enc; try eassumption; lia).
  assert (ciphertext (pai_pub_of h1 (snd k)) (be (str h m2)) (str h3 c2)) as C2 by (eapply C_enc; try eassumption; lia).
  assert ((c1 < length h2)%nat) as Hc1 by (now apply N2). assert ((c2 < length h3)%nat) as Hc2 by (now apply N3). pose proof (keeps_trans _ _ _ K2 K3) as K13.
  destruct (pai_add_mem h3 (snd k) c1 c2) as (K4 & N4 & S4); [constructor; [destruct K3; lia|constructor; [exact Hc2|now apply (present_keeps h1)]]|]. rewrite (keeps_str h2 h3 c1), (pai_pub_keeps h1 h3) in S4 by assumption.
  destruct (pai_add_total _ _ _ _ _ _ PK C1 C2) as (c' & Ec & C3). rewrite Ec in S4. destruct (string_ret _ _ S4) as (c & Rc & Sc). set (h4 := fst (m_mul share h3 c1 c2 (mpp_n2 (snd k)))) in *. pose proof (keeps_trans _ _ _ K13 K4) as K14.
  destruct (pai_decrypt_mem h4 (fst k) c) as (K5 & N5 & S5); [constructor; [apply N4; rewrite Rc; reflexivity|now apply (present_keeps h1)]|]. rewrite Sc, (pai_priv_keeps h1 h4) in S5 by assumption.
  destruct (pai_ciphertext_ok _ _ _ _ PK C3) as (x & Ex & Bx). rewrite Ex in S5. destruct (string_ret _ _ S5) as (t & Rt & St). exists h4, c, (fst (m_pai_decrypt share h4 (fst k) c)), t. splits; [exact Rc|exact Rt| |exact (keeps_trans _ _ _ K1 (keeps_trans _ _ _ K14 K5))].
  rewrite St, Bx. apply Z.mod_small. cbn [pai_pub_of pp_n]. lia.
Qed.
(* Diffie-Hellman: two private secrets, which are different blocks or are immediate *)
Lemma dh_session h params x y : dh_ok (dh_params_of h params) -> present h [mdh_g params; mdh_p params] -> secret_ok h x -> secret_ok h y -> 0 < num h x -> 0 < num h y -> (x <> y \/ exists z, x = Imm z) ->
  exists h1 mx h2 my h3 k1 h4 k2, m_dh_message share h params x = (h1, Ret mx) /\ m_dh_message share h1 params y = (h2, Ret my) /\
  m_dh_shared_secret share h2 params x my = (h3, Ret k1) /\ m_dh_shared_secret share h3 params y mx = (h4, Ret k2) /\ str h3 k1 = str h4 k2 /\ str h4 k1 = str h4 k2 /\
  be (str h4 k2) = be (str h (mdh_g params)) ^ (num h x * num h y) mod be (str h (mdh_p params)).
Proof.
  intros OK P Sx Sy Px Py Ne. destruct (dh_agree _ _ _ OK Px Py) as (vx & vy & vk & M1 & M2 & A1 & A2 & _ & Bk).
  assert (forall h h' v, keeps h h' -> secret_ok h v -> secret_ok h' v /\ num h' v = num h v) as SK.
  { clear. intros h h' [z|a] (L & K) S; cbn [secret_ok num] in *; [auto|]. destruct S as (S & z & E & Z). rewrite K by exact S. split; [|reflexivity]. split; [lia|]. exists z. auto. }
  destruct (dh_message_mem h params x P Sx) as (K1 & N1 & S1). rewrite M1 in S1. destruct (string_ret _ _ S1) as (mx & R1 & T1). set (h1 := fst (m_dh_message share h params x)) in *.
  destruct (SK _ _ _ K1 Sy) as (Sy1 & Ny1). assert (dh_params_of h1 params = dh_params_of h params) as D1 by (presents P; unfold dh_params_of; now rewrite !(keeps_str h h1) by assumption).
  destruct (dh_message_mem h1 params y (present_keeps _ _ _ K1 P) Sy1) as (K2 & N2 & S2). rewrite D1, Ny1, M2 in S2. destruct (string_ret _ _ S2) as (my & R2 & T2). set (h2 := fst (m_dh_message share h1 params y)) in *.
  pose proof (keeps_trans _ _ _ K1 K2) as K02. destruct (SK _ _ _ K02 Sx) as (Sx2 & Nx2). destruct (SK _ _ _ K2 Sy1) as (Sy2 & Ny2). assert (dh_params_of h2 params = dh_params_of h params) as D2 by (presents P; unfold dh_params_of; now rewrite !(keeps_str h h2) by assumption).
  assert ((mx < length h1)%nat) as Hx by (apply N1; now rewrite R1). assert ((my < length h2)%nat) as Hy by (apply N2; now rewrite R2). pose proof P as P'. presents P'.
  destruct (dh_shared_mem h2 params x my) as (N3 & S3 & _ & O3); [repeat constructor; [exact Hy|destruct K02; lia]|exact Sx2|]. rewrite D2, Nx2, T2, A1 in S3. destruct (string_ret _ _ S3) as (k1 & R3 & T3). set (h3 := fst (m_dh_shared_secret share h2 params x my)) in *.
  assert ((length h2 <= k1 < length h3)%nat) as H3 by (apply N3; now rewrite R3).
  assert (forall i, (i < length h2)%nat -> (forall z, cell_at h2 i <> Num z) -> cell_at h3 i = cell_at h2 i) as O3'.
  { intros i Hi Hn. apply O3; [exact Hi|]. intros <-. destruct Sx2 as (_ & z & E & _). now destruct (Hn z). }
  assert (secret_ok h3 y /\ num h3 y = num h2 y) as (Sy3 & Ny3).
  { clear - Sy2 O3 H3 Ne. destruct y as [z|a]; [auto|]. destruct Sy2 as (La & z & E & Z). assert (cell_at h3 a = cell_at h2 a) as Ea by (apply O3; [exact La|]; intros <-; destruct Ne as [Ne|(? & Ne)]; congruence).
    cbn [secret_ok num]. rewrite Ea. split; [|reflexivity]. split; [lia|]. exists z. auto. }
  assert (str h3 (mdh_p params) = str h (mdh_p params)) as Ep.
  { rewrite <- (keeps_str h h2) by assumption. unfold str. rewrite O3'; [reflexivity|destruct K02; lia|]. intros z Ez. destruct OK as (_ & _ & _ & OK). cbn [dh_params_of dh_p] in OK. rewrite <- (keeps_str h h2) in OK by assumption. unfold str in OK. rewrite Ez in OK. exact (Z.lt_irrefl 0 OK). }
  assert ((length h <= mx)%nat) as Hx' by (apply N1; now rewrite R1). assert (Blk mx <> x) as Nx by (intros <-; destruct Sx; lia).
  assert (str h3 mx = vx) as Em by (unfold str; rewrite O3 by (assumption || (destruct K2; lia)); rewrite (proj2 K2) by exact Hx; exact T1).
  destruct (dh_shared_mem h3 params y mx) as (N4 & S4 & _ & O4); [repeat constructor; [destruct K2; lia|destruct K02; lia]|exact Sy3|]. rewrite Ny3, Ny2, Ny1, Em in S4.
  assert (snd (dh_shared_secret (dh_params_of h3 params) (num h y) vx) = snd (dh_shared_secret (dh_params_of h params) (num h y) vx)) as E4 by (unfold dh_shared_secret; cbn [dh_p dh_params_of]; now rewrite Ep).
  rewrite E4, A2 in S4. destruct (string_ret _ _ S4) as (k2 & R4 & T4). set (h4 := fst (m_dh_shared_secret share h3 params y mx)) in *.
  exists h1, mx, h2, my, h3, k1, h4, k2. splits; try assumption; [congruence| |rewrite T4; exact Bk].
  rewrite T4, <- T3. unfold str. rewrite O4; [reflexivity|apply H3|]. intros <-. destruct Sy2. lia.
Qed.
End Use.
