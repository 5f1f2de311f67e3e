(* Programs with several generators (C90). *)
From Verif Require Import Prelude PreludeFacts BytesNum TransformModel BlockModel CipherModel SpecAes AesModel AesniModel Aes AesApi SpecStream StreamModel Chacha SpecRng RngModel Rng WipeCipher WipeMore SpecRngMem RngMemModel.

Lemma nth_replace {A} (l : list A) i x j : nth_error (replace l i x) j = if Nat.eqb j i then option_map (fun _ => x) (nth_error l j) else nth_error l j.
Proof.
  revert i j; induction l as [|y l IH]; intros i j; cbn [replace].
  - destruct (Nat.eqb j i); destruct j; reflexivity.
  - destruct i as [|i]; destruct j as [|j]; cbn [nth_error Nat.eqb option_map]; try reflexivity. apply IH.
Qed.
Lemma Forall2_replace {A B} (P : A -> B -> Prop) l l' i x y : Forall2 P l l' -> P x y -> Forall2 P (replace l i x) (replace l' i y).
Proof. intros H. revert i; induction H as [|a b l l' H0 H IH]; intros i Hxy; cbn [replace]; [constructor|]. destruct i; constructor; auto. Qed.
Lemma Forall2_nth {A B} (P : A -> B -> Prop) l l' i : Forall2 P l l' -> match nth_error l i, nth_error l' i with Some x, Some y => P x y | None, None => True | _, _ => False end.
Proof. intros H. revert i; induction H as [|a b l l' H0 H IH]; intros [|i]; cbn [nth_error]; auto. apply IH. Qed.
Lemma map_replace {A B} (f : A -> B) l i x : map f (replace l i x) = replace (map f l) i (f x).
Proof. revert i; induction l as [|y l IH]; intros [|i]; cbn [replace map]; f_equal; auto. Qed.
Lemma replace_same {A} (l : list A) i x : nth_error l i = Some x -> replace l i x = l.
Proof. revert i; induction l as [|y l IH]; intros [|i] H; cbn [nth_error replace] in *; try discriminate; [now injection H as ->|]. f_equal. now apply IH. Qed.
Lemma map_zero (l : bytes) : map (fun _ => 0) l = zeros (zlen l).
Proof. unfold zeros, zlen. rewrite Nat2Z.id. induction l; cbn; f_equal; auto. Qed.

Section RngMem.
Variable fresh : Z -> bytes.
Hypothesis fresh_len : forall n, 0 <= n -> zlen (fresh n) = n.
Variable nb : bytes -> out bobj.
Hypothesis Hnb : nb = new_aes fresh Encrypt \/ nb = new_aesni fresh Encrypt.

Definition good (o : mgen) (a : agen) : Prop :=
  mg_seed o = g_seed a /\ (forall s, snd (r_wipe (ro_class (mg_obj o)) s) = Ret tt) /\ (forall n, byte_ok (g_stream a n)) /\
  (g_wiped a = false -> forall qs, (g_kind a = Aes_ctr_gen -> Forall q_valid qs) ->
     r_run (ro_class (mg_obj o)) (ro_st (mg_obj o)) qs = delivered (g_stream a) (g_pos a) qs).

Lemma stream_byte k seed n : bytes_ok seed -> 16 <= zlen seed -> byte_ok (stream_of k seed n).
Proof.
  intros B H. destruct k; cbn [stream_of].
  - apply chacha_byte; [apply seed_key_ok; assumption|split; [left; reflexivity|apply bytes_ok_zeros]].
  - unfold ctr_stream. apply Forall_nth; [|].
    + apply aes_E_blk; [left; unfold zlen in *; rewrite firstn_length; lia|apply Forall_firstn, B|apply zlen_to_be; lia|apply bytes_ok_to_be].
    + destruct (aes_E_blk (firstn 16 seed) (to_be 16 (Z.of_nat (n / 16)))) as (E & _); [left; unfold zlen in *; rewrite firstn_length; lia|apply Forall_firstn, B|apply zlen_to_be; lia|apply bytes_ok_to_be|].
      unfold zlen in E. pose proof (Nat.mod_upper_bound n 16). lia.
Qed.

Lemma make_short k seed : bytes_ok seed -> zlen seed < 16 -> make fresh nb k seed = Raise (Error Seed_too_short).
Proof.
  intros B H. destruct k; cbn [make].
  - now apply pseudo_rng_stream.
  - now apply pseudo_rng_aes_ctr_stream.
Qed.
Lemma make_good k seed s : bytes_ok seed -> 16 <= zlen seed -> exists o, make fresh nb k seed = Ret o /\ good (MG o s) (AG k (stream_of k seed) 0 s false).
Proof.
  intros B H. assert (X : exists o, make fresh nb k seed = Ret o /\ (forall s, snd (r_wipe (ro_class o) s) = Ret tt) /\
    forall qs, (k = Aes_ctr_gen -> Forall q_valid qs) -> r_run (ro_class o) (ro_st o) qs = delivered (stream_of k seed) 0 qs).
  { destruct k; cbn [make stream_of].
    - destruct (pseudo_rng_stream fresh seed B) as (_ & X). destruct (X H) as (o & E & R). exists o. split; [exact E|]. split; [|intros; apply R].
      unfold pseudo_rng in E. replace (zlen seed <? 16) with false in E by lia. injection E as <-. reflexivity.
    - destruct (pseudo_rng_aes_ctr_stream fresh nb seed fresh_len Hnb B) as (_ & X). destruct (X H) as (o & E & R). exists o. split; [exact E|]. split; [|intros qs V; apply R; auto].
      unfold pseudo_rng_aes_ctr in E. replace (zlen seed <? 16) with false in E by lia. destruct (bytes_sub seed 0 16); try discriminate. cbn [obind] in E.
      destruct (nb a); try discriminate. cbn [obind] in E. injection E as <-. reflexivity. }
  destruct X as (o & E & W & R). exists o. split; [exact E|]. split; [reflexivity|]. split; [exact W|]. split; [intros n; now apply stream_byte|]. intros _. exact R.
Qed.

Lemma good_ask o s a buf ofs len : good (MG o s) a -> g_wiped a = false -> (g_kind a = Aes_ctr_gen -> in_range buf ofs len = true) -> 
  let x := r_bytes (ro_class o) (ro_st o) buf ofs len in
  if in_range buf ofs len
  then snd (fst x) = splice buf ofs (ks_bytes (g_stream a) (g_pos a) (Z.to_nat len)) /\ snd x = Ret tt /\
       good (MG (RObj (ro_class o) (fst (fst x))) s) (AG (g_kind a) (g_stream a) (g_pos a + Z.to_nat len) (g_seed a) (g_wiped a))
  else snd (fst x) = buf /\ snd x = Raise Invalid_argument /\ good (MG (RObj (ro_class o) (fst (fst x))) s) a.
Proof.
  intros (Es & W & B & R) Ew V x. cbn [mg_obj mg_seed] in *. specialize (R Ew).
  assert (X : forall qs, (g_kind a = Aes_ctr_gen -> Forall q_valid qs) -> (snd (fst x), snd x) :: r_run (ro_class o) (fst (fst x)) qs = delivered (g_stream a) (g_pos a) (Req buf ofs len :: qs)).
  { intros qs Vq. specialize (R (Req buf ofs len :: qs)). cbn [r_run q_buf q_ofs q_len] in R. apply R. intros K. constructor; [exact (V K)|exact (Vq K)]. }
  cbn [delivered q_buf q_ofs q_len] in X. destruct (in_range buf ofs len).
  - pose proof (X [] (fun _ => Forall_nil _)) as X0. injection X0 as E1 E2. split; [exact E1|]. split; [exact E2|].
    split; [exact Es|]. split; [exact W|]. split; [exact B|]. intros _ qs Vq. specialize (X qs Vq). injection X as _ _ X. exact X.
  - pose proof (X [] (fun _ => Forall_nil _)) as X0. injection X0 as E1 E2. split; [exact E1|]. split; [exact E2|].
    split; [exact Es|]. split; [exact W|]. split; [exact B|]. intros _ qs Vq. specialize (X qs Vq). injection X as _ _ X. exact X.
Qed.

Lemma set_same m r i : set m r (m r) i = m i.
Proof. unfold set. destruct (Nat.eqb_spec i r); subst; reflexivity. Qed.

(* the memories are equal at every place *)
Definition eqm (m m' : store) : Prop := forall i, m i = m' i.
Lemma set_eqm m m' r x : eqm m m' -> eqm (set m r x) (set m' r x).
Proof. intros H i. unfold set. now rewrite H. Qed.
Definition mok (m : store) : Prop := forall i, bytes_ok (m i).
Lemma set_mok m r x : mok m -> bytes_ok x -> mok (set m r x).
Proof. intros H B i. unfold set. destruct (Nat.eqb i r); auto. Qed.

Lemma ks_ok f n k : (forall n, byte_ok (f n)) -> bytes_ok (ks_bytes f n k).
Proof. intros H. unfold ks_bytes. apply Forall_map, Forall_forall. intros i _. apply H. Qed.

Lemma step_ok_ok m m' gs ags o : eqm m m' -> mok m' -> Forall2 good gs ags -> step_ok m' ags o ->
  let x := m_step fresh nb m gs o in let y := spec_step m' ags o in
  eqm (fst (fst x)) (fst (fst y)) /\ mok (fst (fst y)) /\ Forall2 good (snd (fst x)) (snd (fst y)) /\ snd x = snd y.
Proof.
  intros M B G O. destruct o as [k s|g r ofs len|g]; cbn [m_step spec_step step_ok] in *.
  - rewrite M. destruct (Z.ltb_spec (zlen (m' s)) 16) as [H|H].
    + rewrite make_short by auto. cbn. auto.
    + destruct (make_good k (m' s) s (B s) H) as (o & -> & Go). cbn. repeat split; auto. apply Forall2_app; auto.
  - pose proof (Forall2_nth _ _ _ g G) as N. destruct (nth_error gs g) as [[o s]|], (nth_error ags g) as [a|] eqn:Ha; try contradiction; [|cbn; auto].
    destruct (O a eq_refl) as (Ew & V). rewrite M. pose proof (good_ask o s a (m' r) ofs len N Ew V) as X. cbv zeta in X. cbv zeta. destruct (in_range (m' r) ofs len).
    + destruct X as (E1 & E2 & E3). cbn [fst snd]. rewrite E1, E2. destruct N as (_ & _ & Bs & _). repeat split; [now apply set_eqm|apply set_mok; [exact B|apply bytes_ok_splice; [apply B|now apply ks_ok]]|now apply Forall2_replace].
    + destruct X as (E1 & E2 & E3). cbn [fst snd]. rewrite E1, E2. repeat split; [|exact B|].
      * intros i. unfold set. destruct (Nat.eqb_spec i r); subst; auto.
      * rewrite <- (replace_same ags g a Ha). now apply Forall2_replace.
  - pose proof (Forall2_nth _ _ _ g G) as N. destruct (nth_error gs g) as [[o s]|], (nth_error ags g) as [a|]; try contradiction; [|cbn; auto].
    destruct N as (Es & W & Bs & R). cbn [mg_obj mg_seed] in *. subst s. cbv zeta. cbn [fst snd]. rewrite W, map_zero, M. repeat split; [now apply set_eqm|apply set_mok; [exact B|apply bytes_ok_zeros]|].
    apply Forall2_replace; [exact G|]. split; [reflexivity|]. split; [exact W|]. split; [exact Bs|]. discriminate.
Qed.

Theorem run_ok ops : forall m m' gs ags, eqm m m' -> mok m' -> Forall2 good gs ags -> prog_ok m' ags ops ->
  eqm (fst (m_run fresh nb m gs ops)) (fst (spec_run m' ags ops)) /\ snd (m_run fresh nb m gs ops) = snd (spec_run m' ags ops).
Proof.
  induction ops as [|o ops IH]; intros m m' gs ags M B G P; cbn [m_run spec_run]; [split; [exact M|reflexivity]|].
  destruct P as (O & P). pose proof (step_ok_ok m m' gs ags o M B G O) as X. cbv zeta in X.
  destruct (m_step fresh nb m gs o) as ((m1, gs1), r1), (spec_step m' ags o) as ((m2, gs2), r2). cbn [fst snd] in *. destruct X as (M1 & B1 & G1 & <-).
  specialize (IH m1 m2 gs1 gs2 M1 B1 G1 P). destruct (m_run fresh nb m1 gs1 ops) as (m3, l3), (spec_run m2 gs2 ops) as (m4, l4). cbn [fst snd] in *. destruct IH as (H1 & <-). auto.
Qed.
End RngMem.

Lemma programs fresh nb m ops : (forall n, 0 <= n -> zlen (fresh n) = n) -> (nb = new_aes fresh Encrypt \/ nb = new_aesni fresh Encrypt) -> (forall i, bytes_ok (m i)) -> prog_ok m [] ops ->
  snd (m_run fresh nb m [] ops) = snd (spec_run m [] ops) /\ forall i, fst (m_run fresh nb m [] ops) i = fst (spec_run m [] ops) i.
Proof. intros F N B P. destruct (run_ok fresh F nb N ops m m [] [] (fun _ => eq_refl) B (Forall2_nil _) P). auto. Qed.

(* ---- what is not written ---- *)
Lemma frame_run fresh nb i ops : forall m gs, ~ In i (arrays ops) -> (forall o, In o gs -> mg_seed o <> i) /\ ~ In i (seeds ops) \/ Forall (fun o => not_wipe o = true) ops ->
  fst (m_run fresh nb m gs ops) i = m i.
Proof.
  induction ops as [|o ops IH]; intros m gs A S; cbn [m_run]; [reflexivity|].
  assert (X : exists m1 gs1 r, m_step fresh nb m gs o = (m1, gs1, r) /\ m1 i = m i /\ ((forall o, In o gs1 -> mg_seed o <> i) /\ ~ In i (seeds ops) \/ Forall (fun o => not_wipe o = true) ops)).
  { unfold arrays, seeds in *. cbn [flat_map] in *. rewrite in_app_iff in A, S.
    destruct o as [k s|g r ofs len|g]; cbn [m_step] in *.
    - destruct (make fresh nb k (m s)) as [x|e| |] eqn:E; do 3 eexists; (split; [reflexivity|]); (split; [reflexivity|]); (destruct S as [(S1 & S2)|S]; [left; split; [|tauto]|right; now inversion S]); try exact S1.
      intros y Hy. apply in_app_iff in Hy. destruct Hy as [Hy|[<-|[]]]; [now apply S1|]. cbn. intros ->. apply S2. left. now left.
    - destruct (nth_error gs g) as [[x s]|] eqn:E.
      + do 3 eexists. split; [reflexivity|]. split.
        * unfold set. destruct (Nat.eqb_spec i r) as [->|]; [|reflexivity]. exfalso. apply A. left. now left.
        * destruct S as [(S1 & S2)|S]; [left; split; [|tauto]|right; now inversion S]. intros y Hy. apply In_nth_error in Hy. destruct Hy as (j & Hj). rewrite nth_replace in Hj.
          destruct (Nat.eqb_spec j g) as [e|]; [rewrite e, E in Hj; cbn [option_map] in Hj; injection Hj as <-; apply (S1 (MG x s)); eapply nth_error_In; exact E|apply S1; eapply nth_error_In; exact Hj].
      + do 3 eexists. split; [reflexivity|]. split; [reflexivity|]. destruct S as [(S1 & S2)|S]; [left; split; [exact S1|tauto]|right; now inversion S].
    - destruct S as [(S1 & S2)|S]; [|inversion S; discriminate]. destruct (nth_error gs g) as [[x s]|] eqn:E.
      + do 3 eexists. split; [reflexivity|]. split.
        * unfold set. destruct (Nat.eqb_spec i s) as [->|]; [|reflexivity]. exfalso. apply (S1 (MG x s)); [eapply nth_error_In; exact E|reflexivity].
        * left. split; [|tauto]. intros y Hy. apply In_nth_error in Hy. destruct Hy as (j & Hj). rewrite nth_replace in Hj.
          destruct (Nat.eqb_spec j g) as [e|]; [rewrite e, E in Hj; cbn [option_map] in Hj; injection Hj as <-; apply (S1 (MG x s)); eapply nth_error_In; exact E|apply S1; eapply nth_error_In; exact Hj].
      + do 3 eexists. split; [reflexivity|]. split; [reflexivity|]. left. split; [exact S1|tauto]. }
  destruct X as (m1 & gs1 & r & -> & <- & S1). specialize (IH m1 gs1). destruct (m_run fresh nb m1 gs1 ops) as (m2, l). cbn [fst] in *. apply IH; [|exact S1].
  intros H. apply A. unfold arrays. cbn [flat_map]. apply in_app_iff. now right.
Qed.
Lemma frame fresh nb m ops i : ~ In i (arrays ops) -> ~ In i (seeds ops) \/ Forall (fun o => not_wipe o = true) ops -> fst (m_run fresh nb m [] ops) i = m i.
Proof. intros A S. apply frame_run; [exact A|]. destruct S; [left; split; [intros o []|assumption]|now right]. Qed.

(* ---- seeds used once: wiping changes nothing else ---- *)
Definition strip (a : agen) : agen := AG (g_kind a) (g_stream a) (g_pos a) (g_seed a) false.
Lemma nth_strip gs gs' g : map strip gs = map strip gs' -> option_map strip (nth_error gs g) = option_map strip (nth_error gs' g).
Proof. intros H. rewrite <- !nth_error_map, H. reflexivity. Qed.
Lemma seeds_strip gs gs' : map strip gs = map strip gs' -> map g_seed gs = map g_seed gs'.
Proof. intros H. transitivity (map g_seed (map strip gs)); [rewrite map_map; reflexivity|]. rewrite H, map_map. reflexivity. Qed.
Lemma seeds_replace gs g a b : nth_error gs g = Some a -> g_seed b = g_seed a -> map g_seed (replace gs g b) = map g_seed gs.
Proof. intros H E. rewrite map_replace, E. apply replace_same. rewrite nth_error_map, H. reflexivity. Qed.

Lemma wipe_once_run ops : forall m m' gs gs', map strip gs = map strip gs' -> (forall i, ~ In i (map g_seed gs) -> m i = m' i) ->
  NoDup (seeds ops) -> (forall i, In i (seeds ops) -> ~ In i (map g_seed gs)) -> (forall i, In i (arrays ops) -> ~ In i (map g_seed gs) /\ ~ In i (seeds ops)) ->
  others ops (snd (spec_run m gs ops)) = combine (filter not_wipe ops) (snd (spec_run m' gs' (filter not_wipe ops))) /\
  forall i, ~ In i (map g_seed gs) -> ~ In i (seeds ops) -> fst (spec_run m gs ops) i = fst (spec_run m' gs' (filter not_wipe ops)) i.
Proof.
  induction ops as [|o ops IH]; intros m m' gs gs' G M ND S A; [split; [reflexivity|]; intros; cbn; auto|].
  destruct o as [k s|g r ofs len|g]; cbn [spec_run filter not_wipe spec_step].
  - unfold seeds in ND, S. cbn [flat_map app] in ND, S. fold (seeds ops) in ND, S. assert (Es : m s = m' s) by (apply M, S; now left). rewrite Es.
    assert (A' : forall i, In i (arrays ops) -> ~ In i (map g_seed gs) /\ i <> s /\ ~ In i (seeds ops)).
    { intros i Hi. destruct (A i Hi) as (A1 & A2). unfold seeds in A2. cbn [flat_map app In] in A2. repeat split; [exact A1| |]; intros X; apply A2; [left; auto|right; exact X]. }
    inversion ND as [|? ? N1 N2]; subst. destruct (zlen (m' s) <? 16).
    + specialize (IH m m' gs gs' G M N2 (fun i Hi => S i (or_intror Hi)) (fun i Hi => conj (proj1 (A' i Hi)) (proj2 (proj2 (A' i Hi))))).
      destruct (spec_run m gs ops), (spec_run m' gs' (filter not_wipe ops)). cbn [fst snd] in *. destruct IH as (H1 & H2). split.
      * unfold others in *. cbn [combine filter fst not_wipe]. f_equal. exact H1.
      * intros i Hi Hs. apply H2; [exact Hi|]. intros X. apply Hs. unfold seeds. cbn [flat_map app]. now right.
    + set (x := AG k (stream_of k (m' s)) 0 s false) in *.
      assert (Em : map g_seed (gs ++ [x]) = map g_seed gs ++ [s]) by (rewrite map_app; reflexivity).
      specialize (IH m m' (gs ++ [x]) (gs' ++ [x])). rewrite !map_app, G in IH. change (map g_seed [x]) with [s] in IH. specialize (IH eq_refl).
      assert (X1 : forall i, ~ In i (map g_seed gs ++ [s]) -> ~ In i (map g_seed gs) /\ i <> s) by (intros i Hi; rewrite in_app_iff in Hi; cbn [In] in Hi; split; [tauto|intros ->; tauto]).
      assert (X2 : forall i, ~ In i (map g_seed gs) -> i <> s -> ~ In i (map g_seed gs ++ [s])) by (intros i H1 H2; rewrite in_app_iff; cbn [In]; intros [H|[H|[]]]; [tauto|congruence]).
      specialize (IH (fun i Hi => M i (proj1 (X1 i Hi))) N2). 
      assert (X3 : forall i, In i (seeds ops) -> ~ In i (map g_seed gs ++ [s])) by (intros i Hi; apply X2; [apply S; now right|intros ->; tauto]).
      assert (X4 : forall i, In i (arrays ops) -> ~ In i (map g_seed gs ++ [s]) /\ ~ In i (seeds ops)) by (intros i Hi; destruct (A' i Hi) as (? & ? & ?); split; [now apply X2|assumption]).
      specialize (IH X3 X4). destruct (spec_run m (gs ++ [x]) ops), (spec_run m' (gs' ++ [x]) (filter not_wipe ops)). cbn [fst snd] in *. destruct IH as (H1 & H2). split.
      * unfold others in *. cbn [combine filter fst not_wipe]. f_equal. exact H1.
      * intros i Hi Hs. apply H2; [apply X2; [exact Hi|]|]; [intros ->; apply Hs; now left|intros X; apply Hs; now right].
  - unfold seeds in ND, S, A. cbn [flat_map app] in ND, S, A. fold (seeds ops) in ND, S, A.
    assert (A' : forall i, In i (arrays ops) -> ~ In i (map g_seed gs) /\ ~ In i (seeds ops)) by (intros i Hi; apply A; now right).
    assert (Ar : m r = m' r) by (apply M, A; now left). rewrite Ar. pose proof (nth_strip gs gs' g G) as N.
    destruct (nth_error gs g) as [a|] eqn:Ea, (nth_error gs' g) as [a'|] eqn:Ea'; try discriminate N.
    + assert (N' : strip a = strip a') by (injection N; unfold strip; intros; congruence). assert (N1 : g_kind a = g_kind a') by (injection N'; auto). assert (N2 : g_stream a = g_stream a') by (injection N'; auto).
      assert (N3 : g_pos a = g_pos a') by (injection N'; auto). assert (N4 : g_seed a = g_seed a') by (injection N'; auto). rewrite <- N1, <- N2, <- N3, <- N4. destruct (in_range (m' r) ofs len).
      * set (x := AG _ _ _ _ (g_wiped a)). set (x' := AG _ _ _ _ (g_wiped a')). set (v := splice _ _ _).
        assert (Ex : map g_seed (replace gs g x) = map g_seed gs) by (eapply seeds_replace; [exact Ea|reflexivity]).
        specialize (IH (set m r v) (set m' r v) (replace gs g x) (replace gs' g x')). rewrite Ex in IH. rewrite !map_replace, G in IH. specialize (IH eq_refl).
        assert (M' : forall i, ~ In i (map g_seed gs) -> set m r v i = set m' r v i) by (intros i Hi; unfold set; destruct (Nat.eqb i r); auto).
        specialize (IH M' ND S A'). destruct (spec_run (set m r v) _ ops), (spec_run (set m' r v) _ (filter not_wipe ops)). cbn [fst snd] in *. destruct IH as (H1 & H2). split; [|exact H2].
        unfold others in *. cbn [combine filter fst not_wipe]. f_equal. exact H1.
      * specialize (IH m m' gs gs' G M ND S A'). destruct (spec_run m gs ops), (spec_run m' gs' (filter not_wipe ops)). cbn [fst snd] in *. destruct IH as (H1 & H2). split; [|exact H2].
        unfold others in *. cbn [combine filter fst not_wipe]. f_equal. exact H1.
    + specialize (IH m m' gs gs' G M ND S A'). destruct (spec_run m gs ops), (spec_run m' gs' (filter not_wipe ops)). cbn [fst snd] in *. destruct IH as (H1 & H2). split; [|exact H2].
      unfold others in *. cbn [combine filter fst not_wipe]. f_equal. exact H1.
  - destruct (nth_error gs g) as [a|] eqn:Ea.
    + set (x := AG _ _ _ _ true). set (v := zeros _). assert (Ex : map g_seed (replace gs g x) = map g_seed gs) by (eapply seeds_replace; [exact Ea|reflexivity]).
      assert (Gx : map strip (replace gs g x) = map strip gs) by (rewrite map_replace; apply replace_same; rewrite nth_error_map, Ea; reflexivity).
      specialize (IH (set m (g_seed a) v) m' (replace gs g x) gs'). rewrite Ex, Gx in IH.
      assert (M' : forall i, ~ In i (map g_seed gs) -> set m (g_seed a) v i = m' i).
      { intros i Hi. unfold set. destruct (Nat.eqb_spec i (g_seed a)) as [->|]; [|auto]. exfalso. apply Hi. apply in_map. eapply nth_error_In. exact Ea. }
      specialize (IH G M' ND S A). destruct (spec_run (set m _ v) _ ops). cbn [fst snd] in *. destruct IH as (H1 & H2). split; [|exact H2]. exact H1.
    + specialize (IH m m' gs gs' G M ND S A). destruct (spec_run m gs ops). cbn [fst snd] in *. destruct IH as (H1 & H2). split; [|exact H2]. exact H1.
Qed.
Lemma wipe_once fresh nb m ops : (forall n, 0 <= n -> zlen (fresh n) = n) -> (nb = new_aes fresh Encrypt \/ nb = new_aesni fresh Encrypt) -> (forall i, bytes_ok (m i)) -> prog_ok m [] ops ->
  NoDup (seeds ops) -> (forall i, In i (arrays ops) -> ~ In i (seeds ops)) ->
  others ops (snd (m_run fresh nb m [] ops)) = combine (filter not_wipe ops) (snd (spec_run m [] (filter not_wipe ops))) /\
  forall i, ~ In i (seeds ops) -> fst (m_run fresh nb m [] ops) i = fst (spec_run m [] (filter not_wipe ops)) i.
Proof.
  intros F N B P ND A. destruct (programs fresh nb m ops F N B P) as (-> & E). destruct (wipe_once_run ops m m [] [] eq_refl (fun _ _ => eq_refl) ND (fun _ _ H => H) (fun i Hi => conj (fun H => H) (A i Hi))) as (H1 & H2).
  split; [exact H1|]. intros i Hi. rewrite E. apply H2; [intros []|exact Hi].
Qed.

(* ---- the seed of a wiped generator ---- *)
Lemma seed_reused fresh nb m k1 k2 s r len : (forall n, 0 <= n -> zlen (fresh n) = n) -> (nb = new_aes fresh Encrypt \/ nb = new_aesni fresh Encrypt) -> (forall i, bytes_ok (m i)) ->
  16 <= zlen (m s) -> r <> s -> 0 <= len <= zlen (m r) ->
  let x := m_run fresh nb m [] [New k1 s; Wipe 0; New k2 s; Ask 1 r 0 len] in
  snd x = [Ret tt; Ret tt; Ret tt; Ret tt] /\ fst x s = zeros (zlen (m s)) /\ fst x r = splice (m r) 0 (ks_bytes (stream_of k2 (zeros (zlen (m s)))) 0 (Z.to_nat len)).
Proof.
  intros F N B H D L x. assert (Z0 : zlen (zeros (zlen (m s))) = zlen (m s)) by (unfold zeros, zlen; rewrite repeat_length; lia).
  assert (Er : Nat.eqb r s = false) by now apply Nat.eqb_neq. assert (Es : Nat.eqb s r = false) by (apply Nat.eqb_neq; congruence).
  assert (V : in_range (m r) 0 len = true) by (apply in_range_true; lia). assert (T : (zlen (m s) <? 16) = false) by lia.
  set (a1 := AG k1 (stream_of k1 (m s)) 0 s false). set (b1 := AG k1 (stream_of k1 (m s)) 0 s true). set (m1 := set m s (zeros (zlen (m s)))).
  assert (M1 : m1 s = zeros (zlen (m s))) by (unfold m1, set; rewrite Nat.eqb_refl; reflexivity). assert (M2 : m1 r = m r) by (unfold m1, set; rewrite Er; reflexivity).
  set (a2 := AG k2 (stream_of k2 (zeros (zlen (m s)))) 0 s false).
  assert (S1 : spec_step m [] (New k1 s) = (m, [a1], Ret tt)) by (cbn [spec_step]; rewrite T; reflexivity).
  assert (S2 : spec_step m [a1] (Wipe 0) = (m1, [b1], Ret tt)) by reflexivity.
  assert (S3 : spec_step m1 [b1] (New k2 s) = (m1, [b1; a2], Ret tt)) by (cbn [spec_step]; rewrite M1, Z0, T; reflexivity).
  set (v := splice (m r) 0 (ks_bytes (stream_of k2 (zeros (zlen (m s)))) 0 (Z.to_nat len))).
  assert (S4 : exists gs, spec_step m1 [b1; a2] (Ask 1 r 0 len) = (set m1 r v, gs, Ret tt)) by (cbn [spec_step nth_error]; rewrite M2, V; eexists; reflexivity). destruct S4 as (gs & S4).
  destruct (programs fresh nb m [New k1 s; Wipe 0; New k2 s; Ask 1 r 0 len] F N B) as (E1 & E2).
  { cbn [prog_ok]. rewrite S1. cbn [fst snd]. rewrite S2. cbn [fst snd]. rewrite S3. cbn [fst snd]. split; [exact Logic.I|split; [exact Logic.I|split; [exact Logic.I|split; [|exact Logic.I]]]].
    intros a Ha. injection Ha as <-. split; [reflexivity|]. intros _. rewrite M2. exact V. }
  fold x in E1, E2. rewrite E1, !E2. clear E1 E2 x. cbn [spec_run]. rewrite S1, S2, S3, S4. cbn [fst snd]. split; [reflexivity|]. unfold set at 1 2. rewrite Nat.eqb_refl, Es. auto.
Qed.

(* ---- a wiped pseudo_rng ---- *)
Definition dead : chacha := Chacha (zeros 16) (zeros 64) 0 0.
Definition dead_stream (n : nat) : Z := fst (cc_byte (fst (chacha20_extract dead n))).
Lemma extract_end n : forall c, chacha20_extract c (S n) = (snd (cc_byte (fst (chacha20_extract c n))), snd (chacha20_extract c n) ++ [fst (cc_byte (fst (chacha20_extract c n)))]).
Proof.
  induction n as [|n IH]; intros c.
  - cbn [chacha20_extract fst snd app]. destruct (cc_byte c); reflexivity.
  - change (chacha20_extract c (S (S n))) with (let (k, c1) := cc_byte c in let (c2, r) := chacha20_extract c1 (S n) in (c2, k :: r)). destruct (cc_byte c) as (k, c1) eqn:E.
    rewrite IH. cbn [chacha20_extract]. rewrite E. destruct (chacha20_extract c1 n); reflexivity.
Qed.
Lemma dead_from m : forall n, chacha20_extract (fst (chacha20_extract dead n)) m = (fst (chacha20_extract dead (n + m)), ks_bytes dead_stream n m).
Proof.
  induction m as [|m IH]; intros n; [rewrite Nat.add_0_r; reflexivity|]. cbn [chacha20_extract]. unfold ks_bytes. cbn [seq map].
  assert (E : cc_byte (fst (chacha20_extract dead n)) = (dead_stream n, fst (chacha20_extract dead (S n)))) by (rewrite extract_end; unfold dead_stream; destruct (cc_byte (fst (chacha20_extract dead n))); reflexivity).
  rewrite E, IH. replace (S n + m)%nat with (n + S m)%nat by lia. reflexivity.
Qed.
Lemma dead_zero n : (n < 128)%nat -> dead_stream n = 0.
Proof.
  intros H. assert (E : ks_bytes dead_stream 0 128 = zeros 128) by (pose proof (dead_from 128 0) as X; apply (f_equal snd) in X; cbn [snd] in X; rewrite <- X; vm_compute; reflexivity).
  assert (X : nth n (ks_bytes dead_stream 0 128) 0 = dead_stream n).
  { unfold ks_bytes. rewrite nth_indep with (d' := dead_stream 0) by (rewrite map_length, seq_length; exact H). rewrite map_nth, seq_nth by exact H. reflexivity. }
  rewrite <- X, E. unfold zeros. apply nth_repeat.
Qed.
Lemma dead_run seed qs : forall n, r_run pseudo_rng_class (fst (chacha20_extract dead n), seed) qs = delivered dead_stream n qs.
Proof.
  induction qs as [|q qs IH]; intros n; [reflexivity|]. cbn [r_run delivered]. cbn [pseudo_rng_class r_bytes fst snd]. rewrite in_range_test.
  destruct (in_range (q_buf q) (q_ofs q) (q_len q)); cbn [negb fst snd].
  - rewrite dead_from. cbn [fst snd]. f_equal. apply IH.
  - f_equal. apply IH.
Qed.
Lemma extract_inv n : forall c, cc_inv c -> cc_inv (fst (chacha20_extract c n)).
Proof.
  induction n as [|n IH]; intros c H; [exact H|]. cbn [chacha20_extract]. pose proof (cc_byte_inv c H) as I. destruct (cc_byte c) as (k, c1). cbn [snd] in I. specialize (IH c1 I).
  destruct (chacha20_extract c1 n). exact IH.
Qed.
Lemma wipe_dead c : cc_inv c -> chacha_wipe c = dead.
Proof. intros (H1 & H2 & _). unfold chacha_wipe, dead. rewrite !map_zero. unfold zlen. rewrite H1, H2. reflexivity. Qed.
Lemma wiped_chacha fresh seed o qs qs' : (forall n, 0 <= n -> zlen (fresh n) = n) -> pseudo_rng fresh seed = Ret o ->
  r_run (ro_class o) (fst (r_wipe (ro_class o) (r_after (ro_class o) (ro_st o) qs))) qs' = delivered dead_stream 0 qs'.
Proof.
  intros F E. unfold pseudo_rng in E. destruct (zlen seed <? 16); [discriminate|]. injection E as <-. cbn [ro_class ro_st]. set (c := chacha20_init _ _ _ _).
  assert (I : cc_inv c) by (apply (chacha_init_inv fresh F)). clearbody c.
  assert (X : exists c', cc_inv c' /\ r_after pseudo_rng_class (c, seed) qs = (c', seed)).
  { revert c I. induction qs as [|q qs IH]; intros c I; [eauto|]. cbn [r_after]. cbn [pseudo_rng_class r_bytes fst snd].
    destruct ((q_len q <? 0) || (q_ofs q <? 0) || (q_ofs q >? zlen (q_buf q) - q_len q)); cbn [fst snd]; apply IH; [exact I|]. apply extract_inv, I. }
  destruct X as (c' & I' & ->). cbn [pseudo_rng_class r_wipe fst snd]. rewrite (wipe_dead c' I'). exact (dead_run _ qs' 0).
Qed.

From Verif Require Import Toy.
(* prog_ok by computation *)
Definition step_okb (m : store) (gs : list agen) (o : rop) : bool :=
  match o with
  | Ask g r ofs len => match nth_error gs g with None => true | Some a => negb (g_wiped a) && match g_kind a with Aes_ctr_gen => in_range (m r) ofs len | _ => true end end
  | _ => true
  end.
Fixpoint prog_okb (m : store) (gs : list agen) (ops : list rop) : bool :=
  match ops with [] => true | o :: ops => let '(m', gs', _) := spec_step m gs o in step_okb m gs o && prog_okb m' gs' ops end.
Lemma prog_okb_ok ops : forall m gs, prog_okb m gs ops = true -> prog_ok m gs ops.
Proof.
  induction ops as [|o ops IH]; intros m gs H; cbn [prog_okb prog_ok] in *; [exact Logic.I|]. destruct (spec_step m gs o) as ((m', gs'), x). cbn [fst snd]. apply andb_prop in H. destruct H as (H1 & H2).
  split; [|now apply IH]. destruct o as [k s|g r ofs len|g]; cbn [step_ok step_okb] in *; try exact Logic.I. intros a Ha. rewrite Ha in H1. apply andb_prop in H1. destruct H1 as (H1 & H3).
  split; [now destruct (g_wiped a)|]. intros K. rewrite K in H3. exact H3.
Qed.
Lemma reuse_differs : exists m ops, (forall i, bytes_ok (m i)) /\ prog_ok m [] ops /\ (forall i, In i (arrays ops) -> ~ In i (seeds ops)) /\
  let nb := new_aes toy_fresh Encrypt in fst (m_run toy_fresh nb m [] ops) 1%nat <> fst (m_run toy_fresh nb m [] (filter not_wipe ops)) 1%nat.
Proof.
  exists (fun i => match i with O => repeat 1 16 | _ => zeros 4 end), [New Chacha20_gen 0; Wipe 0; New Chacha20_gen 0; Ask 1 1 0 4]. split; [|split; [|split]].
  - intros [|i]; cbn; repeat constructor; lia.
  - apply prog_okb_ok. vm_compute. reflexivity.
  - cbn. intros i [<-|[]] [H|[H|[]]]; discriminate.
  - vm_compute. discriminate.
Qed.
