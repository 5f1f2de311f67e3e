(* The sources of randomness. *)
From Verif Require Import Prelude PreludeFacts BytesNum TransformModel SpecRng RngModel Rng SourcesModel.

Lemma rdrand64_spec rd : forall r k, 
  (exists k' n, rdrand64 rd r k = (k', Some n) /\ (k < k' <= k + r)%nat /\ rd (k' - 1)%nat = Some n /\ forall i, (k <= i < k' - 1)%nat -> rd i = None) \/
  (rdrand64 rd r k = ((k + r)%nat, None) /\ forall i, (k <= i < k + r)%nat -> rd i = None).
Proof.
  induction r; intros k; cbn [rdrand64].
  - right. split; [f_equal; lia|intros; lia].
  - destruct (rd k) as [n|] eqn:E.
    + left. exists (S k), n. split; [reflexivity|]. split; [lia|]. split; [replace (S k - 1)%nat with k by lia; exact E|intros; lia].
    + destruct (IHr (S k)) as [(k' & n & E1 & E2 & E3 & E4)|(E1 & E2)].
      * left. exists k', n. split; [exact E1|]. split; [lia|]. split; [exact E3|]. intros i Hi. destruct (Nat.eq_dec i k) as [->|]; [exact E|apply E4; lia].
      * right. split; [rewrite E1; f_equal; lia|]. intros i Hi. destruct (Nat.eq_dec i k) as [->|]; [exact E|apply E2; lia].
Qed.
(* a value that is not all ones *)
Definition good (v : option Z) : Prop := exists n, v = Some n /\ n <> 2 ^ 64 - 1.

Lemma available_true rd : forall r k k', available_loop rd r k = (k', true) -> (k < k' <= k + 20 * r)%nat /\ good (rd (k' - 1)%nat).
Proof.
  induction r; intros k k' H; cbn [available_loop] in H; [discriminate|].
  destruct (rdrand64_spec rd 20 k) as [(k1 & n & E & B & G & _)|(E & _)]; rewrite E in H.
  - destruct (Z.eqb_spec n (2 ^ 64 - 1)); cbn [negb] in H.
    + apply IHr in H. destruct H as (H1 & H2). split; [lia|exact H2].
    + inversion H. subst k'. split; [lia|]. exists n. split; assumption.
  - apply IHr in H. destruct H as (H1 & H2). split; [lia|exact H2].
Qed.
Lemma available_false rd : forall r k k', available_loop rd r k = (k', false) -> (k' <= k + 20 * r)%nat /\ (k + r <= k')%nat /\ forall i, (k <= i < k')%nat -> ~ good (rd i).
Proof.
  induction r; intros k k' H; cbn [available_loop] in H; [inversion H; split; [lia|split; [lia|intros; lia]]|].
  destruct (rdrand64_spec rd 20 k) as [(k1 & n & E & B & G & N)|(E & N)]; rewrite E in H.
  - destruct (Z.eqb_spec n (2 ^ 64 - 1)) as [Hn|Hn]; cbn [negb] in H; [|discriminate].
    apply IHr in H. destruct H as (H1 & H2 & H3). split; [lia|]. split; [lia|]. intros i Hi. destruct (le_lt_dec k1 i); [apply H3; lia|].
    intros (v & V1 & V2). destruct (Nat.eq_dec i (k1 - 1)) as [->|]; [congruence|]. rewrite N in V1 by lia. discriminate.
  - apply IHr in H. destruct H as (H1 & H2 & H3). split; [lia|]. split; [lia|]. intros i Hi. destruct (le_lt_dec (k + 20) i); [apply H3; lia|].
    intros (v & V1 & V2). rewrite N in V1 by lia. discriminate.
Qed.
(* the test made at start *)
Lemma hardware_test m : 
  match hardware_rng_available m 0 with
  | (k, true) => m_cpuid m = true /\ (1 <= k <= 160)%nat /\ exists n, m_rdrand m (k - 1)%nat = Some n /\ n <> 2 ^ 64 - 1
  | (k, false) => m_cpuid m = false \/ (8 <= k <= 160)%nat /\ forall i n, (i < k)%nat -> m_rdrand m i = Some n -> n = 2 ^ 64 - 1
  end.
Proof.
  unfold hardware_rng_available. destruct (m_cpuid m); [|left; reflexivity].
  destruct (available_loop (m_rdrand m) 8 0) as [k ok] eqn:E. destruct ok.
  - apply available_true in E. destruct E as (E1 & E2). split; [reflexivity|]. split; [lia|exact E2].
  - apply available_false in E. destruct E as (E1 & E2 & E3). right. split; [lia|]. intros i n Hi Hn. destruct (Z.eq_dec n (2 ^ 64 - 1)); [assumption|]. exfalso. apply (E3 i); [lia|]. exists n. split; assumption.
Qed.
(* a processor stuck at all ones, or without random numbers, is refused *)
Lemma stuck_refused m : (m_cpuid m = false \/ forall i n, m_rdrand m i = Some n -> n = 2 ^ 64 - 1) -> new_hardware_rng m 0 = Raise (Error No_entropy_source).
Proof.
  intros H. unfold new_hardware_rng. pose proof (hardware_test m) as T. destruct (hardware_rng_available m 0) as [k ok]. destruct ok; [|reflexivity].
  destruct T as (T1 & _ & n & T2 & T3). destruct H as [H|H]; [congruence|]. exfalso. apply T3. now apply (H (k - 1)%nat).
Qed.
(* a processor whose first eight executions give one good value is accepted *)
Lemma working_accepted m i n : m_cpuid m = true -> (i < 8)%nat -> m_rdrand m i = Some n -> n <> 2 ^ 64 - 1 -> exists k, new_hardware_rng m 0 = Ret (RObj (hardware_rng (m_rdrand m)) k).
Proof.
  intros C Hi Hn N. unfold new_hardware_rng. pose proof (hardware_test m) as T. destruct (hardware_rng_available m 0) as [k ok]. destruct ok; [exists k; reflexivity|].
  destruct T as [T|(T1 & T2)]; [congruence|]. exfalso. apply N, (T2 i n); [lia|exact Hn].
Qed.

(* ---- sequences of requests ---- *)
Definition q_proper (q : request) : Prop := in_range (q_buf q) (q_ofs q) (q_len q) = true /\ 0 < q_len q.
(* the requests qs answered by the bytes bs *)
Definition answered (qs : list request) (bs : list bytes) : list (bytes * out unit) :=
  map (fun p => (splice (q_buf (fst p)) (q_ofs (fst p)) (snd p), Ret tt)) (combine qs bs).
(* successive answers made of successive executions of RDRAND from number k on, none used twice *)
Fixpoint hw_answers (rd : nat -> option Z) (k : nat) (bs : list bytes) : Prop :=
  match bs with
  | [] => True
  | b :: bs => exists k', (k <= k')%nat /\ b = firstn (length b) (flat_map (to_le 8) (rd_values rd k k')) /\ hw_answers rd k' bs
  end.

Lemma entropy_app ge : forall ns k ns', entropy ge k (ns ++ ns') = entropy ge k ns ++ entropy ge (k + length ns) ns'.
Proof.
  induction ns; intros k ns'; cbn [app length]; [rewrite Nat.add_0_r; reflexivity|]. rewrite !entropy_cons, IHns, app_assoc. do 2 f_equal. lia.
Qed.
Section Runs.
  Context (ge : nat -> Z -> option bytes) (Hge : forall k n b, ge k n = Some b -> zlen b = n).
  Lemma system_run : forall qs k, Forall q_proper qs -> Forall (fun r => snd r = Ret tt) (r_run (system_rng ge) k qs) ->
    exists bs ns, r_run (system_rng ge) k qs = answered qs bs /\ map zlen bs = map q_len qs /\ Forall (fun n => 1 <= n <= 256) ns /\ concat bs = entropy ge k ns.
  Proof.
    induction qs as [|q qs IH]; intros k V H; [exists [], []; repeat split; constructor|]. inversion V as [|? ? (V1 & V2) V3]; subst.
    cbn [r_run] in *. destruct (proj2 (system_rng_ok ge k (q_buf q) (q_ofs q) (q_len q) Hge) V1) as (ns & r & Hns & E & C). rewrite E in *. cbn [fst snd] in *.
    inversion H as [|? ? H1 H2]; cbn [snd] in H1; subst. destruct C as [(_ & C)|(C & _)]; [|discriminate]. destruct (IH _ V3 H2) as (bs & ns' & I1 & I2 & I3 & I4).
    exists (entropy ge k ns :: bs), (ns ++ ns'). split; [rewrite I1; reflexivity|]. split; [cbn [map]; rewrite I2; f_equal; exact C|]. split; [apply Forall_app; split; assumption|].
    cbn [concat]. rewrite I4, entropy_app. reflexivity.
  Qed.
End Runs.
Lemma device_run sched : forall qs ch, Forall q_proper qs -> Forall (fun r => snd r = Ret tt) (r_run (device_rng sched) (Some ch) qs) ->
  exists bs rest, r_run (device_rng sched) (Some ch) qs = answered qs bs /\ map zlen bs = map q_len qs /\ ch_data ch = concat bs ++ rest.
Proof.
  induction qs as [|q qs IH]; intros ch V H; [exists [], (ch_data ch); repeat split; constructor|]. inversion V as [|? ? (V1 & V2) V3]; subst.
  cbn [r_run] in *. destruct (proj2 (proj2 (device_rng_ok sched ch (q_buf q) (q_ofs q) (q_len q))) V1) as (b & ch' & r & E & D & C). rewrite E in *. cbn [fst snd] in *.
  inversion H as [|? ? H1 H2]; cbn [snd] in H1; subst. destruct C as [(_ & C)|([(C & _)|C] & _)]; [|discriminate|discriminate]. destruct (IH _ V3 H2) as (bs & rest & I1 & I2 & I3).
  exists (b :: bs), rest. split; [rewrite I1; reflexivity|]. split; [cbn [map]; rewrite I2; f_equal; exact C|]. cbn [concat]. rewrite D, I3, app_assoc. reflexivity.
Qed.
Lemma hardware_run rd : forall qs k, Forall q_proper qs -> Forall (fun r => snd r = Ret tt) (r_run (hardware_rng rd) k qs) ->
  exists bs, r_run (hardware_rng rd) k qs = answered qs bs /\ map zlen bs = map q_len qs /\ hw_answers rd k bs.
Proof.
  induction qs as [|q qs IH]; intros k V H; [exists []; repeat split; constructor|]. inversion V as [|? ? (V1 & V2) V3]; subst.
  cbn [r_run] in *. destruct (proj2 (hardware_rng_ok rd k (q_buf q) (q_ofs q) (q_len q)) V1) as (k' & r & Hk & E & C). rewrite E in *. cbn [fst snd] in *.
  inversion H as [|? ? H1 H2]; cbn [snd] in H1; subst. destruct C as [(_ & C & _)|(C & _)]; [|discriminate]. destruct (IH _ V3 H2) as (bs & I1 & I2 & I3).
  eexists (_ :: bs). split; [rewrite I1; reflexivity|]. split; [cbn [map]; rewrite I2; f_equal; exact C|]. cbn [hw_answers]. exists k'. split; [exact Hk|]. split; [|exact I3].
  assert (L : length (firstn (Z.to_nat (q_len q)) (flat_map (to_le 8) (rd_values rd k k'))) = Z.to_nat (q_len q)) by (rewrite <- C at 2; unfold zlen; lia). exact (eq_sym (f_equal (fun n => firstn n (flat_map (to_le 8) (rd_values rd k k'))) L)).
Qed.

Lemma secure_cases m (P : robj -> Prop) : (forall ge, m_system m = Some ge -> P (RObj (system_rng ge) 0%nat)) ->
  (forall sched data, m_system m = None -> m_device m = Some (sched, data) -> P (RObj (device_rng sched) (Some (Channel data 0)))) ->
  (forall k, m_system m = None -> m_device m = None -> m_cpuid m = true -> (1 <= k <= 160)%nat -> (exists n, m_rdrand m (k - 1)%nat = Some n /\ n <> 2 ^ 64 - 1) ->
     P (RObj (hardware_rng (m_rdrand m)) k)) ->
  P (RObj no_rng tt) -> P (secure_rng m).
Proof.
  intros H1 H2 H3 H4. unfold secure_rng. destruct (m_system m) as [ge|] eqn:Es; [now apply H1|]. destruct (m_device m) as [(sched, data)|] eqn:Ed; [now apply H2|].
  pose proof (hardware_test m) as T. destruct (hardware_rng_available m 0) as [k ok]. destruct ok; [|exact H4]. destruct T as (T1 & T2 & T3). now apply H3.
Qed.
Lemma secure_sources m qs : (forall ge, m_system m = Some ge -> forall k n b, ge k n = Some b -> zlen b = n) -> qs <> [] ->
  Forall q_proper qs -> Forall (fun r => snd r = Ret tt) (r_run (ro_class (secure_rng m)) (ro_st (secure_rng m)) qs) ->
  exists bs, r_run (ro_class (secure_rng m)) (ro_st (secure_rng m)) qs = answered qs bs /\ map zlen bs = map q_len qs /\
   ((exists ge ns, m_system m = Some ge /\ Forall (fun n => 1 <= n <= 256) ns /\ concat bs = entropy ge 0 ns) \/
    (m_system m = None /\ exists sched data rest, m_device m = Some (sched, data) /\ data = concat bs ++ rest) \/
    (m_system m = None /\ m_device m = None /\ m_cpuid m = true /\
     exists k n, (1 <= k <= 160)%nat /\ m_rdrand m (k - 1)%nat = Some n /\ n <> 2 ^ 64 - 1 /\ hw_answers (m_rdrand m) k bs)).
Proof.
  intros Hge N V. apply secure_cases; cbn [ro_class ro_st].
  - intros ge Es H. destruct (system_run ge (Hge ge Es) qs 0%nat V H) as (bs & ns & E1 & E2 & E3 & E4). exists bs. split; [exact E1|]. split; [exact E2|]. left. exists ge, ns. auto.
  - intros sched data Es Ed H. destruct (device_run sched qs _ V H) as (bs & rest & E1 & E2 & E3). exists bs. split; [exact E1|]. split; [exact E2|]. right. left. split; [exact Es|]. exists sched, data, rest. auto.
  - intros k Es Ed Ec Hk (n & T1 & T2) H. destruct (hardware_run (m_rdrand m) qs k V H) as (bs & E1 & E2 & E3). exists bs. split; [exact E1|]. split; [exact E2|]. right. right. splits; auto. exists k, n. auto.
  - intros H. destruct qs as [|q qs]; [now elim N|]. inversion H as [|? ? H1 _]. discriminate.
Qed.
(* no source: No_entropy_source at every call *)
Lemma secure_none m : m_system m = None -> m_device m = None -> (m_cpuid m = false \/ forall i n, m_rdrand m i = Some n -> n = 2 ^ 64 - 1) -> secure_rng m = RObj no_rng tt.
Proof.
  intros E1 E2 H. unfold secure_rng. rewrite E1, E2. pose proof (stuck_refused m H) as S. unfold new_hardware_rng in S. destruct (hardware_rng_available m 0) as [k ok]. destruct ok; [discriminate|reflexivity].
Qed.
Lemma secure_none_run m : m_system m = None -> m_device m = None -> (m_cpuid m = false \/ forall i n, m_rdrand m i = Some n -> n = 2 ^ 64 - 1) ->
  forall qs, r_run (ro_class (secure_rng m)) (ro_st (secure_rng m)) qs = map (fun q => (q_buf q, Raise (Error No_entropy_source))) qs.
Proof.
  intros E1 E2 H. rewrite (secure_none m E1 E2 H). cbn [ro_class ro_st]. induction qs as [|q qs IH]; [reflexivity|]. cbn [r_run no_rng r_bytes fst snd map]. f_equal. exact IH.
Qed.
Lemma system_object m : (m_system m = None -> new_system_rng m = Raise (Error No_entropy_source)) /\
  forall ge, m_system m = Some ge -> (forall k n b, ge k n = Some b -> zlen b = n) -> exists o, new_system_rng m = Ret o /\
  forall qs, Forall q_proper qs -> Forall (fun r => snd r = Ret tt) (r_run (ro_class o) (ro_st o) qs) ->
  exists bs ns, r_run (ro_class o) (ro_st o) qs = answered qs bs /\ map zlen bs = map q_len qs /\ Forall (fun n => 1 <= n <= 256) ns /\ concat bs = entropy ge 0 ns.
Proof.
  unfold new_system_rng. split; [intros ->; reflexivity|]. intros ge -> Hge. eexists. split; [reflexivity|]. intros qs V H. exact (system_run ge Hge qs 0%nat V H).
Qed.
Lemma hardware_object m o : new_hardware_rng m 0 = Ret o -> exists k n, (1 <= k <= 160)%nat /\ m_rdrand m (k - 1)%nat = Some n /\ n <> 2 ^ 64 - 1 /\
  forall qs, Forall q_proper qs -> Forall (fun r => snd r = Ret tt) (r_run (ro_class o) (ro_st o) qs) ->
  exists bs, r_run (ro_class o) (ro_st o) qs = answered qs bs /\ map zlen bs = map q_len qs /\ hw_answers (m_rdrand m) k bs.
Proof.
  unfold new_hardware_rng. pose proof (hardware_test m) as T. destruct (hardware_rng_available m 0) as [k ok]. destruct ok; [|discriminate]. intros E. injection E as <-.
  destruct T as (_ & T2 & n & T3 & T4). exists k, n. split; [exact T2|]; split; [exact T3|]; split; [exact T4|]. intros qs V H. exact (hardware_run (m_rdrand m) qs k V H).
Qed.
