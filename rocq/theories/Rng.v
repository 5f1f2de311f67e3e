(* The random generators deliver what they should. *)
From Verif Require Import Prelude PreludeFacts BytesNum SpecTransducer TransformModel SpecBlock BlockModel SpecModes Modes CipherModel BlockObj SpecAes AesModel AesniModel Aes AesApi
  SpecStream StreamModel StreamObj Chacha SpecRng RngModel.
Ltac Zify.zify_post_hook ::= Z.div_mod_to_equations.

Ltac splits := repeat match goal with |- _ /\ _ => split end.
Lemma nth_skipn {A} (l : list A) d n i : nth i (skipn n l) d = nth (n + i) l d.
Proof. revert n; induction l as [|x l IH]; intros [|n]; cbn [skipn Nat.add nth]; auto. destruct i; reflexivity. Qed.

(* a sequence of calls; exceptions do not stop the user *)
Fixpoint r_run (R : rng) (s : r_st R) (qs : list request) : list (bytes * out unit) :=
  match qs with
  | [] => []
  | q :: qs => let r := r_bytes R s (q_buf q) (q_ofs q) (q_len q) in (snd (fst r), snd r) :: r_run R (fst (fst r)) qs
  end.

Lemma ks_bytes_add ks n a b : ks_bytes ks n (a + b) = ks_bytes ks n a ++ ks_bytes ks (n + a) b.
Proof. unfold ks_bytes. rewrite seq_app, map_app. reflexivity. Qed.
Lemma zlen_ks ks n a : zlen (ks_bytes ks n a) = Z.of_nat a.
Proof. unfold zlen, ks_bytes. rewrite map_length, seq_length. reflexivity. Qed.

(* ---- pseudo_rng ---- *)
Lemma seed_key_ok seed : 16 <= zlen seed -> bytes_ok seed -> cc_key (seed_key seed).
Proof.
  intros H B. unfold seed_key. destruct (Nat.eqb_spec (length seed) 16) as [E|E]; split; auto.
  - right. rewrite firstn_length, app_length, repeat_length. unfold zlen in H. lia.
  - apply Forall_firstn. apply Forall_app. split; [exact B|]. apply (bytes_ok_zeros 16).
Qed.
Lemma pseudo_rng_key fresh seed : 16 <= zlen seed ->
  pseudo_rng fresh seed = Ret (RObj pseudo_rng_class (chacha20_init fresh (seed_key seed) (zeros 8) 0, seed)).
Proof.
  intros H. unfold pseudo_rng. replace (zlen seed <? 16) with false by lia. do 4 f_equal. unfold seed_key, zlen in *.
  destruct (Nat.eqb_spec (length seed) 16) as [E|E].
  - rewrite E. reflexivity.
  - destruct (Z.geb_spec (Z.of_nat (length seed)) 32) as [G|G].
    + unfold sub. cbn [Z.to_nat skipn]. rewrite firstn_app. replace (32 - length seed)%nat with 0%nat by lia. rewrite app_nil_r. reflexivity.
    + replace (Z.of_nat (length seed) >? 16) with true by lia. rewrite firstn_app, firstn_all2 by lia. f_equal. unfold zeros.
      replace (32 - length seed)%nat with (Z.to_nat (32 - Z.of_nat (length seed))) by lia. set (k := Z.to_nat _). assert (Hk : (k <= 16)%nat) by lia.
      clearbody k. replace 16%nat with (k + (16 - k))%nat by lia. rewrite repeat_app, firstn_app, firstn_all2 by (rewrite repeat_length; lia).
      rewrite repeat_length, Nat.sub_diag. symmetry. apply app_nil_r.
Qed.
Lemma in_range_test (buf : bytes) ofs len : ((len <? 0) || (ofs <? 0) || (ofs >? zlen buf - len)) = negb (in_range buf ofs len).
Proof. unfold in_range. lia. Qed.
Lemma pseudo_delivers key seed qs : cc_key key -> forall c n, cc_rel key 0 (zeros 8) c n ->
  r_run pseudo_rng_class (c, seed) qs = delivered (chacha20 key 0 (zeros 8)) n qs.
Proof.
  intros K. assert (I : cc_iv (zeros 8)) by (split; [left; reflexivity|apply bytes_ok_zeros]). induction qs as [|q qs IH]; intros c n R; [reflexivity|].
  cbn [r_run delivered]. cbn [pseudo_rng_class r_bytes fst snd]. rewrite in_range_test. destruct (in_range (q_buf q) (q_ofs q) (q_len q)); cbn [negb fst snd].
  - destruct (extract_ok key 0 (zeros 8) (Z.to_nat (q_len q)) K I c n R) as (c' & E & R'). rewrite E. cbn [fst snd]. f_equal. apply IH. exact R'.
  - f_equal. apply IH. exact R.
Qed.
Lemma pseudo_rng_stream fresh seed : bytes_ok seed ->
  (zlen seed < 16 -> pseudo_rng fresh seed = Raise (Error Seed_too_short)) /\
  (16 <= zlen seed -> exists o, pseudo_rng fresh seed = Ret o /\
   forall qs, r_run (ro_class o) (ro_st o) qs = delivered (chacha20 (seed_key seed) 0 (zeros 8)) 0 qs).
Proof.
  intros B. split; intros H.
  - unfold pseudo_rng. replace (zlen seed <? 16) with true by lia. reflexivity.
  - eexists. split; [apply pseudo_rng_key; exact H|]. intros qs. cbn [ro_class ro_st]. apply pseudo_delivers; [apply seed_key_ok; assumption|].
    apply init_rel; [apply seed_key_ok; assumption|split; [left; reflexivity|apply bytes_ok_zeros]].
Qed.
Lemma seed_key_inj s1 s2 : 16 <= zlen s1 -> zlen s1 = zlen s2 -> seed_key s1 = seed_key s2 -> firstn 32 s1 = firstn 32 s2.
Proof.
  unfold zlen, seed_key. intros H E. assert (L : length s1 = length s2) by lia. rewrite L. destruct (Nat.eqb_spec (length s2) 16) as [e|e]; [intros ->; reflexivity|].
  intros F. rewrite !firstn_app, L in F. apply (f_equal (firstn (Nat.min 32 (length s2)))) in F.
  rewrite !firstn_app, !firstn_length, L, Nat.sub_diag, !firstn_O, !app_nil_r, !firstn_firstn in F.
  replace (Nat.min (Nat.min 32 (length s2)) 32) with (Nat.min 32 (length s2)) in F by lia.
  rewrite <- (firstn_firstn s1), <- (firstn_firstn s2) in F. rewrite <- L in F at 1. rewrite !firstn_all in F. exact F.
Qed.
Lemma seed_collision fresh : exists s1 s2, s1 <> s2 /\ bytes_ok s1 /\ bytes_ok s2 /\ 16 <= zlen s1 /\ 16 <= zlen s2 /\
  exists o1 o2, pseudo_rng fresh s1 = Ret o1 /\ pseudo_rng fresh s2 = Ret o2 /\
  forall qs, r_run (ro_class o1) (ro_st o1) qs = r_run (ro_class o2) (ro_st o2) qs.
Proof.
  exists (repeat 7 20), (repeat 7 20 ++ [0]). assert (B1 : bytes_ok (repeat 7 20)) by (repeat constructor; unfold byte_ok; lia).
  assert (B2 : bytes_ok (repeat 7 20 ++ [0])) by (repeat constructor; unfold byte_ok; lia).
  split; [discriminate|]. split; [exact B1|]. split; [exact B2|]. split; [discriminate|]. split; [discriminate|].
  destruct (proj2 (pseudo_rng_stream fresh _ B1) ltac:(discriminate)) as (o1 & E1 & H1). destruct (proj2 (pseudo_rng_stream fresh _ B2) ltac:(discriminate)) as (o2 & E2 & H2).
  exists o1, o2. split; [exact E1|]. split; [exact E2|]. intros qs. rewrite H1, H2. reflexivity.
Qed.

(* ---- pseudo_rng_aes_ctr ---- *)
Section AesCtr.
Variable aes : bobj.
Variable E : bytes -> bytes.
Hypothesis Haes : block_computes aes 16 E.
Hypothesis HE : forall b, zlen b = 16 -> bytes_ok b -> zlen (E b) = 16.

Lemma ctr_next k : increment_counter (to_be 16 k) 0 15 = Ret (to_be 16 (k + 1)).
Proof.
  pose proof (increment_counter_ok 16 (to_be 16 k)) as H. rewrite zlen_to_be, length_to_be in H. change (Z.of_nat 16 - Z.of_nat 16) with 0 in H. change (Z.of_nat 16 - 1) with 15 in H. rewrite H by (lia || apply bytes_ok_to_be). f_equal. unfold ctr_block.
  rewrite length_to_be, Nat.sub_diag. cbn [firstn app skipn]. rewrite be_to_be. rewrite <- (to_be_mod 16 (k + 1)), <- to_be_mod. f_equal. apply Zplus_mod_idemp_l.
Qed.
Definition arel (s : actr (bc_st (b_bc aes))) (n : nat) : Prop :=
  ac_c s = b_st aes /\ 0 <= ac_opos s <= 16 /\ zlen (ac_obuf s) = 16 /\
  exists k : Z, ac_ctr s = to_be 16 k /\ Z.of_nat n + 16 = 16 * k + ac_opos s /\ (ac_opos s < 16 -> ac_obuf s = E (to_be 16 (k - 1))).
Lemma refill_ok s n : arel s n -> exists s', actr_refill (b_bc aes) s = (s', Ret tt) /\ arel s' n /\ ac_opos s' < 16.
Proof.
  intros (H1 & H2 & H3 & k & H4 & H5 & H6). unfold actr_refill. destruct (Z.geb_spec (ac_opos s) 16) as [G|G].
  - destruct Haes as (_ & T). rewrite H1, H4, T; [|rewrite zlen_to_be; lia|lia|apply bytes_ok_sub; apply bytes_ok_to_be].
    rewrite sub_0_all by (rewrite zlen_to_be; reflexivity).
    assert (L : zlen (E (to_be 16 k)) = 16) by (apply HE; [apply zlen_to_be|apply bytes_ok_to_be]). rewrite splice_all by lia. cbn [fst snd bind ac_ctr]. rewrite ctr_next. cbn [bind ac_c ac_obuf ac_seed].
    eexists. split; [reflexivity|]. split; [|cbn [ac_opos]; lia]. split; [reflexivity|]. cbn [ac_opos ac_obuf ac_ctr]. split; [lia|]. split; [exact L|].
    exists (k + 1). split; [reflexivity|]. split; [lia|]. intros _. do 2 f_equal. lia.
  - exists s. split; [reflexivity|]. split; [|lia]. unfold arel. eauto 10.
Qed.
Lemma ctr_stream_block k o m : 0 <= k -> 0 <= o -> o + Z.of_nat m <= 16 -> zlen (E (to_be 16 k)) = 16 ->
  ks_bytes (ctr_stream E) (Z.to_nat (16 * k + o)) m = sub (E (to_be 16 k)) o (Z.of_nat m).
Proof.
  intros Hk Ho Hm L. apply (list_eq_nth 0).
  - unfold ks_bytes. rewrite map_length, seq_length, length_sub; unfold zlen in *; lia.
  - unfold ks_bytes. rewrite map_length, seq_length. intros i Hi. rewrite (nth_indep _ 0 (ctr_stream E 0)) by (rewrite map_length, seq_length; exact Hi). rewrite map_nth, seq_nth by exact Hi.
    unfold ctr_stream, sub. rewrite nth_firstn_lt by lia. rewrite nth_skipn. replace (Z.of_nat ((Z.to_nat (16 * k + o) + i) / 16)) with k by lia.
    f_equal. lia.
Qed.
Lemma aloop_ok fuel : forall s n buf ofs len, arel s n -> 0 <= len -> (Z.to_nat len < fuel)%nat -> 0 <= ofs -> ofs + len <= zlen buf ->
  exists s', actr_loop (b_bc aes) fuel s buf ofs len = ((s', splice buf ofs (ks_bytes (ctr_stream E) n (Z.to_nat len))), Ret tt) /\ arel s' (n + Z.to_nat len).
Proof.
  induction fuel as [|f IH]; intros s n buf ofs len R Hl Hf Ho Hb; [lia|]. cbn [actr_loop]. destruct (Z.gtb_spec len 0) as [G|G].
  2: { exists s. replace (Z.to_nat len) with 0%nat by lia. cbn [ks_bytes map seq]. unfold ks_bytes. cbn [seq map]. rewrite splice_nil, Nat.add_0_r. auto. }
  destruct (refill_ok s n R) as (s1 & -> & R1 & O1). pose proof R1 as (A1 & A2 & A3 & k & A4 & A5 & A6). specialize (A6 O1). set (r := Z.min (16 - ac_opos s1) len).
  assert (Hr : 0 < r <= len /\ r <= 16 - ac_opos s1) by lia. rewrite blit_ok by lia.
  assert (Ek : sub (ac_obuf s1) (ac_opos s1) r = ks_bytes (ctr_stream E) n (Z.to_nat r)).
  { rewrite A6. replace n with (Z.to_nat (16 * (k - 1) + ac_opos s1)) by lia. rewrite ctr_stream_block; [rewrite Z2Nat.id by lia; reflexivity|lia|lia|lia|rewrite <- A6; exact A3]. }
  rewrite Ek. set (s2 := ACtr _ _ _ _ _). assert (R2 : arel s2 (n + Z.to_nat r)).
  { split; [exact A1|]. cbn [s2 ac_opos ac_obuf ac_ctr]. split; [lia|]. split; [exact A3|]. exists k. split; [exact A4|]. split; [lia|]. intros _. exact A6. }
  destruct (Z.ltb_spec r len) as [L|L].
  - destruct (IH s2 (n + Z.to_nat r)%nat (splice buf ofs (ks_bytes (ctr_stream E) n (Z.to_nat r))) (ofs + r) (len - r) R2) as (s3 & E3 & R3); try lia.
    { rewrite zlen_splice by (rewrite ?zlen_ks; lia). lia. }
    exists s3. rewrite E3. replace (Z.to_nat len) with (Z.to_nat r + Z.to_nat (len - r))%nat by lia. rewrite ks_bytes_add. split.
    + do 2 f_equal. replace (ofs + r) with (ofs + zlen (ks_bytes (ctr_stream E) n (Z.to_nat r))) by (rewrite zlen_ks; lia). apply splice_splice_app; rewrite ?zlen_ks; lia.
    + replace (n + (Z.to_nat r + Z.to_nat (len - r)))%nat with (n + Z.to_nat r + Z.to_nat (len - r))%nat by lia. exact R3.
  - exists s2. replace len with r by lia. auto.
Qed.
Lemma actr_delivers qs : Forall q_valid qs -> forall s n, arel s n -> r_run (actr_class (b_bc aes)) s qs = delivered (ctr_stream E) n qs.
Proof.
  induction 1 as [|q qs V _ IH]; intros s n R; [reflexivity|]. cbn [r_run delivered]. unfold q_valid in V. rewrite V. apply in_range_true in V. cbn [actr_class r_bytes].
  destruct (aloop_ok (S (Z.to_nat (q_len q))) s n (q_buf q) (q_ofs q) (q_len q) R) as (s' & -> & R'); try lia. cbn [fst snd]. f_equal. apply IH. exact R'.
Qed.
End AesCtr.
Lemma pseudo_rng_aes_ctr_stream fresh nb seed : (forall n, 0 <= n -> zlen (fresh n) = n) -> (nb = new_aes fresh Encrypt \/ nb = new_aesni fresh Encrypt) -> bytes_ok seed ->
  (zlen seed < 16 -> pseudo_rng_aes_ctr fresh nb seed = Raise (Error Seed_too_short)) /\
  (16 <= zlen seed -> exists o, pseudo_rng_aes_ctr fresh nb seed = Ret o /\
   forall qs, Forall q_valid qs -> r_run (ro_class o) (ro_st o) qs = delivered (ctr_stream (aes_E (firstn 16 seed))) 0 qs).
Proof.
  intros F Hnb B. unfold pseudo_rng_aes_ctr. split; intros H.
  - replace (zlen seed <? 16) with true by lia. reflexivity.
  - replace (zlen seed <? 16) with false by lia. unfold bytes_sub. replace (in_range seed 0 16) with true by (symmetry; apply in_range_true; lia). cbn [obind].
    unfold sub. cbn [Z.to_nat skipn]. change (Pos.to_nat 16) with 16%nat. assert (K : aes_key_size (firstn 16 seed)) by (left; unfold zlen in *; rewrite firstn_length; lia).
    assert (BK : bytes_ok (firstn 16 seed)) by (apply Forall_firstn, B).
    assert (X : exists o, nb (firstn 16 seed) = Ret o /\ block_computes o 16 (aes_E (firstn 16 seed))).
    { destruct Hnb as [->| ->]; [destruct (new_aes_computes fresh Encrypt (firstn 16 seed) F K BK) as (b & Eb & Cb & _)|destruct (new_aesni_computes fresh Encrypt (firstn 16 seed) F K BK) as (b & Eb & Cb & _)]; exists b; auto. }
    destruct X as (b & Eb & Cb). rewrite Eb. cbn [obind]. eexists. split; [reflexivity|]. intros qs V. cbn [ro_class ro_st].
    apply (actr_delivers b _ Cb); [intros x Hx Bx; apply aes_E_blk; assumption|exact V|].
    split; [reflexivity|]. cbn [ac_opos ac_obuf ac_ctr]. split; [lia|]. split; [apply F; lia|]. exists 0. split; [reflexivity|]. split; lia.
Qed.

(* ---- system_rng ---- *)
(* what the calls number k, k+1, ... of getentropy for ns bytes each delivered *)
Definition entropy (ge : nat -> Z -> option bytes) (k : nat) (ns : list Z) : bytes :=
  concat (map (fun p => match ge (fst p) (snd p) with Some b => b | None => [] end) (combine (seq k (length ns)) ns)).
Lemma entropy_cons ge k n ns : entropy ge k (n :: ns) = (match ge k n with Some b => b | None => [] end) ++ entropy ge (S k) ns.
Proof. reflexivity. Qed.
Lemma system_loop_ok ge : (forall k n b, ge k n = Some b -> zlen b = n) ->
  forall fuel k str ofs l, 0 <= l -> (Z.to_nat l < fuel)%nat -> 0 <= ofs -> ofs + l <= zlen str ->
  exists ns k' r, system_loop ge fuel k str ofs l = ((k', splice str ofs (entropy ge k ns)), Ret r) /\ k' = (k + length ns)%nat /\
    Forall (fun n => 1 <= n <= 256) ns /\ (if r then zlen (entropy ge k ns) = l else zlen (entropy ge k ns) < l).
Proof.
  intros Hge. induction fuel as [|f IH]; intros k str ofs l Hl Hf Ho Hs; [lia|]. cbn [system_loop]. destruct (Z.gtb_spec l 0) as [G|G].
  2: { exists [], k, true. cbn. rewrite splice_nil. splits; auto; lia. }
  set (n := if l <? 256 then l else 256). assert (Hn : 1 <= n <= 256 /\ n <= l) by (unfold n; destruct (Z.ltb_spec l 256); lia). clearbody n. destruct (ge k n) as [b|] eqn:Eb.
  - pose proof (Hge _ _ _ Eb) as Lb. destruct (IH (S k) (splice str ofs b) (ofs + n) (l - n)) as (ns & k' & r & E & Ek & Hns & Hr); try lia.
    { rewrite zlen_splice by lia. lia. }
    exists (n :: ns), k', r. rewrite E, entropy_cons, Eb. splits.
    + do 2 f_equal. rewrite <- Lb. apply splice_splice_app; [lia|]. destruct r; lia.
    + cbn [length]. lia.
    + constructor; [lia|exact Hns].
    + rewrite zlen_app. destruct r; lia.
  - exists [n], (S k), false. rewrite entropy_cons, Eb. cbn [app]. unfold entropy. cbn [combine seq length map concat]. rewrite splice_nil. splits; [reflexivity|cbn [length]; lia|repeat constructor; lia|exact G].
Qed.
Lemma system_rng_ok ge k buf ofs len : (forall k n b, ge k n = Some b -> zlen b = n) ->
  (in_range buf ofs len = false -> r_bytes (system_rng ge) k buf ofs len = ((k, buf), Raise Invalid_argument)) /\
  (in_range buf ofs len = true -> exists ns r, let b := entropy ge k ns in Forall (fun n => 1 <= n <= 256) ns /\
   r_bytes (system_rng ge) k buf ofs len = (((k + length ns)%nat, splice buf ofs b), r) /\
   ((r = Ret tt /\ zlen b = len) \/ (r = Raise (Error Entropy_source_closed) /\ zlen b < len))).
Proof.
  intros Hge. cbn [system_rng r_bytes]. assert (T : bad_range buf ofs len = negb (in_range buf ofs len)) by (unfold bad_range, in_range; lia). rewrite T. split; intros V; rewrite V; cbn [negb]; [reflexivity|].
  apply in_range_true in V. destruct (system_loop_ok ge Hge (S (Z.to_nat len)) k buf ofs len) as (ns & k' & r & E & -> & Hns & Hr); try lia. rewrite E. cbn [fst snd obind].
  exists ns, (if r then Ret tt else Raise (Error Entropy_source_closed)). cbn zeta. splits; [exact Hns|reflexivity|]. destruct r; auto.
Qed.

(* ---- device_rng ---- *)
Lemma device_loop_ok sched fuel : forall ch buf ofs len, (Z.to_nat len < fuel)%nat -> 0 <= len -> 0 <= ofs -> ofs + len <= zlen buf ->
  exists b ch' r, device_loop sched fuel (Some ch, buf) ofs len = ((Some ch', splice buf ofs b), r) /\ ch_data ch = b ++ ch_data ch' /\
    ((r = Ret tt /\ zlen b = len) \/ ((r = Raise (Error Entropy_source_closed) /\ ch_data ch' = [] \/ r = Raise Unix_error) /\ zlen b < len)).
Proof.
  induction fuel as [|f IH]; intros ch buf ofs len Hf Hl Ho Hb; [lia|]. cbn [device_loop fst snd]. destruct (Z.gtb_spec len 0) as [G|G].
  2: { exists [], ch, (Ret tt). rewrite splice_nil. splits; auto. left. split; [reflexivity|]. change (zlen (@nil Z)) with 0. lia. }
  unfold unix_read. replace (bad_range buf ofs len) with false by (unfold bad_range; lia). destruct (sched (ch_calls ch)) as [want|].
  2: { cbn [bind]. eexists [], _, (Raise Unix_error). rewrite splice_nil. splits; [reflexivity|reflexivity|]. right. split; [auto|]. exact G. }
  cbn [bind fst snd]. set (n := Z.min (Z.min len (zlen (ch_data ch))) (Z.max 1 want)). pose proof (zlen_nonneg (ch_data ch)) as Hz.
  destruct (Z.eqb_spec n 0) as [N|N].
  { assert (D : ch_data ch = []) by (apply zlen_0; lia). rewrite N, D. cbn [Z.to_nat firstn skipn]. eexists [], _, _. splits; [reflexivity|reflexivity|]. right. split; [left; auto|]. exact G. }
  set (b := firstn (Z.to_nat n) (ch_data ch)). assert (Lb : zlen b = n) by (unfold b, zlen in *; rewrite firstn_length; lia).
  assert (D : ch_data ch = b ++ skipn (Z.to_nat n) (ch_data ch)) by (symmetry; apply firstn_skipn).
  destruct (Z.ltb_spec n len) as [L|L].
  - destruct (IH (Channel (skipn (Z.to_nat n) (ch_data ch)) (S (ch_calls ch))) (splice buf ofs b) (ofs + n) (len - n)) as (b' & ch' & r & E & E' & Hr); try lia.
    { rewrite zlen_splice by lia. lia. }
    exists (b ++ b'), ch', r. rewrite E. cbn [ch_data] in E'. splits.
    + do 2 f_equal. rewrite <- Lb. apply splice_splice_app; [lia|]. destruct Hr as [(_ & ?)|(_ & ?)]; lia.
    + rewrite <- app_assoc, <- E'. exact D.
    + rewrite zlen_app. destruct Hr as [(-> & ?)|(? & ?)]; [left|right]; split; auto; lia.
  - eexists b, _, _. splits; [reflexivity|exact D|]. left. split; [reflexivity|]. lia.
Qed.
Lemma device_rng_ok sched ch buf ofs len :
  (len <= 0 -> r_bytes (device_rng sched) (Some ch) buf ofs len = ((Some ch, buf), Ret tt)) /\
  (0 < len -> in_range buf ofs len = false -> r_bytes (device_rng sched) (Some ch) buf ofs len = ((Some ch, buf), Raise Invalid_argument)) /\
  (in_range buf ofs len = true -> exists b ch' r, r_bytes (device_rng sched) (Some ch) buf ofs len = ((Some ch', splice buf ofs b), r) /\ ch_data ch = b ++ ch_data ch' /\
    ((r = Ret tt /\ zlen b = len) \/ ((r = Raise (Error Entropy_source_closed) /\ ch_data ch' = [] \/ r = Raise Unix_error) /\ zlen b < len))).
Proof.
  cbn [device_rng r_bytes]. splits.
  - intros H. cbn [device_loop]. replace (len >? 0) with false by lia. reflexivity.
  - intros H V. cbn [device_loop fst snd]. replace (len >? 0) with true by lia. unfold unix_read. replace (bad_range buf ofs len) with true by (unfold bad_range, in_range in *; lia). reflexivity.
  - intros V. apply in_range_true in V. apply device_loop_ok; lia.
Qed.

(* ---- hardware_rng ---- *)
(* the values returned by the executions number k .. k'-1 of the instruction *)
Definition rd_values (rd : nat -> option Z) (k k' : nat) : list Z :=
  flat_map (fun i => match rd i with Some n => [n] | None => [] end) (seq k (k' - k)).
Lemma rd_values_split rd k k1 k2 : (k <= k1 <= k2)%nat -> rd_values rd k k2 = rd_values rd k k1 ++ rd_values rd k1 k2.
Proof. intros H. unfold rd_values. replace (k2 - k)%nat with ((k1 - k) + (k2 - k1))%nat by lia. rewrite seq_app, flat_map_app. do 3 f_equal. lia. Qed.
Lemma rdrand_ok rd n : forall k, exists k', (k <= k')%nat /\
  ((exists x, rdrand64 rd n k = (k', Some x) /\ rd_values rd k k' = [x]) \/ (rdrand64 rd n k = (k', None) /\ rd_values rd k k' = [] /\ k' = (k + n)%nat)).
Proof.
  induction n as [|n IH]; intros k; cbn [rdrand64].
  - exists k. split; [lia|]. right. unfold rd_values. rewrite Nat.sub_diag, Nat.add_0_r. auto.
  - destruct (rd k) as [x|] eqn:E.
    + exists (S k). split; [lia|]. left. exists x. split; [reflexivity|]. unfold rd_values. replace (S k - k)%nat with 1%nat by lia. cbn [seq flat_map]. rewrite E. reflexivity.
    + destruct (IH (S k)) as (k' & Hk & H). exists k'. split; [lia|]. assert (V : rd_values rd k k' = rd_values rd (S k) k').
      { rewrite (rd_values_split rd k (S k) k') by lia. unfold rd_values at 1. replace (S k - k)%nat with 1%nat by lia. cbn [seq flat_map]. rewrite E. reflexivity. }
      rewrite V. destruct H as [(x & H)|(H1 & H2 & H3)]; [left; eauto|right]. splits; auto. lia.
Qed.
Lemma flat_le8 l : zlen (flat_map (to_le 8) l) = 8 * zlen l.
Proof. induction l as [|x l IH]; [reflexivity|]. cbn [flat_map]. rewrite zlen_app, zlen_cons, IH, zlen_to_le. lia. Qed.
Lemma hardware_loop_ok rd fuel : forall k str ofs l, 0 <= l -> (Z.to_nat l < fuel)%nat -> 0 <= ofs -> ofs + l <= zlen str ->
  exists k' b r, hardware_loop rd fuel k str ofs l = ((k', splice str ofs b), Ret r) /\ (k <= k')%nat /\
    b = firstn (Z.to_nat l) (flat_map (to_le 8) (rd_values rd k k')) /\
    (if r then zlen b = l /\ 8 * zlen (rd_values rd k k') < l + 8 else zlen b < l /\ exists k0, (k <= k0)%nat /\ k' = (k0 + 20)%nat /\ rd_values rd k0 k' = []).
Proof.
  induction fuel as [|f IH]; intros k str ofs l Hl Hf Ho Hs; [lia|]. cbn [hardware_loop]. destruct (Z.geb_spec l 8) as [G|G].
  - destruct (rdrand_ok rd 20 k) as (k1 & Hk1 & [(x & E & V)|(E & V & K)]); rewrite E.
    + destruct (IH k1 (splice str ofs (to_le 8 x)) (ofs + 8) (l - 8)) as (k' & b & r & E1 & Hk & Hb & Hr); try lia.
      { rewrite zlen_splice by (rewrite ?zlen_to_le; lia). lia. }
      assert (Lb : zlen b <= l - 8) by (destruct r as [|]; [destruct Hr; lia|destruct Hr; lia]).
      exists k', (to_le 8 x ++ b), r. rewrite E1. splits.
      * do 2 f_equal. replace (ofs + 8) with (ofs + zlen (to_le 8 x)) by (rewrite zlen_to_le; reflexivity). apply splice_splice_app; rewrite ?zlen_to_le; lia.
      * lia.
      * rewrite (rd_values_split rd k k1 k'), V by lia. cbn [app flat_map]. rewrite firstn_app, length_to_le, (firstn_all2 (to_le 8 x)) by (rewrite length_to_le; lia).
        rewrite Hb. do 2 f_equal. lia.
      * rewrite zlen_app, zlen_to_le, (rd_values_split rd k k1 k'), V, zlen_app by lia. change (zlen [x]) with 1. destruct r; [lia|]. destruct Hr as (R1 & k0 & R2 & R3). split; [lia|]. exists k0. split; [lia|exact R3].
    + exists k1, [], false. rewrite splice_nil, V, firstn_nil. splits; auto; try (change (zlen (@nil Z)) with 0; lia); exists k; rewrite V; auto.
  - destruct (Z.gtb_spec l 0) as [P|P].
    + destruct (rdrand_ok rd 20 k) as (k1 & Hk1 & [(x & E & V)|(E & V & K)]); rewrite E.
      * exists k1, (firstn (Z.to_nat l) (to_le 8 x)), true. rewrite V. cbn [flat_map]. rewrite app_nil_r. change (zlen [x]) with 1. splits; auto; [unfold zlen; rewrite firstn_length, length_to_le; lia|lia].
      * exists k1, [], false. rewrite splice_nil, V, firstn_nil. splits; auto; try (change (zlen (@nil Z)) with 0; lia); exists k; rewrite V; auto.
    + exists k, [], true. rewrite splice_nil. unfold rd_values. rewrite Nat.sub_diag. cbn [seq flat_map]. rewrite firstn_nil. change (zlen (@nil Z)) with 0. splits; auto; lia.
Qed.
Lemma hardware_rng_ok rd k buf ofs len :
  (in_range buf ofs len = false -> r_bytes (hardware_rng rd) k buf ofs len = ((k, buf), Raise Invalid_argument)) /\
  (in_range buf ofs len = true -> exists k' r, let b := firstn (Z.to_nat len) (flat_map (to_le 8) (rd_values rd k k')) in (k <= k')%nat /\
   r_bytes (hardware_rng rd) k buf ofs len = ((k', splice buf ofs b), r) /\
   ((r = Ret tt /\ zlen b = len /\ 8 * zlen (rd_values rd k k') < len + 8) \/
    (r = Raise (Error Entropy_source_closed) /\ zlen b < len /\ exists k0, (k <= k0)%nat /\ k' = (k0 + 20)%nat /\ rd_values rd k0 k' = []))).
Proof.
  cbn [hardware_rng r_bytes]. assert (T : bad_range buf ofs len = negb (in_range buf ofs len)) by (unfold bad_range, in_range; lia). rewrite T. split; intros V; rewrite V; cbn [negb]; [reflexivity|].
  apply in_range_true in V. destruct (hardware_loop_ok rd (S (Z.to_nat len)) k buf ofs len) as (k' & b & r & E & Hk & Hb & Hr); try lia. rewrite E. cbn [fst snd obind].
  exists k', (if r then Ret tt else Raise (Error Entropy_source_closed)). cbn zeta. rewrite <- Hb. splits; [exact Hk|reflexivity|]. destruct r; auto.
Qed.

(* ---- Random.string ---- *)
Lemma rng_string_ok fresh R s len : (forall n, 0 <= n -> zlen (fresh n) = n) -> 0 <= len <= max_string_length ->
  rng_string fresh R s len = (fst (fst (r_bytes R s (fresh len) 0 len)), olet u := snd (r_bytes R s (fresh len) 0 len) in Ret (snd (fst (r_bytes R s (fresh len) 0 len)))).
Proof. intros F H. unfold rng_string. replace ((len <? 0) || (len >? max_string_length)) with false by lia. reflexivity. Qed.
