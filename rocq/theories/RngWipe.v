(* Lemmas for C119: the generators after wipe. *)
From Verif Require Import Prelude PreludeFacts BytesNum SpecBlock TransformModel BlockModel BlockObj CipherModel SpecAes AesModel Aes AesniModel Aesni AesApi AesField SpecStream StreamModel SpecRng RngModel Rng WipeMore.

(* ---- devices ---- *)
Lemma device_closed sched q : r_bytes (device_rng sched) None (q_buf q) (q_ofs q) (q_len q) =
  ((None, q_buf q), if q_len q <=? 0 then Ret tt else if in_range (q_buf q) (q_ofs q) (q_len q) then Raise Unix_error else Raise Invalid_argument).
Proof.
  cbn [device_rng r_bytes device_loop]. destruct (Z.gtb_spec (q_len q) 0) as [G|G].
  - replace (q_len q <=? 0) with false by lia. unfold unix_read. cbn [fst snd].
    destruct (in_range (q_buf q) (q_ofs q) (q_len q)) eqn:I.
    + apply in_range_true in I. replace (bad_range (q_buf q) (q_ofs q) (q_len q)) with false by (unfold bad_range; lia). reflexivity.
    + replace (bad_range (q_buf q) (q_ofs q) (q_len q)) with true; [reflexivity|]. symmetry. unfold bad_range. unfold in_range in I. lia.
  - replace (q_len q <=? 0) with true by lia. reflexivity.
Qed.
Lemma device_wiped sched ch qs : let w := r_wipe (device_rng sched) (Some ch) in
  snd w = Ret tt /\ snd (r_wipe (device_rng sched) (fst w)) = Raise Unix_error /\
  r_run (device_rng sched) (fst w) qs =
  map (fun q => (q_buf q, if q_len q <=? 0 then Ret tt else if in_range (q_buf q) (q_ofs q) (q_len q) then Raise Unix_error else Raise Invalid_argument)) qs.
Proof.
  cbv zeta. split; [reflexivity|]. split; [reflexivity|]. change (fst (r_wipe (device_rng sched) (Some ch))) with (None : r_st (device_rng sched)).
  induction qs as [|q qs IH]; [reflexivity|]. cbn [r_run map]. rewrite device_closed. cbn [fst snd]. f_equal. exact IH.
Qed.
(* ---- generators without memory ---- *)
Lemma no_effect ge rd (R : rng) : R = system_rng ge \/ R = hardware_rng rd \/ R = no_rng -> forall s qs,
  snd (r_wipe R s) = Ret tt /\ r_run R (fst (r_wipe R s)) qs = r_run R s qs.
Proof. intros [->|[->| ->]] s qs; split; reflexivity. Qed.

(* ---- AES in counter mode ---- *)
Section Wiped.
Variables (aes : bobj) (E : bytes -> bytes) (K : Z).
Hypothesis Haes : block_computes aes 16 E.
Hypothesis HE : forall b, zlen b = 16 -> bytes_ok b -> zlen (E b) = 16.
Let F (j : Z) : bytes := if j <? K then zeros 16 else E (to_be 16 j).
Definition wstream (n : nat) : Z := if Z.of_nat n <? 16 * K then 0 else ctr_stream E n.
Definition wrel (s : actr (bc_st (b_bc aes))) (n : nat) : Prop :=
  ac_c s = b_st aes /\ 0 <= ac_opos s <= 16 /\ zlen (ac_obuf s) = 16 /\
  exists k : Z, K <= k /\ ac_ctr s = to_be 16 k /\ Z.of_nat n + 16 = 16 * k + ac_opos s /\ (ac_opos s < 16 -> ac_obuf s = F (k - 1)).
Lemma wrefill s n : wrel s n -> exists s', actr_refill (b_bc aes) s = (s', Ret tt) /\ wrel s' n /\ ac_opos s' < 16.
Proof.
  intros (H1 & H2 & H3 & k & H0 & H4 & H5 & H6). unfold actr_refill. destruct (Z.geb_spec (ac_opos s) 16) as [G|G].
  - destruct Haes as (_ & T). rewrite H1, H4, T; [|rewrite zlen_to_be; lia|lia|apply bytes_ok_sub; apply bytes_ok_to_be].
    rewrite sub_0_all by (rewrite zlen_to_be; reflexivity).
    assert (L : zlen (E (to_be 16 k)) = 16) by (apply HE; [apply zlen_to_be|apply bytes_ok_to_be]). rewrite splice_all by lia. cbn [fst snd bind ac_ctr]. rewrite ctr_next. cbn [bind ac_c ac_obuf ac_seed].
    eexists. split; [reflexivity|]. split; [|cbn [ac_opos]; lia]. split; [reflexivity|]. cbn [ac_opos ac_obuf ac_ctr]. split; [lia|]. split; [exact L|].
    exists (k + 1). split; [lia|]. split; [reflexivity|]. split; [lia|]. intros _. unfold F. replace (k + 1 - 1) with k by lia. replace (k <? K) with false by lia. reflexivity.
  - exists s. split; [reflexivity|]. split; [|lia]. unfold wrel. eauto 12.
Qed.
Lemma wblock k o m : 0 <= k -> 0 <= o -> o + Z.of_nat m <= 16 -> zlen (F k) = 16 ->
  ks_bytes wstream (Z.to_nat (16 * k + o)) m = sub (F k) o (Z.of_nat m).
Proof.
  intros Hk Ho Hm L. unfold F in *. destruct (Z.ltb_spec k K) as [C|C].
  - apply (list_eq_nth 0); [unfold ks_bytes; rewrite map_length, seq_length, length_sub; lia|].
    unfold ks_bytes. rewrite map_length, seq_length. intros i Hi. rewrite (nth_indep _ 0 (wstream 0)) by (rewrite map_length, seq_length; exact Hi). rewrite map_nth, seq_nth by exact Hi.
    unfold wstream. replace (Z.of_nat (Z.to_nat (16 * k + o) + i) <? 16 * K) with true by lia. unfold sub. rewrite nth_firstn_lt by lia. rewrite nth_skipn. symmetry. unfold zeros. apply nth_repeat.
  - rewrite <- (ctr_stream_block E) by (assumption || lia). unfold ks_bytes. apply map_ext_in. intros n Hn. apply in_seq in Hn. unfold wstream. replace (Z.of_nat n <? 16 * K) with false by lia. reflexivity.
Qed.
Lemma wloop fuel : forall s n buf ofs len, wrel s n -> 0 <= len -> (Z.to_nat len < fuel)%nat -> 0 <= ofs -> ofs + len <= zlen buf ->
  exists s', actr_loop (b_bc aes) fuel s buf ofs len = ((s', splice buf ofs (ks_bytes wstream n (Z.to_nat len))), Ret tt) /\ wrel s' (n + Z.to_nat len).
Proof.
  induction fuel as [|f IH]; intros s n buf ofs len R Hl Hf Ho Hb; [lia|]. cbn [actr_loop]. destruct (Z.gtb_spec len 0) as [G|G].
  2: { exists s. replace (Z.to_nat len) with 0%nat by lia. unfold ks_bytes. cbn [seq map]. rewrite splice_nil, Nat.add_0_r. auto. }
  destruct (wrefill s n R) as (s1 & -> & R1 & O1). pose proof R1 as (A1 & A2 & A3 & k & A0 & A4 & A5 & A6). specialize (A6 O1). set (r := Z.min (16 - ac_opos s1) len).
  assert (Hr : 0 < r <= len /\ r <= 16 - ac_opos s1) by lia. rewrite blit_ok by lia.
  assert (Ek : sub (ac_obuf s1) (ac_opos s1) r = ks_bytes wstream n (Z.to_nat r)).
  { rewrite A6. replace n with (Z.to_nat (16 * (k - 1) + ac_opos s1)) by lia. rewrite wblock; [rewrite Z2Nat.id by lia; reflexivity|lia|lia|lia|rewrite <- A6; exact A3]. }
  rewrite Ek. set (s2 := ACtr _ _ _ _ _). assert (R2 : wrel s2 (n + Z.to_nat r)).
  { split; [exact A1|]. cbn [s2 ac_opos ac_obuf ac_ctr]. split; [lia|]. split; [exact A3|]. exists k. split; [exact A0|]. split; [exact A4|]. split; [lia|]. intros _. exact A6. }
  destruct (Z.ltb_spec r len) as [L|L].
  - destruct (IH s2 (n + Z.to_nat r)%nat (splice buf ofs (ks_bytes wstream n (Z.to_nat r))) (ofs + r) (len - r) R2) as (s3 & E3 & R3); try lia.
    { rewrite zlen_splice by (rewrite ?zlen_ks; lia). lia. }
    exists s3. rewrite E3. replace (Z.to_nat len) with (Z.to_nat r + Z.to_nat (len - r))%nat by lia. rewrite ks_bytes_add. split.
    + do 2 f_equal. replace (ofs + r) with (ofs + zlen (ks_bytes wstream n (Z.to_nat r))) by (rewrite zlen_ks; lia). apply splice_splice_app; rewrite ?zlen_ks; lia.
    + replace (n + (Z.to_nat r + Z.to_nat (len - r)))%nat with (n + Z.to_nat r + Z.to_nat (len - r))%nat by lia. exact R3.
  - exists s2. replace len with r by lia. auto.
Qed.
Lemma wdelivers qs : Forall q_valid qs -> forall s n, wrel s n -> r_run (actr_class (b_bc aes)) s qs = delivered wstream n qs.
Proof.
  induction 1 as [|q qs V _ IH]; intros s n R; [reflexivity|]. cbn [r_run delivered]. unfold q_valid in V. rewrite V. apply in_range_true in V. cbn [actr_class r_bytes].
  destruct (wloop (S (Z.to_nat (q_len q))) s n (q_buf q) (q_ofs q) (q_len q) R) as (s' & -> & R'); try lia. cbn [fst snd]. f_equal. apply IH. exact R'.
Qed.
End Wiped.

Lemma delivered_ext f g qs : (forall n, f n = g n) -> forall n, delivered f n qs = delivered g n qs.
Proof.
  intros H. induction qs as [|q qs IH]; intros n; [reflexivity|]. cbn [delivered]. destruct (in_range _ _ _); f_equal; try apply IH. unfold ks_bytes. rewrite (map_ext f g) by exact H. reflexivity.
Qed.
(* the seed is kept until wipe *)
Lemma refill_seed A s : ac_seed (fst (actr_refill A s)) = ac_seed s.
Proof. unfold actr_refill. destruct (_ >=? _); [|reflexivity]. destruct (bc_transform A _ _ _ _ _) as ((c & b) & [u|e| |]); cbn [fst snd bind ac_seed]; try reflexivity. destruct (increment_counter _ _ _); reflexivity. Qed.
Lemma loop_seed A fuel : forall s buf ofs len, ac_seed (fst (fst (actr_loop A fuel s buf ofs len))) = ac_seed s.
Proof.
  induction fuel as [|f IH]; intros s buf ofs len; [reflexivity|]. cbn [actr_loop]. destruct (len >? 0); [|reflexivity].
  pose proof (refill_seed A s) as H. destruct (actr_refill A s) as (s1 & [u|e| |]); cbn [fst] in H |- *; try exact H. cbv zeta.
  destruct (blit _ _ _ _ _); cbn [fst]; try exact H. destruct (_ <? len); [rewrite IH|]; cbn [fst ac_seed]; exact H.
Qed.
Lemma after_seed A qs : forall s, ac_seed (r_after (actr_class A) s qs) = ac_seed s.
Proof. induction qs as [|q qs IH]; intros s; [reflexivity|]. cbn [r_after]. rewrite IH. cbn [actr_class r_bytes]. apply loop_seed. Qed.

Lemma actr_wiped fresh nb seed : (forall n, 0 <= n -> zlen (fresh n) = n) -> (nb = new_aes fresh Encrypt \/ nb = new_aesni fresh Encrypt) -> bytes_ok seed -> 16 <= zlen seed ->
  exists A s0, pseudo_rng_aes_ctr fresh nb seed = Ret (RObj (actr_class A) s0) /\ forall qs, Forall q_valid qs ->
  let s := fst (r_wipe (actr_class A) (r_after (actr_class A) s0 qs)) in
  ac_seed s = zeros (zlen seed) /\ ac_obuf s = zeros 16 /\ forall qs', Forall q_valid qs' ->
  r_run (actr_class A) s qs' = delivered (fun n => if (n <? (asked qs + 15) / 16 * 16)%nat then 0 else ctr_stream (aes_E (firstn 16 seed)) n) (asked qs) qs'.
Proof.
  intros fresh_len Hnb B H. unfold pseudo_rng_aes_ctr. replace (zlen seed <? 16) with false by lia. unfold bytes_sub. replace (in_range seed 0 16) with true by (symmetry; apply in_range_true; lia). cbn [obind].
  unfold sub. cbn [Z.to_nat skipn]. change (Pos.to_nat 16) with 16%nat. assert (K : aes_key_size (firstn 16 seed)) by (left; unfold zlen in *; rewrite firstn_length; lia).
  assert (BK : bytes_ok (firstn 16 seed)) by (apply Forall_firstn, B).
  assert (X : exists o, nb (firstn 16 seed) = Ret o /\ block_computes o 16 (aes_E (firstn 16 seed))).
  { destruct Hnb as [->| ->]; [destruct (new_aes_computes fresh Encrypt (firstn 16 seed) fresh_len K BK) as (b & Eb & Cb & _)|destruct (new_aesni_computes fresh Encrypt (firstn 16 seed) fresh_len K BK) as (b & Eb & Cb & _)]; exists b; auto. }
  destruct X as (b & Eb & Cb). rewrite Eb. cbn [obind]. eexists _, _. split; [reflexivity|]. intros qs V.
  assert (forall x, zlen x = 16 -> bytes_ok x -> zlen (aes_E (firstn 16 seed) x) = 16) as HE by (intros x Hx Bx; now apply aes_E_blk).
  assert (arel b (aes_E (firstn 16 seed)) (ACtr (b_st b) (zeros 16) (fresh 16) 16 seed) 0) as R0.
  { split; [reflexivity|]. cbn [ac_opos ac_obuf ac_ctr]. split; [lia|]. split; [apply fresh_len; lia|]. exists 0. split; [reflexivity|]. split; lia. }
  pose proof (after_seed (b_bc b) qs (ACtr (b_st b) (zeros 16) (fresh 16) 16 seed)) as Sd. cbn [ac_seed] in Sd.
  destruct (actr_after fresh fresh_len b _ Cb HE qs V _ _ R0) as (R & P); [cbn [ac_opos]; lia|]. cbn [Nat.add] in R. set (s := r_after _ _ qs) in *. destruct R as (R1 & R2 & R3 & k & R4 & R5 & R6).
  cbn [actr_class r_wipe fst ac_seed ac_obuf].
  assert (Z0 : forall l : bytes, map (fun _ => 0) l = zeros (zlen l)) by (intros l; unfold zeros, zlen; rewrite Nat2Z.id; induction l as [|x l IH]; [reflexivity|cbn [map length repeat]; f_equal; exact IH]).
  split; [rewrite Sd; apply Z0|]. split; [rewrite Z0, R3; reflexivity|]. intros qs' V'.
  rewrite (wdelivers b (aes_E (firstn 16 seed)) k Cb HE qs' V' _ (asked qs)).
  - apply delivered_ext. intros n. unfold wstream. destruct (Z.ltb_spec (Z.of_nat n) (16 * k)) as [C|C], (Nat.ltb_spec n ((asked qs + 15) / 16 * 16)) as [D|D]; try reflexivity; exfalso; clear - R5 P C D; lia.
  - split; [exact R1|]. cbn [ac_opos ac_obuf ac_ctr]. split; [exact R2|]. split; [rewrite Z0, R3; reflexivity|]. exists k. split; [lia|]. split; [exact R4|]. split; [exact R5|].
    intros _. replace (k - 1 <? k) with true by lia. rewrite Z0, R3. reflexivity.
Qed.
Lemma chacha_seed fresh seed : 16 <= zlen seed -> exists s0, pseudo_rng fresh seed = Ret (RObj pseudo_rng_class s0) /\
  forall qs, snd (fst (r_wipe pseudo_rng_class (r_after pseudo_rng_class s0 qs))) = zeros (zlen seed).
Proof.
  intros H. unfold pseudo_rng. replace (zlen seed <? 16) with false by lia. eexists. split; [reflexivity|]. intros qs. cbn [pseudo_rng_class r_wipe fst snd].
  assert (A : forall s : chacha * bytes, snd (r_after pseudo_rng_class s qs) = snd s).
  { induction qs as [|q qs IH]; intros s; [reflexivity|]. cbn [r_after]. rewrite IH. cbn [pseudo_rng_class r_bytes]. destruct (_ || _); reflexivity. }
  rewrite A. cbn [snd]. clear. unfold zeros, zlen. rewrite Nat2Z.id. induction seed as [|x l IH]; [reflexivity|]. cbn [map length repeat]. f_equal. exact IH.
Qed.
