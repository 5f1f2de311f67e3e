(* BLAKE3: the stack of chaining values, the hasher, the hash objects. *)
From Verif Require Import Prelude PreludeFacts BytesNum SpecBlock BlockTotal Word WordIO SpecHash HashModel HashSpec HashFacts MdModel MdHash ShaModel Sha KeccakModel Keccak
  SpecBlake2 Blake2Model Blake2 SpecBlake3 Blake3Model Blake3 Blake3Chunk Blake3Tree.

(* ---- population count ---- *)
Lemma popcnt_double x : 0 <= x -> popcnt (2 * x) = popcnt x.
Proof. destruct x; intros H; try reflexivity; lia. Qed.
Lemma popcnt_double1 x : 0 <= x -> popcnt (2 * x + 1) = 1 + popcnt x.
Proof. destruct x; intros H; try reflexivity; lia. Qed.
Lemma popcnt_pow e x : 0 <= x -> popcnt (2 ^ Z.of_nat e * x) = popcnt x.
Proof.
  intros Hx. induction e as [|e IH]; [f_equal; change (2 ^ Z.of_nat 0) with 1; lia|]. replace (Z.of_nat (S e)) with (Z.of_nat e + 1) by lia. rewrite Z.pow_add_r by lia.
  assert (0 <= 2 ^ Z.of_nat e) by (apply Z.pow_nonneg; lia).
  replace (2 ^ Z.of_nat e * 2 ^ 1 * x) with (2 * (2 ^ Z.of_nat e * x)) by lia. rewrite popcnt_double by (apply Z.mul_nonneg_nonneg; assumption). assumption.
Qed.
Lemma popcnt_add e x : 0 <= e -> 0 <= x -> (2 ^ (e + 1) | x) -> popcnt (2 ^ e + x) = 1 + popcnt x.
Proof.
  intros He Hx (y & ->). rewrite Z.pow_add_r in * by lia. assert (Hp : 0 < 2 ^ e) by (apply Z.pow_pos_nonneg; lia).
  assert (Hy : 0 <= y) by (apply Z.nlt_ge; intros Hn; assert (y * (2 ^ e * 2 ^ 1) < 0) by (apply Z.mul_neg_pos; lia); lia).
  replace (2 ^ e + y * (2 ^ e * 2 ^ 1)) with (2 ^ Z.of_nat (Z.to_nat e) * (2 * y + 1)) by (rewrite Z2Nat.id by lia; lia).
  replace (y * (2 ^ e * 2 ^ 1)) with (2 ^ Z.of_nat (Z.to_nat e) * (2 * y)) by (rewrite Z2Nat.id by lia; lia).
  rewrite !popcnt_pow, popcnt_double, popcnt_double1 by lia. reflexivity.
Qed.
Lemma pow_divide a b : 0 <= a <= b -> (2 ^ a | 2 ^ b).
Proof. intros H. exists (2 ^ (b - a)). rewrite <- Z.pow_add_r by lia. f_equal. lia. Qed.

Section Hasher.
Variables (key : list Z) (flags : Z).
Hypothesis Hkey : okw 8 key.
Hypothesis Hflags : word_ok 32 flags.
Notation T := (T key flags).
Notation parent := (parent_node key flags).

(* the subtrees whose chaining values are on the stack, the top first: the
   log of their number of chunks, and their bytes *)
Notation entry := (Z * bytes)%type.
Fixpoint base (l : list entry) : Z := match l with [] => 0 | (e, _) :: l => 2 ^ e + base l end.
Fixpoint data (l : list entry) : bytes := match l with [] => [] | (_, s) :: l => data l ++ s end.
Fixpoint stack_cvs (l : list entry) : list bytes := match l with [] => [] | (_, s) :: l => node_cv (T (base l) s) :: stack_cvs l end.
Definition entry_ok (p : entry) : Prop := 0 <= fst p /\ zlen (snd p) = 1024 * 2 ^ fst p /\ bytes_ok (snd p).
Fixpoint incr (d : Z) (l : list entry) : Prop := match l with [] => True | (e, _) :: l => d <= e /\ incr (e + 1) l end.
Definition good (l : list entry) : Prop := match l with [] => True | (e, _) :: l => incr e l end.

Lemma stack_len l : zlen (stack_cvs l) = zlen l.
Proof. induction l as [|[e s] l IH]; [reflexivity|]. cbn [stack_cvs]. rewrite !zlen_cons, IH. reflexivity. Qed.
Lemma base_nonneg l : Forall entry_ok l -> 0 <= base l.
Proof. induction 1 as [|[e s] l (He & _) _ IH]; cbn [base]; [lia|]. cbn in He. assert (0 <= 2 ^ e) by (apply Z.pow_nonneg; lia). lia. Qed.
Lemma data_len l : Forall entry_ok l -> zlen (data l) = 1024 * base l.
Proof. induction 1 as [|[e s] l (He & Hs & _) _ IH]; cbn [base data]; [reflexivity|]. cbn [fst snd] in *. rewrite zlen_app. lia. Qed.
Lemma data_ok l : Forall entry_ok l -> bytes_ok (data l).
Proof. induction 1 as [|[e s] l (He & Hs & Hb) _ IH]; cbn [base data]; [constructor|]. apply Forall_app. split; assumption. Qed.
Lemma incr_weaken d d' l : d' <= d -> incr d l -> incr d' l.
Proof. destruct l as [|[e s] l]; [trivial|]. cbn. intros H (H1 & H2). split; [lia|assumption]. Qed.
Lemma incr_good d l : incr d l -> good l.
Proof. destruct l as [|[e s] l]; [trivial|]. cbn. intros (_ & H). apply (incr_weaken (e + 1)); [lia|assumption]. Qed.
Lemma incr_divide l : forall d, 0 <= d -> incr d l -> (2 ^ d | base l).
Proof.
  induction l as [|[e s] l IH]; intros d Hd H; cbn [base]; [apply Z.divide_0_r|]. destruct H as (H1 & H2).
  apply Z.divide_add_r; [apply pow_divide; lia|]. apply Z.divide_trans with (2 ^ (e + 1)); [apply pow_divide; lia|]. apply IH; [lia|assumption].
Qed.
Lemma divide_incr l d : 0 <= d -> Forall entry_ok l -> incr 0 l -> (2 ^ d | base l) -> incr d l.
Proof.
  intros Hd Hok H Hv. destruct l as [|[e s] l]; [exact I|]. cbn [incr base] in *. destruct H as (H1 & H2). split; [|assumption].
  destruct (Z_le_gt_dec d e) as [|Hgt]; [assumption|exfalso].
  assert (H3 : (2 ^ (e + 1) | 2 ^ e + base l)) by (apply Z.divide_trans with (2 ^ d); [apply pow_divide; lia|assumption]).
  assert (H4 : (2 ^ (e + 1) | 2 ^ e)).
  { replace (2 ^ e) with (2 ^ e + base l - base l) by lia. apply Z.divide_sub_r; [assumption|]. apply incr_divide; [lia|assumption]. }
  assert (Hp : 0 < 2 ^ e) by (apply Z.pow_pos_nonneg; lia). apply Z.divide_pos_le in H4; [|assumption]. rewrite Z.pow_add_r in H4 by lia. lia.
Qed.
Lemma popcnt_strict l : forall d, 0 <= d -> Forall entry_ok l -> incr d l -> popcnt (base l) = zlen l.
Proof.
  induction l as [|[e s] l IH]; intros d Hd Hok H; [reflexivity|]. apply Forall_cons_iff in Hok as (_ & Hok). cbn [base]. destruct H as (H1 & H2).
  rewrite popcnt_add; [|lia|apply base_nonneg; assumption|apply incr_divide; [lia|assumption]]. rewrite zlen_cons, (IH (e + 1)) by (assumption || lia). reflexivity.
Qed.
Lemma good_cases l : good l -> Forall entry_ok l -> incr 0 l \/ exists e s s' r, l = (e, s) :: (e, s') :: r /\ incr (e + 1) r.
Proof.
  destruct l as [|[e s] l]; [left; exact I|]. cbn [good]. intros H Hok. apply Forall_cons_iff in Hok as ((He & _) & _). cbn [fst] in He.
  destruct l as [|[e' s'] l]; [left; cbn; auto|]. cbn [incr] in H. destruct H as (H1 & H2). destruct (Z.eq_dec e' e) as [->|Hne].
  - right. exists e, s, s', l. auto.
  - left. cbn. repeat split; (assumption || lia).
Qed.
Lemma merged_ok e s s' : entry_ok (e, s) -> entry_ok (e, s') -> entry_ok (e + 1, s' ++ s).
Proof.
  intros (H1 & H2 & H3) (H4 & H5 & H6). cbn [fst snd] in *. unfold entry_ok. cbn [fst snd]. splits; [lia| |].
  - rewrite zlen_app, Z.pow_add_r by lia. lia.
  - apply Forall_app. split; assumption.
Qed.
Lemma base_merge e s s' r : 0 <= e -> base ((e + 1, s' ++ s) :: r) = base ((e, s) :: (e, s') :: r).
Proof. intros H. cbn [base]. rewrite Z.pow_add_r by lia. lia. Qed.
Lemma popcnt_good n : forall l, (length l <= n)%nat -> good l -> Forall entry_ok l -> popcnt (base l) <= zlen l.
Proof.
  induction n as [|n IH]; intros l Hn Hg Hok; [destruct l; [reflexivity|cbn in Hn; lia]|].
  destruct (good_cases l Hg Hok) as [H|(e & s & s' & r & -> & H)]; [rewrite (popcnt_strict l 0); (assumption || lia)|].
  apply Forall_cons_iff in Hok as (H1 & Hok). apply Forall_cons_iff in Hok as (H2 & Hok). rewrite <- base_merge by apply H1.
  specialize (IH ((e + 1, s' ++ s) :: r)). cbn [length] in *. rewrite !zlen_cons in *. etransitivity; [apply IH|lia]; [lia|exact H|].
  constructor; [apply merged_ok; assumption|assumption].
Qed.

(* the parent of two subtrees of the same size *)
Lemma parent_cv t e s s' : 0 <= t -> entry_ok (e, s) -> entry_ok (e, s') -> t * 1024 + zlen s' + zlen s < 2 ^ 64 ->
  parent_output (node_cv (T t s') ++ node_cv (T (2 ^ e + t) s)) key flags = to_out (T t (s' ++ s)).
Proof.
  intros Ht (H1 & H2 & H3) (H4 & H5 & H6) Hl. cbn [fst snd] in *. assert (Hp : 0 < 2 ^ e) by (apply Z.pow_pos_nonneg; lia).
  rewrite (T_split key flags e) by (assumption || lia). rewrite (Z.add_comm (2 ^ e)). apply parent_output_ok.
Qed.
Lemma chaining_T t m : 0 <= t -> t * 1024 + zlen m < 2 ^ 64 -> bytes_ok m -> output_chaining_value (to_out (T t m)) = node_cv (T t m).
Proof. intros Ht Hl Hb. destruct (T_node key flags Hkey Hflags t m Ht Hl Hb) as (H1 & H2). apply chaining_ok; assumption. Qed.

Lemma merge_strict l fuel : incr 0 l -> Forall entry_ok l -> merge_loop (S fuel) (stack_cvs l) key flags (popcnt (base l)) = Ret (stack_cvs l).
Proof.
  intros H Hok. cbn [merge_loop]. rewrite stack_len, (popcnt_strict l 0) by (assumption || lia). assert ((zlen l >? zlen l) = false) as -> by lia. reflexivity.
Qed.
Lemma merge_ok n : forall l fuel, (length l <= n)%nat -> (n < fuel)%nat -> good l -> Forall entry_ok l -> 1024 * base l < 2 ^ 64 ->
  exists l', merge_loop fuel (stack_cvs l) key flags (popcnt (base l)) = Ret (stack_cvs l') /\ incr 0 l' /\ Forall entry_ok l' /\ base l' = base l /\ data l' = data l.
Proof.
  induction n as [|n IH]; intros l fuel Hn Hf Hg Hok Hb; (destruct fuel as [|fuel]; [lia|]).
  - destruct l; [|cbn in Hn; lia]. exists []. splits; [apply merge_strict; [exact I|assumption]|exact I|assumption|reflexivity|reflexivity].
  - destruct (good_cases l Hg Hok) as [H|(e & s & s' & r & -> & H)].
    + exists l. splits; [apply merge_strict; assumption|assumption|assumption|reflexivity|reflexivity].
    + apply Forall_cons_iff in Hok as (H1 & Hok). apply Forall_cons_iff in Hok as (H2 & Hok).
      set (l1 := (e + 1, s' ++ s) :: r).
      assert (Hok1 : Forall entry_ok l1) by (constructor; [apply merged_ok; assumption|assumption]).
      assert (Eb : base l1 = base ((e, s) :: (e, s') :: r)) by (apply base_merge; apply H1).
      assert (Hl1 : (length l1 <= n)%nat) by (unfold l1; cbn [length] in *; lia).
      pose proof (popcnt_good n l1 Hl1 H Hok1) as Hpop. rewrite <- Eb in Hb |- *.
      cbn [merge_loop]. rewrite stack_len. unfold l1 in Hpop at 2. rewrite !zlen_cons in *.
      assert ((1 + (1 + zlen r) >? popcnt (base l1)) = true) as -> by lia. cbn [stack_cvs base].
      pose proof (base_nonneg r Hok) as Hr. 
      assert (Hz : 1024 * base r + zlen s' + zlen s < 2 ^ 64).
      { rewrite Eb in Hb. cbn [base] in Hb. destruct H1 as (_ & Hz1 & _), H2 as (_ & Hz2 & _). cbn [fst snd] in *. lia. }
      rewrite parent_cv by (assumption || lia). rewrite chaining_T; [|assumption|rewrite zlen_app; lia|].
      2:{ apply Forall_app. split; [apply H2|apply H1]. }
      change (node_cv (T (base r) (s' ++ s)) :: stack_cvs r) with (stack_cvs l1).
      destruct (IH l1 fuel Hl1 ltac:(lia) H Hok1 Hb) as (l' & E & Hi & Hok' & Eb' & Ed). exists l'. splits; try assumption.
      rewrite Ed. unfold l1. cbn [data]. rewrite app_assoc. reflexivity.
Qed.
Lemma strict_size l : forall d, 0 <= d -> incr d l -> 2 ^ d * (2 ^ zlen l - 1) <= base l.
Proof.
  induction l as [|[e s] l IH]; intros d Hd H; cbn [base]; [cbn; lia|]. destruct H as (H1 & H2). specialize (IH (e + 1) ltac:(lia) H2).
  rewrite zlen_cons. pose proof (zlen_nonneg l). rewrite Z.pow_add_r in * by lia. pose proof (Z.pow_le_mono_r 2 d e ltac:(lia) H1).
  assert (1 <= 2 ^ zlen l) by (apply (Z.pow_le_mono_r 2 0); lia).
  assert (2 ^ d * (2 ^ 1 * 2 ^ zlen l - 1) <= 2 ^ e * (2 ^ 1 * 2 ^ zlen l - 1)) by (apply Z.mul_le_mono_nonneg_r; lia). lia.
Qed.
Lemma strict_room l : incr 0 l -> 1024 * base l < 2 ^ 64 -> zlen l < 55.
Proof.
  intros H Hb. pose proof (strict_size l 0 ltac:(lia) H) as Hs. apply Z.nle_gt. intros Hge. pose proof (Z.pow_le_mono_r 2 55 _ ltac:(lia) Hge) as HH.
  change (2 ^ 55) with 36028797018963968 in HH. change (2 ^ 64) with 18446744073709551616 in Hb. change (2 ^ 0) with 1 in Hs. lia.
Qed.

Lemma push_ok h l t p : hs_key h = key -> cs_flags (hs_chunk h) = flags -> hs_stack h = stack_cvs l -> good l -> Forall entry_ok l -> t = base l -> 1024 * base l < 2 ^ 64 ->
  exists l', hasher_push_cv h (node_cv (T t (snd p))) t = Ret (Hasher key (hs_chunk h) (stack_cvs (p :: l'))) /\
    incr 0 l' /\ Forall entry_ok l' /\ base l' = base l /\ data l' = data l /\ (incr 0 l -> l' = l).
Proof.
  intros Hk Hf Hs Hg Hok -> Hb. unfold hasher_push_cv, hasher_merge_cv_stack. rewrite Hk, Hf, Hs.
  assert (Hx : exists l', merge_loop (S (length (stack_cvs l))) (stack_cvs l) key flags (popcnt (base l)) = Ret (stack_cvs l') /\ incr 0 l' /\ Forall entry_ok l' /\ base l' = base l /\ data l' = data l /\ (incr 0 l -> l' = l)).
  { destruct (good_cases l Hg Hok) as [H|(e & s & s' & r & E & H)].
    - exists l. splits; [apply merge_strict; assumption|assumption|assumption|reflexivity|reflexivity|reflexivity].
    - assert (Hlen : length (stack_cvs l) = length l) by (pose proof (stack_len l); unfold zlen in *; lia). rewrite Hlen.
      destruct (merge_ok (length l) l (S (length l)) (Nat.le_refl _) ltac:(lia) Hg Hok Hb) as (l' & E1 & H1 & H2 & H3 & H4).
      exists l'. splits; try assumption. subst l. cbn [incr]. intros (_ & Hc & _). lia. }
  destruct Hx as (l' & -> & H1 & H2 & H3 & H4 & H5). cbn [obind hs_stack hs_key hs_chunk]. rewrite stack_len.
  pose proof (strict_room l' H1 ltac:(lia)). assert ((zlen l' >=? 55) = false) as -> by lia. exists l'. splits; try assumption.
  destruct p as [e s]. cbn [snd stack_cvs]. rewrite H3. reflexivity.
Qed.

(* ---- the size of the next subtree ---- *)
Lemma shrink_ok count : 0 <= count -> (1024 | count) -> forall fuel a, 10 <= a -> a - 10 < Z.of_nat fuel ->
  exists k, shrink fuel (2 ^ a) count = Ret (2 ^ k) /\ 10 <= k <= a /\ (2 ^ k | count).
Proof.
  intros Hc Hd. induction fuel as [|fuel IH]; intros a Ha Hf; [lia|]. cbn [shrink].
  replace (2 ^ a - 1) with (Z.ones a) by (rewrite Z.ones_equiv; lia). rewrite Z.land_comm, Z.land_ones by lia.
  assert (Hp : 2 ^ a <> 0) by (apply Z.pow_nonzero; lia).
  destruct (count mod 2 ^ a =? 0) eqn:E.
  - exists a. splits; [reflexivity|lia|lia|]. apply Z.mod_divide; [assumption|lia].
  - assert (a <> 10). { intros ->. change (2 ^ 10) with 1024 in E. apply Z.mod_divide in Hd; [|lia]. rewrite Hd in E. discriminate. }
    replace (2 ^ a / 2) with (2 ^ (a - 1)). 2:{ apply Z.div_unique_exact; [lia|]. rewrite <- (Z.pow_1_r 2) at 2. rewrite <- Z.pow_add_r by lia. f_equal. lia. }
    destruct (IH (a - 1) ltac:(lia) ltac:(lia)) as (k & Ek & H1 & H2). exists k. splits; [assumption|lia|lia|assumption].
Qed.
Lemma round_down_ok n : 1024 < n < 2 ^ 64 -> exists a, round_down_to_power_of_2 n = 2 ^ a /\ 10 <= a < 64 /\ 2 ^ a <= n.
Proof.
  intros H. exists (Z.log2 n). unfold round_down_to_power_of_2, highest_one. rewrite Z.log2_lor by lia. change (Z.log2 1) with 0.
  pose proof (Z.log2_spec n ltac:(lia)) as (H1 & H2). assert (10 <= Z.log2 n) by (apply (Z.log2_le_mono 1024); lia).
  assert (Z.log2 n < 64) by (apply Z.log2_lt_pow2; lia). rewrite Z.max_l by lia. rewrite shl1 by lia. splits; (reflexivity || lia).
Qed.

(* ---- the loop over subtrees ---- *)
Definition lazy (l : list entry) : Prop := exists e s s' r, l = (e, s) :: (e, s') :: r /\ incr (e + 1) r.
Definition linv (m : bytes) (h : hasher) (l : list entry) : Prop :=
  m = data l /\ good l /\ Forall entry_ok l /\ h = Hasher key (chunk_state_init key (base l) flags) (stack_cvs l).

Lemma lazy_good l : lazy l -> good l.
Proof. intros (e & s & s' & r & -> & H). cbn. split; [lia|assumption]. Qed.

Lemma loop_step m h l input : linv m h l -> bytes_ok input -> 1024 < zlen input -> zlen m + zlen input < 2 ^ 64 ->
  exists n h' l', 1024 <= n <= zlen input /\
    (forall fuel, hasher_loop (S fuel) h input = hasher_loop fuel h' (skipn (Z.to_nat n) input)) /\
    linv (m ++ firstn (Z.to_nat n) input) h' l' /\ (1024 < n -> lazy l').
Proof.
  intros (Em & Hg & Hok & Eh) Hb Hl Htot. pose proof (data_len l Hok) as Hdl. rewrite <- Em in Hdl. pose proof (base_nonneg l Hok) as Hbase.
  destruct (round_down_ok (zlen input) ltac:(lia)) as (a & Ea & Ha1 & Ha2).
  destruct (shrink_ok (base l * 1024) ltac:(lia) ltac:(exists (base l); reflexivity) 64 a ltac:(lia) ltac:(lia)) as (k & Ek & Hk1 & Hk2).
  assert (Hka : 2 ^ k <= 2 ^ a) by (apply Z.pow_le_mono_r; lia).
  set (j := k - 10). assert (Hj : 2 ^ k = 1024 * 2 ^ j) by (change 1024 with (2 ^ 10); rewrite <- Z.pow_add_r by (unfold j; lia); f_equal; unfold j; lia).
  assert (Hjp : 0 < 2 ^ j) by (apply Z.pow_pos_nonneg; unfold j; lia).
  assert (Hdiv : 2 ^ k / 1024 = 2 ^ j) by (rewrite Hj, Z.mul_comm, Z.div_mul by lia; reflexivity).
  assert (Hjd : (2 ^ j | base l)).
  { destruct Hk2 as (q & Hq). exists q. rewrite Hj in Hq. lia. }
  destruct (bytes_ok_split input (Z.to_nat (2 ^ k)) Hb) as (Hb1 & _).
  assert (Hz : zlen (firstn (Z.to_nat (2 ^ k)) input) = 2 ^ k) by (rewrite zlen_firstn; lia).
  set (sub := firstn (Z.to_nat (2 ^ k)) input) in *.
  assert (Hcount : (base l * 1024) mod 2 ^ 64 = base l * 1024) by (apply Z.mod_small; lia).
  exists (2 ^ k). subst h.
  assert (Hstep : forall fuel, hasher_loop (S fuel) (Hasher key (chunk_state_init key (base l) flags) (stack_cvs l)) input =
     (olet h := (if 2 ^ k <=? 1024 then
            olet s := chunk_state_update (chunk_state_init key (base l) flags) sub in
            hasher_push_cv (Hasher key (chunk_state_init key (base l) flags) (stack_cvs l)) (output_chaining_value (chunk_state_output s)) (base l)
          else
            olet cv_pair := compress_subtree_to_parent_node sub key (base l) flags in
            olet h := hasher_push_cv (Hasher key (chunk_state_init key (base l) flags) (stack_cvs l)) (firstn 32 cv_pair) (base l) in
            hasher_push_cv h (skipn 32 cv_pair) (c_add 64 (base l) (2 ^ j / 2))) in
        hasher_loop fuel (set_counter h (c_add 64 (base l) (2 ^ j))) (skipn (Z.to_nat (2 ^ k)) input))).
  { intros fuel. cbn [hasher_loop]. assert ((zlen input >? 1024) = true) as -> by lia.
    cbn [hs_chunk hs_key chunk_state_init cs_counter cs_flags]. rewrite Hcount, Ea, Ek. cbn [obind]. rewrite Hdiv. reflexivity. }
  assert (Eadd : c_add 64 (base l) (2 ^ j) = base l + 2 ^ j) by (unfold c_add; apply Z.mod_small; lia).
  rewrite Eadd in Hstep. clear Eadd Hcount Ek Ea.
  destruct (2 ^ k <=? 1024) eqn:E10.
  - assert (Hj1 : 2 ^ j = 1) by lia. assert (Hj0 : j = 0). { destruct (Z.eq_dec j 0); [assumption|]. assert (2 ^ 1 <= 2 ^ j) by (apply Z.pow_le_mono_r; unfold j in *; lia). lia. }
    destruct (chunk_ok key flags Hkey Hflags (base l) sub ltac:(lia) Hb1 ltac:(lia)) as (s & Es & Eo & _).
    destruct (push_ok (Hasher key (chunk_state_init key (base l) flags) (stack_cvs l)) l (base l) (0, sub) eq_refl eq_refl eq_refl Hg Hok eq_refl ltac:(lia)) as (l' & Ep & Hi & Hok' & Eb & Ed & _).
    exists (Hasher key (chunk_state_init key (base ((0, sub) :: l')) flags) (stack_cvs ((0, sub) :: l'))), ((0, sub) :: l').
    splits; [lia|lia| | |lia].
    + intros fuel. rewrite Hstep, Es. cbn [obind]. rewrite Eo, <- (T_small key flags) by lia. rewrite chaining_T by (assumption || lia).
      cbn [snd] in Ep. rewrite Ep. cbn [obind]. unfold set_counter. cbn [hs_key hs_chunk hs_stack chunk_state_init cs_cv cs_buf cs_buf_len cs_blocks cs_flags base].
      rewrite Eb, Hj1. change (2 ^ 0) with 1. rewrite (Z.add_comm 1). reflexivity.
    + unfold linv. cbn [data good]. rewrite Ed. splits; [rewrite Em; reflexivity|assumption| |reflexivity].
      constructor; [|assumption]. unfold entry_ok. cbn [fst snd]. splits; [lia|change (2 ^ 0) with 1; lia|assumption].
  - assert (Hj1 : 1 <= j). { apply Z.nlt_ge. intros Hlt. assert (j = 0) by (unfold j in *; lia). replace j with 0 in Hj by lia. change (2 ^ 0) with 1 in Hj. lia. }
    set (i := j - 1). assert (Hi2 : 2 ^ j = 2 * 2 ^ i) by (replace j with (1 + i) by (unfold i; lia); rewrite Z.pow_add_r by (unfold i; lia); reflexivity).
    assert (Hip : 0 < 2 ^ i) by lia.
    assert (Ehalf : 2 ^ j / 2 = 2 ^ i) by (rewrite Hi2, Z.mul_comm, Z.div_mul by lia; reflexivity). rewrite Ehalf in Hstep.
    pose proof (subtree_ok key flags Hkey Hflags (Z.to_nat i) (base l) sub ltac:(lia) ltac:(lia) Hb1) as Hsub.
    rewrite Z2Nat.id in Hsub by (unfold i; lia). specialize (Hsub ltac:(replace (i + 1) with j by (unfold i; lia); lia)).
    set (n := Z.to_nat (1024 * 2 ^ i)) in *. set (L := firstn n sub) in *. set (R := skipn n sub) in *.
    destruct (bytes_ok_split sub n Hb1) as (HbL & HbR). fold L in HbL. fold R in HbR.
    assert (HzL : zlen L = 1024 * 2 ^ i) by (unfold L, n; rewrite zlen_firstn; lia).
    assert (HzR : zlen R = 1024 * 2 ^ i) by (unfold R, n; rewrite zlen_skipn; lia).
    assert (ELR : L ++ R = sub) by apply firstn_skipn.
    assert (HokL : entry_ok (i, L)) by (unfold entry_ok; cbn [fst snd]; splits; [unfold i; lia|assumption|assumption]).
    assert (HokR : entry_ok (i, R)) by (unfold entry_ok; cbn [fst snd]; splits; [unfold i; lia|assumption|assumption]).
    destruct (T_node key flags Hkey Hflags (base l) L ltac:(lia) ltac:(lia) HbL) as (HnL & _). destruct (node_cv_len _ HnL) as (HcL & _).
    assert (Hcat : firstn 32 (node_cv (T (base l) L) ++ node_cv (T (base l + 2 ^ i) R)) = node_cv (T (base l) L)) by (apply firstn_app_l; unfold zlen in HcL; lia).
    assert (Hcat2 : skipn 32 (node_cv (T (base l) L) ++ node_cv (T (base l + 2 ^ i) R)) = node_cv (T (base l + 2 ^ i) R)).
    { rewrite skipn_app, skipn_all2 by (unfold zlen in HcL; lia). assert (length (node_cv (T (base l) L)) = 32%nat) as -> by (unfold zlen in HcL; lia). reflexivity. }
    destruct (push_ok (Hasher key (chunk_state_init key (base l) flags) (stack_cvs l)) l (base l) (i, L) eq_refl eq_refl eq_refl Hg Hok eq_refl ltac:(lia)) as (l' & Ep & Hi' & Hok' & Eb & Ed & _).
    cbn [snd hs_chunk] in Ep.
    assert (Hinc : incr (i + 1) l') by (apply divide_incr; [unfold i; lia|assumption|assumption|rewrite Eb; replace (i + 1) with j by (unfold i; lia); assumption]).
    assert (Hstrict : incr 0 ((i, L) :: l')) by (cbn; split; [unfold i; lia|assumption]).
    assert (Hok2 : Forall entry_ok ((i, L) :: l')) by (constructor; assumption).
    assert (Eb2 : base l + 2 ^ i = base ((i, L) :: l')) by (cbn [base]; lia).
    destruct (push_ok (Hasher key (chunk_state_init key (base l) flags) (stack_cvs ((i, L) :: l'))) ((i, L) :: l') (base l + 2 ^ i) (i, R) eq_refl eq_refl eq_refl (incr_good 0 _ Hstrict) Hok2 Eb2 ltac:(cbn [base]; lia)) as (l2 & Ep2 & _ & _ & _ & _ & El2).
    rewrite (El2 Hstrict) in Ep2. cbn [snd hs_chunk] in Ep2. clear El2.
    exists (Hasher key (chunk_state_init key (base ((i, R) :: (i, L) :: l')) flags) (stack_cvs ((i, R) :: (i, L) :: l'))), ((i, R) :: (i, L) :: l').
    splits; [lia|lia| | |].
    + intros fuel. rewrite Hstep, Hsub. cbn [obind]. rewrite Hcat, Hcat2, Ep. cbn [obind].
      assert (Ec : c_add 64 (base l) (2 ^ i) = base l + 2 ^ i) by (unfold c_add; apply Z.mod_small; lia). rewrite Ec, Ep2. cbn [obind].
      unfold set_counter. cbn [hs_key hs_chunk hs_stack chunk_state_init cs_cv cs_buf cs_buf_len cs_blocks cs_flags base].
      replace (2 ^ i + (2 ^ i + base l')) with (base l + 2 ^ j) by lia. reflexivity.
    + unfold linv. splits; [cbn [data]; rewrite Ed, <- app_assoc, ELR, Em; reflexivity| | |reflexivity].
      * cbn. split; [lia|assumption].
      * constructor; assumption.
    + intros _. exists i, R, L, l'. auto.
Qed.
Lemma loop_ok fuel : forall m h l input, linv m h l -> bytes_ok input -> (length input < fuel)%nat -> zlen m + zlen input < 2 ^ 64 -> input <> [] \/ lazy l ->
  exists m' h' l' rest, hasher_loop fuel h input = Ret (h', rest) /\ linv m' h' l' /\ m ++ input = m' ++ rest /\ bytes_ok rest /\ zlen rest <= 1024 /\ (rest = [] -> lazy l').
Proof.
  induction fuel as [|fuel IH]; intros m h l input Hi Hb Hf Htot Hne; [lia|].
  destruct (Z_le_gt_dec (zlen input) 1024) as [Hle|Hgt].
  - cbn [hasher_loop]. assert ((zlen input >? 1024) = false) as -> by lia. exists m, h, l, input. splits; try assumption; try reflexivity. intros E. destruct Hne as [Hne|Hne]; [congruence|assumption].
  - destruct (loop_step m h l input Hi Hb ltac:(lia) Htot) as (n & h' & l' & Hn & Hstep & Hi' & Hlz). rewrite Hstep.
    destruct (bytes_ok_split input (Z.to_nat n) Hb) as (Hb1 & Hb2).
    destruct (IH (m ++ firstn (Z.to_nat n) input) h' l' (skipn (Z.to_nat n) input)) as (m' & h2 & l2 & rest & E & H1 & H2 & H3 & H4 & H5); try assumption.
    + rewrite skipn_length. unfold zlen in *. lia.
    + rewrite zlen_app, zlen_firstn, zlen_skipn. lia.
    + destruct (Z_le_gt_dec n 1024) as [Hle|Hg2]; [left|right; apply Hlz; lia]. intros E0. apply (f_equal zlen) in E0. rewrite zlen_skipn in E0. cbn in E0. lia.
    + exists m', h2, l2, rest. splits; try assumption. rewrite <- H2, <- app_assoc, firstn_skipn. reflexivity.
Qed.

(* ---- the hasher ---- *)
Definition hinv (m : bytes) (h : hasher) : Prop :=
  exists l c s, m = data l ++ c /\ Forall entry_ok l /\ cs_inv key flags (base l) c s /\ zlen c <= 1024 /\ h = Hasher key s (stack_cvs l) /\
    (c = [] -> l = [] \/ lazy l) /\ (c <> [] -> incr 0 l).

Lemma rest_ok m h l input : linv m h l -> bytes_ok input -> input <> [] -> zlen m + zlen input < 2 ^ 64 ->
  exists h', hasher_update_rest h input = Ret h' /\ hinv (m ++ input) h'.
Proof.
  intros Hi Hb Hne Htot. unfold hasher_update_rest.
  destruct (loop_ok (S (length input)) m h l input Hi Hb ltac:(lia) Htot (or_introl Hne)) as (m' & h' & l' & rest & -> & (Em & Hg & Hok & Eh) & Ecat & Hbr & Hlr & Hlz).
  cbn [obind]. pose proof (data_len l' Hok) as Hdl. pose proof (base_nonneg l' Hok) as Hbase.
  assert (Ht2 : zlen m' + zlen rest < 2 ^ 64) by (apply (f_equal zlen) in Ecat; rewrite !zlen_app in Ecat; lia).
  rewrite Ecat. rewrite Em in Ht2 |- *. pose proof (zlen_nonneg rest). destruct (zlen rest >? 0) eqn:E.
  - subst h'. cbn [hs_chunk].
    destruct (chunk_update_ok key flags Hkey Hflags (base l') [] _ rest ltac:(lia) (chunk_init_ok key flags (base l')) Hbr) as (s & Es & His); [cbn; lia|].
    rewrite Es. cbn [obind]. unfold hasher_merge_cv_stack, set_chunk. cbn [hs_key hs_chunk hs_stack].
    destruct (chunk_fields key flags _ _ _ His) as (-> & ->).
    assert (Hlen : length (stack_cvs l') = length l') by (pose proof (stack_len l'); unfold zlen in *; lia). rewrite Hlen.
    destruct (merge_ok (length l') l' (S (length l')) (Nat.le_refl _) ltac:(lia) Hg Hok ltac:(lia)) as (l2 & -> & H1 & H2 & H3 & H4). cbn [obind].
    eexists. split; [reflexivity|]. exists l2, rest, s. cbn [app] in His. rewrite H4, H3. splits; try assumption; try reflexivity; [intros ->; cbn in E; lia|intros _; assumption].
  - assert (rest = []) as -> by (apply zlen_0; lia). exists h'. split; [reflexivity|]. exists l', [], (chunk_state_init key (base l') flags).
    splits; [reflexivity|assumption|apply chunk_init_ok|cbn; lia|assumption|intros _; right; apply Hlz; reflexivity|congruence].
Qed.

Lemma update_ok m h d : hinv m h -> bytes_ok d -> zlen m + zlen d < 2 ^ 64 -> exists h', hasher_update h d = Ret h' /\ hinv (m ++ d) h'.
Proof.
  intros Hi Hb Htot. unfold hasher_update. destruct (zlen d =? 0) eqn:E0.
  { assert (d = []) as -> by (apply zlen_0; lia). rewrite app_nil_r. exists h. auto. }
  destruct Hi as (l & c & s & Em & Hok & Hc & Hlc & Eh & H1 & H2). subst h. cbn [hs_chunk].
  pose proof (data_len l Hok) as Hdl. pose proof (base_nonneg l Hok) as Hbase. pose proof (zlen_nonneg d). pose proof (zlen_nonneg c).
  assert (Hdne : d <> []) by (intros ->; cbn in E0; discriminate).
  assert (Elen : zlen m = zlen (data l) + zlen c) by (rewrite Em, zlen_app; reflexivity).
  rewrite (chunk_len_ok _ _ _ _ _ Hc). destruct (zlen c >? 0) eqn:Ec.
  - assert (Hst : incr 0 l) by (apply H2; intros ->; cbn in Ec; lia). fold (minz (1024 - zlen c) (zlen d)). set (k := minz (1024 - zlen c) (zlen d)).
    assert (Hk : 0 <= k <= 1024 - zlen c /\ k <= zlen d /\ (k = zlen d \/ k = 1024 - zlen c)) by (unfold k, minz; destruct (1024 - zlen c >? zlen d) eqn:E1; lia). clearbody k.
    destruct (bytes_ok_split d (Z.to_nat k) Hb) as (Hb1 & Hb2).
    assert (Hzf : zlen (firstn (Z.to_nat k) d) = k) by (rewrite zlen_firstn; lia).
    destruct (chunk_update_ok key flags Hkey Hflags (base l) c s (firstn (Z.to_nat k) d) ltac:(lia) Hc Hb1 ltac:(lia)) as (s' & -> & Hs'). cbn [obind].
    assert (Hne : c ++ firstn (Z.to_nat k) d <> []) by (intros E1; apply (f_equal zlen) in E1; rewrite zlen_app in E1; cbn in E1; lia).
    rewrite zlen_skipn. unfold set_chunk. cbn [hs_key hs_chunk hs_stack]. destruct (Z.max 0 (zlen d - Z.of_nat (Z.to_nat k)) >? 0) eqn:E1.
    + assert (Hfull : zlen (c ++ firstn (Z.to_nat k) d) = 1024) by (rewrite zlen_app; lia).
      destruct (chunk_fields key flags _ _ _ Hs') as (-> & Efl). destruct (chunk_output_ok key flags Hkey Hflags (base l) _ s' ltac:(lia) Hs') as (-> & _).
      pose proof (chunk_bytes_ok _ _ _ _ _ Hs') as Hcb.
      rewrite <- (T_small key flags) by lia. rewrite chaining_T by (assumption || lia).
      destruct (push_ok (Hasher key s' (stack_cvs l)) l (base l) (0, c ++ firstn (Z.to_nat k) d) eq_refl Efl eq_refl (incr_good 0 _ Hst) Hok eq_refl ltac:(lia)) as (l' & Ep & _ & _ & _ & _ & El).
      rewrite (El Hst) in Ep. cbn [snd hs_chunk] in Ep. rewrite Ep. cbn [obind hs_key hs_chunk hs_stack]. unfold chunk_state_reset. rewrite Efl.
      assert (Ead : c_add 64 (base l) 1 = base l + 1) by (unfold c_add; apply Z.mod_small; lia). rewrite Ead.
      replace (m ++ d) with (data ((0, c ++ firstn (Z.to_nat k) d) :: l) ++ skipn (Z.to_nat k) d).
      2:{ cbn [data]. rewrite Em. rewrite <- !app_assoc, firstn_skipn. reflexivity. }
      apply (rest_ok _ _ ((0, c ++ firstn (Z.to_nat k) d) :: l)).
      * unfold linv. splits; [reflexivity|exact Hst| |].
        -- constructor; [|assumption]. unfold entry_ok. cbn [fst snd]. splits; [lia|exact Hfull|assumption].
        -- cbn [base]. change (2 ^ 0) with 1. rewrite (Z.add_comm 1). reflexivity.
      * assumption.
      * intros E2. apply (f_equal zlen) in E2. rewrite zlen_skipn in E2. cbn in E2. lia.
      * cbn [data]. rewrite !zlen_app in *. rewrite zlen_skipn. lia.
    + eexists. split; [reflexivity|]. assert (Hkd : firstn (Z.to_nat k) d = d) by (apply firstn_all2; unfold zlen in *; lia). rewrite Hkd in *.
      exists l, (c ++ d), s'. splits; try assumption; [rewrite Em, app_assoc; reflexivity|rewrite zlen_app; lia|reflexivity|congruence|intros _; assumption].
  - assert (c = []) as -> by (apply zlen_0; lia). rewrite app_nil_r in Em. subst m.
    assert (Es : s = chunk_state_init key (base l) flags).
    { destruct Hc as (blks & tail & [Hc _ _ _ _] & Hz & ->). symmetry in Hc. apply app_eq_nil in Hc as (_ & Ht). rewrite Ht, (Hz Ht). reflexivity. }
    apply (rest_ok _ _ l); [|assumption|assumption|lia]. unfold linv. splits; [reflexivity| |assumption|rewrite Es; reflexivity].
    destruct (H1 eq_refl) as [->|Hlz]; [exact I|apply lazy_good; assumption].
Qed.

(* ---- the result ---- *)
Lemma finalize_ok l : forall d x, 0 <= d -> incr d l -> Forall entry_ok l -> 0 < zlen x <= 1024 * 2 ^ d -> bytes_ok x -> 1024 * base l + zlen x < 2 ^ 64 ->
  finalize_loop (stack_cvs l) key flags (to_out (T (base l) x)) = to_out (T 0 (data l ++ x)).
Proof.
  induction l as [|[e s] l IH]; intros d x Hd Hi Hok Hx Hb Ht; [reflexivity|]. apply Forall_cons_iff in Hok as ((He & Hs & Hbs) & Hok). cbn [fst snd] in *. destruct Hi as (Hi1 & Hi2).
  cbn [stack_cvs finalize_loop base data] in *. pose proof (base_nonneg l Hok) as Hbase. assert (Hp : 0 < 2 ^ e) by (apply Z.pow_pos_nonneg; lia).
  pose proof (Z.pow_le_mono_r 2 d e ltac:(lia) Hi1).
  rewrite chaining_T by (assumption || lia). rewrite (Z.add_comm (2 ^ e)), parent_output_ok, <- (T_split key flags e) by (assumption || lia).
  rewrite (IH (e + 1)); [rewrite app_assoc; reflexivity|lia|assumption|assumption| | |].
  - rewrite zlen_app, Z.pow_add_r by lia. lia.
  - apply Forall_app. split; assumption.
  - rewrite zlen_app. lia.
Qed.
Lemma result_ok m h len : hinv m h -> 0 < len -> zlen m < 2 ^ 64 -> hasher_finalize h len = Ret (root_output (b3_root key flags m) (Z.to_nat len)).
Proof.
  intros (l & c & s & Em & Hok & Hc & Hlc & Eh & H1 & H2) Hlen Htot. subst h m. unfold hasher_finalize. assert ((len =? 0) = false) as -> by lia. cbn [hs_stack hs_chunk hs_key].
  change (b3_root key flags (data l ++ c)) with (T 0 (data l ++ c)).
  pose proof (data_len l Hok) as Hdl. pose proof (base_nonneg l Hok) as Hbase. rewrite zlen_app in Htot. pose proof (zlen_nonneg c).
  destruct (chunk_output_ok key flags Hkey Hflags (base l) _ s Hbase Hc) as (Eo & _). rewrite <- (T_small key flags) in Eo by assumption.
  destruct (chunk_fields key flags _ _ _ Hc) as (_ & Efl). rewrite (chunk_len_ok _ _ _ _ _ Hc), Efl, Eo.
  pose proof (chunk_bytes_ok _ _ _ _ _ Hc) as Hcb.
  assert (Hnode : node_ok (T 0 (data l ++ c))).
  { apply T_node; try assumption; [lia|rewrite zlen_app; lia|]. apply Forall_app. split; [apply data_ok; assumption|assumption]. }
  destruct l as [|p l].
  { cbn [stack_cvs base data app] in *. rewrite root_bytes_ok by (assumption || lia). reflexivity. }
  assert (Ene : exists x y, stack_cvs (p :: l) = x :: y) by (destruct p; cbn [stack_cvs]; eauto). destruct Ene as (x & y & Ene). rewrite Ene. rewrite <- Ene.
  destruct (zlen c >? 0) eqn:E.
  - assert (Hst : incr 0 (p :: l)) by (apply H2; intros ->; cbn in E; lia).
    rewrite (finalize_ok (p :: l) 0 c) by (assumption || lia). rewrite root_bytes_ok by (assumption || lia). reflexivity.
  - assert (c = []) as -> by (apply zlen_0; lia). destruct (H1 eq_refl) as [Hn|(e & s2 & s' & r & El & Hi)]; [discriminate|]. rewrite El in *. clear p l El. cbn [stack_cvs base data] in Ene. injection Ene as <- <-.
    cbn [stack_cvs base data] in *. apply Forall_cons_iff in Hok as (Ho1 & Hok). apply Forall_cons_iff in Hok as (Ho2 & Hok). pose proof (base_nonneg r Hok) as Hr.
    pose proof Ho1 as (He & Hz1 & Hb1). pose proof Ho2 as (_ & Hz2 & Hb2). cbn [fst snd] in *. assert (Hp : 0 < 2 ^ e) by (apply Z.pow_pos_nonneg; lia).
    rewrite (parent_cv (base r) e) by (assumption || lia).
    rewrite (finalize_ok r (e + 1)); [|lia|assumption|assumption| | |].
    + rewrite app_nil_r in *. rewrite <- app_assoc in *. rewrite root_bytes_ok by (assumption || lia). reflexivity.
    + rewrite zlen_app, Z.pow_add_r by lia. lia.
    + apply Forall_app. split; assumption.
    + rewrite zlen_app. change (zlen (@nil Z)) with 0 in *. lia.
Qed.
Lemma init_ok : hinv [] (hasher_init_base key flags).
Proof.
  exists [], [], (chunk_state_init key 0 flags). splits; [reflexivity|constructor|apply chunk_init_ok|cbn; lia|reflexivity|left; reflexivity|congruence].
Qed.

Definition b3_dom (m : bytes) : Prop := zlen m < 2 ^ 64.
Lemma blake3_himpl sz : 0 < sz / 8 ->
  himpl b3_dom (blake3_class sz) (fun m => Ret (root_output (b3_root key flags m) (Z.to_nat (sz / 8)))) (fun c m => exists h, c = Some h /\ hinv m h).
Proof.
  intros Hsz. apply c_hash_himpl.
  - unfold b3_dom. intros a b. rewrite zlen_app. pose proof (zlen_nonneg b). lia.
  - unfold b3_dom. intros k m d (h & -> & Hh) Hd _ HP. rewrite zlen_app in HP. destruct (update_ok m h d Hh Hd HP) as (h' & E & Hh'). exists (Some h').
    cbn [b3_upd]. rewrite E. split; [reflexivity|]. exists h'. auto.
  - unfold b3_dom. intros k m (h & -> & Hh) HP. cbn [b3_fin snd]. apply result_ok; assumption.
Qed.
End Hasher.

Lemma blake3_ok key sz : 0 < sz -> sz mod 8 = 0 -> zlen key = 0 \/ zlen key = 32 -> bytes_ok key ->
  exists o, blake3_obj key sz = Ret o /\ h_size (ho_class o) = sz / 8 /\ computes_on b3_dom o (fun m => Ret (blake3_spec key (sz / 8) m)).
Proof.
  intros Hs Hm Hk Hb. unfold blake3_obj. assert ((sz >? 0) && (sz mod 8 =? 0) && ((zlen key =? 0) || (zlen key =? 32)) = true) as -> by lia.
  eexists. splits; [reflexivity|reflexivity|]. assert (Hsz : 0 < sz / 8) by lia.
  destruct Hk as [Hk|Hk].
  - apply zlen_0 in Hk. subst key. change (zlen (@nil Z) =? 32) with false. cbn iota.
    assert (Eiv : B3_IV = b_IV blake2s_params) by (cbn [blake2s_params b_IV]; rewrite iv2s_ok; reflexivity).
    assert (Hiv : okw 8 (b_IV blake2s_params)).
    { rewrite <- Eiv. split; [reflexivity|]. repeat (apply Forall_cons; [unfold word_ok; lia|]). constructor. }
    eapply himpl_computes; [exact (blake3_himpl (b_IV blake2s_params) 0 Hiv ltac:(unfold word_ok; lia) sz Hsz)|].
    exists (hasher_init_base (b_IV blake2s_params) 0). split; [unfold hasher_init; rewrite Eiv; reflexivity|]. apply init_ok.
  - assert ((zlen key =? 32) = true) as -> by lia.
    assert (Hw : load_words32 8 key = le_words 4 key /\ okw 8 (le_words 4 key)).
    { assert (Hn : length key = (8 * 4)%nat) by (unfold zlen in Hk; lia). split; [apply load_words32_ok; assumption|]. exact (le_words_ok 4 8 key ltac:(lia) Hn Hb). }
    destruct Hw as (Ew & Hw). destruct key as [|x key']; [cbn in Hk; lia|].
    eapply himpl_computes; [exact (blake3_himpl (le_words 4 (x :: key')) F_KEYED_HASH Hw ltac:(unfold word_ok, F_KEYED_HASH; lia) sz Hsz)|].
    exists (hasher_init_base (le_words 4 (x :: key')) F_KEYED_HASH). split; [unfold hasher_init_keyed; rewrite Ew; reflexivity|]. apply init_ok.
Qed.
Lemma blake3_other key sz : ~ (0 < sz /\ sz mod 8 = 0 /\ (zlen key = 0 \/ zlen key = 32)) -> blake3_obj key sz = Raise (Error Wrong_key_size).
Proof.
  intros H. unfold blake3_obj. destruct ((sz >? 0) && (sz mod 8 =? 0) && ((zlen key =? 0) || (zlen key =? 32))) eqn:E; [|reflexivity]. exfalso. apply H. lia.
Qed.
