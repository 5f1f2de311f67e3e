(* Facts about the big integer functions. *)
From Coq Require Import Zpow_facts Znumtheory.
From Verif Require Import Prelude PreludeFacts BytesNum NumTheory RngModel BnModel PkModel SpecPk.
Ltac splits := repeat match goal with |- _ /\ _ => split end.

Lemma of_bytes_be s : bn_of_bytes s = be s. Proof. reflexivity. Qed.

(* ---- numbers of bits and limbs ---- *)
Lemma numbits_nonneg n : 0 <= z_numbits n.
Proof. unfold z_numbits. destruct (n =? 0); [lia|]. pose proof (Z.log2_nonneg (Z.abs n)). lia. Qed.
Lemma numbits_le n k : 0 <= n -> 0 <= k -> z_numbits n <= k <-> n < 2 ^ k.
Proof.
  intros N K. unfold z_numbits. destruct (Z.eqb_spec n 0) as [->|Z0].
  - pose proof (Z.pow_pos_nonneg 2 k). split; lia.
  - rewrite Z.abs_eq by lia. rewrite (Z.log2_lt_pow2 n k) by lia. lia.
Qed.
Lemma numbits_eq n k : 0 <= n -> 1 <= k -> z_numbits n = k <-> 2 ^ (k - 1) <= n < 2 ^ k.
Proof.
  intros N K. pose proof (numbits_le n k N ltac:(lia)) as A. pose proof (numbits_le n (k - 1) N ltac:(lia)) as B. split; intros H.
  - split; [|apply A; lia]. destruct (Z.le_gt_cases (2 ^ (k - 1)) n) as [L|L]; [exact L|]. apply B in L. lia.
  - destruct H as (H1 & H2). apply A in H2. assert (~ z_numbits n <= k - 1) by (rewrite B; lia). lia.
Qed.
Lemma limbs_nonneg n : 0 <= z_limbs n.
Proof. unfold z_limbs. apply Z.div_pos; [|lia]. pose proof (numbits_nonneg n). lia. Qed.
Lemma limbs_bound n : 0 <= n -> n < 256 ^ (8 * z_limbs n).
Proof.
  intros N. rewrite Z.pow_mul_r by (pose proof (limbs_nonneg n); lia). change (256 ^ 8) with (2 ^ 64). rewrite <- Z.pow_mul_r by (pose proof (limbs_nonneg n); lia).
  apply numbits_le; [exact N|pose proof (limbs_nonneg n); lia|]. unfold z_limbs. pose proof (numbits_nonneg n). pose proof (Z.div_mod (z_numbits n + 63) 64 ltac:(lia)). pose proof (Z.mod_pos_bound (z_numbits n + 63) 64 ltac:(lia)). lia.
Qed.
Lemma limbs_le n k : 0 <= n -> 0 <= k -> n < 2 ^ (64 * k) -> z_limbs n <= k.
Proof.
  intros N K H. apply numbits_le in H; [|exact N|lia]. unfold z_limbs. apply Z.lt_succ_r. apply Z.div_lt_upper_bound; lia.
Qed.

(* ---- to_bytes ---- *)
Lemma to_be_grow a : forall K n, 0 <= n < 256 ^ Z.of_nat K -> to_be (a + K) n = repeat 0 a ++ to_be K n.
Proof.
  intros K n H. apply be_inj.
  - rewrite app_length, repeat_length, !length_to_be. reflexivity.
  - apply bytes_ok_to_be.
  - apply bytes_ok_app. split; [|apply bytes_ok_to_be]. apply Forall_forall. intros x Hx. apply repeat_spec in Hx. subst x. unfold byte_ok. lia.
  - rewrite be_app, !be_to_be. assert (Z0 : be (repeat 0 a) = 0).
    { clear. induction a as [|a IH]; [reflexivity|]. cbn [repeat]. rewrite be_cons, IH. lia. }
    rewrite Z0, Z.mul_0_l, Z.add_0_l. rewrite !Z.mod_small; [reflexivity|exact H|]. split; [lia|]. eapply Z.lt_le_trans; [apply H|]. apply Z.pow_le_mono_r; lia.
Qed.
Lemma splice_mid {A} (a b b' c : list A) o : o = zlen a -> zlen b = zlen b' -> splice (a ++ b ++ c) o b' = a ++ b' ++ c.
Proof.
  intros -> L. unfold splice, zlen in *. rewrite Nat2Z.id, firstn_app, Nat.sub_diag, firstn_all, firstn_O, app_nil_r. do 2 f_equal.
  rewrite app_assoc, skipn_app, skipn_all2 by (rewrite app_length; lia). rewrite app_length. replace (_ - _)%nat with 0%nat by lia. reflexivity.
Qed.
Lemma splice_comm {A} (t u : list A) c j k : 0 <= j -> j + zlen u = k -> k < zlen t -> splice (splice t k [c]) j u = splice (splice t j u) k [c].
Proof.
  intros J K T. pose proof (zlen_nonneg u).
  assert (D : exists a b x d, t = a ++ b ++ [x] ++ d /\ zlen a = j /\ zlen b = zlen u).
  { exists (firstn (Z.to_nat j) t), (firstn (length u) (skipn (Z.to_nat j) t)). destruct (skipn (length u) (skipn (Z.to_nat j) t)) as [|x d] eqn:E.
    - apply (f_equal (@length A)) in E. rewrite !skipn_length in E. cbn [length] in E. unfold zlen in *. lia.
    - exists x, d. splits.
      + change ([x] ++ d) with (x :: d). rewrite <- E, !firstn_skipn. reflexivity.
      + unfold zlen in *. rewrite firstn_length. lia.
      + unfold zlen in *. rewrite firstn_length, skipn_length. lia. }
  destruct D as (a & b & x & d & -> & La & Lb).
  assert (E1 : splice (a ++ b ++ [x] ++ d) k [c] = a ++ b ++ [c] ++ d).
  { rewrite !(app_assoc a b). apply splice_mid; [rewrite zlen_app; lia|reflexivity]. }
  assert (E2 : splice (a ++ u ++ [x] ++ d) k [c] = a ++ u ++ [c] ++ d).
  { rewrite !(app_assoc a u). apply splice_mid; [rewrite zlen_app; lia|reflexivity]. }
  rewrite E1. rewrite !splice_mid by lia. rewrite E2. reflexivity.
Qed.
Lemma to_bytes_loop_ok s : forall t l i, zlen t = l -> 0 <= i -> i + zlen s <= l -> to_bytes_loop t l i s = Ret (splice t (l - i - zlen s) (rev s)).
Proof.
  induction s as [|c s IH]; intros t l i T I H.
  - cbn [to_bytes_loop rev]. rewrite splice_nil. reflexivity.
  - rewrite zlen_cons in H. pose proof (zlen_nonneg s). cbn [to_bytes_loop]. rewrite bytes_set_ok by lia. cbn [obind]. rewrite IH; [|rewrite zlen_splice; [exact T|lia|change (zlen [c]) with 1; lia]|lia|lia].
    cbn [rev]. f_equal. replace (l - i - zlen (c :: s)) with (l - (i + 1) - zlen s) by (rewrite zlen_cons; lia). set (o := l - (i + 1) - zlen s).
    assert (E : splice t o (rev s ++ [c]) = splice (splice t o (rev s)) (o + zlen (rev s)) [c]) by (symmetry; apply splice_splice_app; [lia|rewrite zlen_rev; change (zlen [c]) with 1; lia]).
    rewrite E. rewrite zlen_rev. replace (o + zlen s) with (l - 1 - i) by lia.
    apply splice_comm; unfold zlen in *; rewrite ?rev_length; lia.
Qed.
Lemma to_bytes_loop_fail s : forall t l i, zlen t = l -> 0 <= i <= l -> i + zlen s > l -> to_bytes_loop t l i s = Raise Invalid_argument.
Proof.
  induction s as [|c s IH]; intros t l i T I H; [rewrite zlen_nil in H; lia|]. rewrite zlen_cons in H. cbn [to_bytes_loop]. destruct (Z.eq_dec i l) as [->|N].
  - unfold bytes_set. replace ((0 <=? l - 1 - l) && (l - 1 - l <? zlen t)) with false by lia. reflexivity.
  - rewrite bytes_set_ok by lia. cbn [obind]. apply IH; [rewrite zlen_splice; [exact T|lia|change (zlen [c]) with 1; lia]|lia|lia].
Qed.
Lemma quot8 nb : 0 <= nb -> Z.quot (nb + 7) 8 = (nb + 7) / 8.
Proof. intros H. apply Z.quot_div_nonneg; lia. Qed.
Lemma bytes_for nb : 0 <= nb -> 0 <= (nb + 7) / 8 /\ nb <= 8 * ((nb + 7) / 8) <= nb + 7.
Proof. intros H. pose proof (Z.div_mod (nb + 7) 8 ltac:(lia)). pose proof (Z.mod_pos_bound (nb + 7) 8 ltac:(lia)). lia. Qed.
Lemma to_bits_rev L n : 0 <= n -> 8 * z_limbs n <= L -> splice (zeros L) (L - 0 - zlen (z_to_bits n)) (rev (z_to_bits n)) = to_be (Z.to_nat L) n.
Proof.
  intros N H. pose proof (limbs_nonneg n) as P. unfold z_to_bits. rewrite zlen_to_le, Z.abs_eq by exact N. set (K := (8 * Z.to_nat (z_limbs n))%nat). assert (HK : Z.of_nat K = 8 * z_limbs n) by lia.
  replace (Z.to_nat L) with ((Z.to_nat L - K) + K)%nat by lia. rewrite to_be_grow; [|rewrite HK; split; [exact N|apply limbs_bound; exact N]].
  unfold splice, zeros. rewrite rev_length, length_to_le. replace (Z.to_nat (L - 0 - Z.of_nat K) + K)%nat with (Z.to_nat L) by lia. rewrite skipn_all2 by (rewrite repeat_length; lia). rewrite app_nil_r.
  fold (to_be K n). f_equal. replace (Z.to_nat (L - 0 - Z.of_nat K)) with (Z.to_nat L - K)%nat by lia. set (a := (Z.to_nat L - K)%nat). replace (Z.to_nat L) with (a + K)%nat by lia.
  rewrite repeat_app, firstn_app, repeat_length, Nat.sub_diag, firstn_O, app_nil_r. apply firstn_all2. rewrite repeat_length. lia.
Qed.
Lemma to_bytes_some nb n : 0 <= nb -> 0 <= n < 2 ^ nb -> (nb + 7) / 8 <= max_string_length ->
  bn_to_bytes (Some nb) n = if 8 * z_limbs n <=? (nb + 7) / 8 then Ret (to_be (Z.to_nat ((nb + 7) / 8)) n) else Raise Invalid_argument.
Proof.
  intros NB N M. unfold bn_to_bytes. replace (z_numbits n <=? nb) with true by (symmetry; apply Z.leb_le, numbits_le; lia). cbn [obind]. rewrite quot8 by lia.
  destruct (bytes_for nb NB) as (B1 & B2). set (L := (nb + 7) / 8) in *. replace ((L <? 0) || (L >? max_string_length)) with false by lia.
  assert (ZL : zlen (z_to_bits n) = 8 * z_limbs n) by (unfold z_to_bits; rewrite zlen_to_le; pose proof (limbs_nonneg n); lia). destruct (Z.leb_spec (8 * z_limbs n) L) as [H|H].
  - rewrite to_bytes_loop_ok; [|apply zlen_zeros; lia|lia|lia]. f_equal. apply to_bits_rev; lia.
  - apply to_bytes_loop_fail; [apply zlen_zeros; lia|lia|lia].
Qed.
(* enough: a whole number of limbs *)
Lemma to_bytes_whole nb n : 0 <= nb -> 0 <= n < 2 ^ nb -> (nb + 7) / 8 <= max_string_length -> (8 | (nb + 7) / 8) ->
  bn_to_bytes (Some nb) n = Ret (to_be (Z.to_nat ((nb + 7) / 8)) n).
Proof.
  intros NB N M (k & D). rewrite to_bytes_some by assumption. destruct (bytes_for nb NB) as (B1 & B2). replace (8 * z_limbs n <=? (nb + 7) / 8) with true; [reflexivity|].
  symmetry. apply Z.leb_le. assert (z_limbs n <= k); [|lia]. apply limbs_le; [lia|lia|]. eapply Z.lt_le_trans; [apply N|]. apply Z.pow_le_mono_r; lia.
Qed.
Lemma to_bytes_none n : 0 <= n -> 8 * z_limbs n <= max_string_length -> bn_to_bytes None n = Ret (to_be (Z.to_nat (8 * z_limbs n)) n).
Proof.
  intros N M. unfold bn_to_bytes. cbn [obind]. assert (ZL : zlen (z_to_bits n) = 8 * z_limbs n) by (unfold z_to_bits; rewrite zlen_to_le; pose proof (limbs_nonneg n); lia).
  rewrite ZL. pose proof (limbs_nonneg n). replace ((8 * z_limbs n <? 0) || (8 * z_limbs n >? max_string_length)) with false by lia.
  rewrite to_bytes_loop_ok; [|apply zlen_zeros; lia|lia|lia]. f_equal. apply to_bits_rev; lia.
Qed.
Lemma be_small L n : 0 <= n < 256 ^ Z.of_nat L -> be (to_be L n) = n.
Proof. intros H. rewrite be_to_be. apply Z.mod_small. exact H. Qed.
Lemma be_none n : 0 <= n -> be (to_be (Z.to_nat (8 * z_limbs n)) n) = n.
Proof. intros N. apply be_small. rewrite Z2Nat.id by (pose proof (limbs_nonneg n); lia). split; [exact N|apply limbs_bound; exact N]. Qed.
Lemma pow_bytes nb : 0 <= nb -> 2 ^ nb <= 256 ^ Z.of_nat (Z.to_nat ((nb + 7) / 8)).
Proof. intros H. destruct (bytes_for nb H). rewrite Z2Nat.id by lia. change 256 with (2 ^ 8). rewrite <- Z.pow_mul_r by lia. apply Z.pow_le_mono_r; lia. Qed.
Lemma be_some nb n : 0 <= nb -> 0 <= n < 2 ^ nb -> be (to_be (Z.to_nat ((nb + 7) / 8)) n) = n.
Proof. intros NB N. apply be_small. pose proof (pow_bytes nb NB). lia. Qed.

(* ---- powers and inverses ---- *)
Lemma powm_ok b e m : 0 < e -> Z.odd m = true -> 0 < m -> z_powm_sec b e m = Ret (b ^ e mod m).
Proof.
  intros E O M. unfold z_powm_sec. rewrite <- Z.negb_odd, O. replace (e <=? 0) with false by lia. cbn [negb orb]. rewrite Z.abs_eq by lia. f_equal. apply Zpow_mod_correct. lia.
Qed.
Lemma powm_fail b e m : e <= 0 \/ Z.odd m = false -> z_powm_sec b e m = Raise Invalid_argument.
Proof. intros [E|O]; unfold z_powm_sec; [replace (e <=? 0) with true by lia; reflexivity|]. rewrite <- Z.negb_odd, O. rewrite Bool.orb_true_r. reflexivity. Qed.
Lemma egcd_gcd fuel : forall r0 s0 r1 s1 k, 0 <= r1 -> r1 <= r0 -> 0 < r0 -> r0 < 2 ^ Z.of_nat k -> (2 * k + 2 <= fuel)%nat -> fst (egcd fuel r0 s0 r1 s1) = Z.gcd r0 r1.
Proof.
  induction fuel as [fuel IH] using lt_wf_ind. intros r0 s0 r1 s1 k P1 P2 P3 H F.
  destruct fuel as [|f]; [lia|]. cbn [egcd]. destruct (Z.eqb_spec r1 0) as [->|N]; [cbn [fst]; rewrite Z.gcd_0_r, Z.abs_eq by lia; reflexivity|].
  destruct f as [|f]; [lia|]. cbn [egcd]. pose proof (Z.mod_pos_bound r0 r1 ltac:(lia)) as B.
  assert (G : Z.gcd r0 r1 = Z.gcd r1 (r0 mod r1)) by (rewrite (Z.gcd_comm r1), Z.gcd_mod, Z.gcd_comm by lia; reflexivity). rewrite G.
  destruct (Z.eqb_spec (r0 mod r1) 0) as [E|E]; [rewrite E; cbn [fst]; rewrite Z.gcd_0_r, Z.abs_eq by lia; reflexivity|].
  assert (G2 : Z.gcd r1 (r0 mod r1) = Z.gcd (r0 mod r1) (r1 mod (r0 mod r1))) by (rewrite (Z.gcd_comm (r0 mod r1)), Z.gcd_mod, Z.gcd_comm by lia; reflexivity). rewrite G2.
  assert (Half : 2 * (r0 mod r1) < r0).
  { assert (Q : 1 <= r0 / r1) by (apply Z.div_le_lower_bound; lia). pose proof (Z.div_mod r0 r1 N). nia. }
  destruct k as [|k]; [cbn in H; lia|]. rewrite Nat2Z.inj_succ, Z.pow_succ_r in H by lia. apply (IH f ltac:(lia) _ _ _ _ k); pose proof (Z.mod_pos_bound r1 (r0 mod r1) ltac:(lia)); lia.
Qed.
Lemma egcd_inv fuel : forall a m r0 s0 r1 s1, cong m r0 (a * s0) -> cong m r1 (a * s1) -> let (g, s) := egcd fuel r0 s0 r1 s1 in cong m g (a * s).
Proof.
  induction fuel as [|f IH]; intros a m r0 s0 r1 s1 C0 C1; cbn [egcd]; [exact C0|]. destruct (Z.eqb_spec r1 0) as [E|E]; [exact C0|]. apply IH; [exact C1|].
  destruct C0 as (k & C0), C1 as (j & C1). exists (k - (r0 / r1) * j). pose proof (Z.div_mod r0 r1 E). set (q := r0 / r1) in *. replace (r0 mod r1) with (r0 - r1 * q) by lia.
  replace (r0 - r1 * q - a * (s0 - q * s1)) with ((r0 - a * s0) - q * (r1 - a * s1)) by ring. rewrite C0, C1. ring.
Qed.
Lemma numbits_pow m : 0 < m -> m < 2 ^ Z.of_nat (Z.to_nat (z_numbits m)).
Proof. intros H. rewrite Z2Nat.id by apply numbits_nonneg. apply numbits_le; [lia|apply numbits_nonneg|lia]. Qed.
Lemma invert_gcd a m : 0 < m -> let r := egcd (2 * Z.to_nat (z_numbits m) + 2) m 0 (a mod m) 1 in fst r = Z.gcd a m /\ cong m (fst r) (a * snd r).
Proof.
  intros M. cbn zeta. pose proof (Z.mod_pos_bound a m M) as B. split.
  - rewrite (egcd_gcd _ m 0 (a mod m) 1 (Z.to_nat (z_numbits m))); [|lia|lia|lia|apply numbits_pow; exact M|lia]. rewrite (Z.gcd_comm m), Z.gcd_mod, Z.gcd_comm by lia. reflexivity.
  - pose proof (egcd_inv (2 * Z.to_nat (z_numbits m) + 2) a m m 0 (a mod m) 1) as H. destruct (egcd _ _ _ _ _) as (g & s). cbn [fst snd]. apply H.
    + exists 1. ring.
    + rewrite Z.mul_1_r. apply cong_rem. lia.
Qed.
Lemma invert_ok a m : 1 < m -> Z.gcd a m = 1 -> exists x, z_invert a m = Ret x /\ 0 <= x < m /\ cong m (a * x) 1.
Proof.
  intros M G. destruct (invert_gcd a m ltac:(lia)) as (H1 & H2). unfold z_invert. replace (m <=? 0) with false by lia. destruct (egcd _ _ _ _ _) as (g & s). cbn [fst snd] in *. subst g.
  replace (Z.gcd a m =? 1) with true by lia. rewrite G in H2. exists (s mod m). split; [reflexivity|]. split; [apply Z.mod_pos_bound; lia|].
  apply cong_trans with (a * s); [apply cong_mul; [apply cong_refl|apply cong_rem; lia]|]. apply cong_sym. exact H2.
Qed.
Lemma invert_fail a m : 0 < m -> Z.gcd a m <> 1 -> z_invert a m = Raise Division_by_zero.
Proof.
  intros M G. destruct (invert_gcd a m M) as (H1 & _). unfold z_invert. replace (m <=? 0) with false by lia. destruct (egcd _ _ _ _ _) as (g & s). cbn [fst] in H1. subst g. replace (Z.gcd a m =? 1) with false by lia. reflexivity.
Qed.
Lemma rem_ok a b : 0 <= a -> 0 < b -> z_rem a b = Ret (a mod b).
Proof. intros A B. unfold z_rem. replace (b =? 0) with false by lia. f_equal. apply Z.rem_mod_nonneg; lia. Qed.
Lemma div_ok a b : 0 <= a -> 0 < b -> z_div a b = Ret (a / b).
Proof. intros A B. unfold z_div. replace (b =? 0) with false by lia. f_equal. apply Z.quot_div_nonneg; lia. Qed.

(* ---- random numbers ---- *)
Lemma bytes_set_bytes_ok l i c l' : bytes_ok l -> byte_ok c -> bytes_set l i c = Ret l' -> bytes_ok l' /\ zlen l' = zlen l /\ 0 <= i < zlen l /\ l' = splice l i [c].
Proof.
  intros H C E. unfold bytes_set in E. destruct ((0 <=? i) && (i <? zlen l)) eqn:B; [|discriminate E]. injection E as <-. apply andb_prop in B. splits; try lia.
  - apply bytes_ok_splice; [exact H|]. constructor; [exact C|constructor].
  - apply zlen_splice; [lia|]. change (zlen [c]) with 1. lia.
  - reflexivity.
Qed.
Lemma change_byte_inv s i f s' : bytes_ok s -> change_byte s i f = Ret s' -> bytes_ok s' /\ zlen s' = zlen s /\ 0 <= i < zlen s.
Proof.
  intros H E. unfold change_byte in E. destruct (bytes_get s i) as [b| | |] eqn:G; try discriminate E. cbn [obind] in E. destruct ((0 <=? f b) && (f b <? 256)) eqn:B; [|discriminate E].
  destruct (bytes_set_bytes_ok s i (f b) s' H) as (A & B' & C & _); [unfold byte_ok; lia|exact E|]. split; [exact A|]. split; [exact B'|exact C].
Qed.
Lemma rng_string_inv fresh R s len s' buf : fresh_ok fresh -> rng_bytes R -> rng_string fresh R s len = (s', Ret buf) -> bytes_ok buf.
Proof.
  intros F B E. unfold rng_string in E. destruct ((len <? 0) || (len >? max_string_length)) eqn:L; [discriminate E|]. apply orb_false_iff in L.
  specialize (B s (fresh len) 0 len (proj2 (F len ltac:(lia)))). destruct (r_bytes R s (fresh len) 0 len) as ((s1 & b) & r). cbn [fst snd] in *. destruct r; cbn [obind] in E; try discriminate E. injection E as _ <-. exact B.
Qed.
Lemma le_nonneg l : bytes_ok l -> 0 <= le l.
Proof. intros H. pose proof (le_bound l H). lia. Qed.
(* what a successful call returns *)
Lemma bn_random_inv fresh R s odd nb s' n : fresh_ok fresh -> rng_bytes R -> bn_random fresh R s odd nb = (s', Ret n) ->
  1 <= nb /\ 2 ^ (nb - 1) <= n < 2 ^ nb /\ (odd = true -> Z.odd n = true).
Proof.
  intros F B E. unfold bn_random in E. destruct (rng_string fresh R s (Z.quot (nb + 7) 8)) as (s1 & r1) eqn:E1. destruct r1 as [b1| | |]; cbn [bind] in E; try discriminate E.
  apply rng_string_inv in E1; [|exact F|exact B].
  destruct (if odd then change_byte b1 0 (fun b => Z.lor b 1) else Ret b1) as [b2| | |] eqn:E2; cbn [bind] in E; try discriminate E.
  assert (B2 : bytes_ok b2) by (destruct odd; [apply change_byte_inv in E2; [apply E2|exact E1]|injection E2 as <-; exact E1]).
  destruct (change_byte b2 ((nb + 7) ÷ 8 - 1) (fun b => Z.lor (Z.land b (Z.shiftl 1 (Z.land (nb - 1) 7) - 1)) (Z.shiftl 1 (Z.land (nb - 1) 7)))) as [b3| | |] eqn:E3; cbn [bind] in E; try discriminate E. apply change_byte_inv in E3; [|exact B2]. destruct E3 as (B3 & L3 & I3).
  destruct (Z.eqb_spec (z_numbits (le b3)) nb) as [N|N]; cbn [negb] in E; [|discriminate E]. destruct (odd && Z.even (le b3)) eqn:O; [discriminate E|]. injection E as _ <-.
  pose proof (le_nonneg b3 B3). assert (1 <= nb).
  { destruct (Z.le_gt_cases 1 nb); [assumption|]. exfalso. pose proof (numbits_nonneg (le b3)). assert (Hz : nb = 0) by lia. rewrite Hz in I3. change ((0 + 7) ÷ 8 - 1) with (-1) in I3. lia. }
  splits; [assumption|apply numbits_eq; assumption|apply numbits_eq; assumption|].
  intros ->. cbn [andb] in O. rewrite <- Z.negb_even, O. reflexivity.
Qed.
Lemma bn_random_prime_inv fresh R np fuel : forall s nb s' n, fresh_ok fresh -> rng_bytes R -> (forall n, 0 <= n -> n < np n) -> bn_random_prime fresh R np fuel s nb = (s', Ret n) ->
  1 <= nb /\ 2 ^ (nb - 1) <= n < 2 ^ nb /\ exists m, n = np m.
Proof.
  induction fuel as [|f IH]; intros s nb s' n F B P E; [discriminate E|]. cbn [bn_random_prime] in E. destruct (bn_random fresh R s true nb) as (s1 & r1) eqn:E1. destruct r1 as [m| | |]; cbn [bind] in E; try discriminate E.
  destruct (Z.eqb_spec (z_numbits (np m)) nb) as [N|N]; [|eapply (IH s1); eassumption]. injection E as _ <-. apply bn_random_inv in E1; [|exact F|exact B]. destruct E1 as (H1 & H2 & _).
  splits; [exact H1| | |exists m; reflexivity]; apply numbits_eq; try assumption; specialize (P m); pose proof (Z.pow_pos_nonneg 2 (nb - 1)); lia.
Qed.
(* a total generator gives a number *)
Lemma bytes_get_nth l i : 0 <= i < zlen l -> bytes_get l i = Ret (nthZ l i).
Proof. intros H. unfold bytes_get. replace ((0 <=? i) && (i <? zlen l)) with true by lia. reflexivity. Qed.
Lemma change_byte_mid a x d i f : i = zlen a -> byte_ok (f x) -> change_byte (a ++ x :: d) i f = Ret (a ++ f x :: d).
Proof.
  intros -> B. pose proof (zlen_nonneg a). pose proof (zlen_nonneg d). assert (L : 0 <= zlen a < zlen (a ++ x :: d)) by (rewrite zlen_app, zlen_cons; lia). unfold change_byte. rewrite bytes_get_nth by exact L. cbn [obind].
  assert (N : nthZ (a ++ x :: d) (zlen a) = x) by (unfold nthZ, zlen; rewrite Nat2Z.id, app_nth2, Nat.sub_diag by lia; reflexivity). rewrite N. unfold byte_ok in B. replace ((0 <=? f x) && (f x <? 256)) with true by lia.
  rewrite bytes_set_ok by exact L. f_equal. change (x :: d) with ([x] ++ d). rewrite splice_mid; reflexivity.
Qed.
Definition top_check : bool :=
  forallb (fun k => forallb (fun b => let m := Z.shiftl 1 k in let x := Z.lor (Z.land b (m - 1)) m in
    (2 ^ k <=? x) && (x <? 2 ^ (k + 1)) && ((k =? 0) || Bool.eqb (Z.odd x) (Z.odd b))) (map Z.of_nat (seq 0 256))) [0; 1; 2; 3; 4; 5; 6; 7].
Lemma top_byte k b : 0 <= k < 8 -> byte_ok b -> let m := Z.shiftl 1 k in let x := Z.lor (Z.land b (m - 1)) m in
  2 ^ k <= x < 2 ^ (k + 1) /\ (k = 0 \/ Z.odd x = Z.odd b).
Proof.
  intros K B. assert (C : top_check = true) by (vm_compute; reflexivity). unfold top_check in C. rewrite forallb_forall in C. specialize (C k). assert (Hk : In k [0; 1; 2; 3; 4; 5; 6; 7]) by (cbn; lia). specialize (C Hk). cbv beta in C.
  rewrite forallb_forall in C. specialize (C b). assert (Hb : In b (map Z.of_nat (seq 0 256))) by (apply in_map_iff; exists (Z.to_nat b); unfold byte_ok in B; split; [lia|apply in_seq; lia]). specialize (C Hb). cbv beta zeta in C. cbn zeta.
  apply andb_prop in C. destruct C as (C & C3). apply andb_prop in C. destruct C as (C1 & C2). split; [lia|]. apply orb_prop in C3. destruct C3 as [C3|C3]; [left; lia|right; apply Bool.eqb_prop; exact C3].
Qed.
Lemma odd_one_check : forallb (fun b => (0 <=? Z.lor b 1) && (Z.lor b 1 <? 256) && Z.odd (Z.lor b 1)) (map Z.of_nat (seq 0 256)) = true.
Proof. vm_compute. reflexivity. Qed.
Lemma odd_one b : byte_ok b -> byte_ok (Z.lor b 1) /\ Z.odd (Z.lor b 1) = true.
Proof.
  intros B. pose proof odd_one_check as C. rewrite forallb_forall in C. specialize (C b). assert (Hb : In b (map Z.of_nat (seq 0 256))) by (apply in_map_iff; exists (Z.to_nat b); unfold byte_ok in B; split; [lia|apply in_seq; lia]). specialize (C Hb). cbv beta in C.
  apply andb_prop in C. destruct C as (C & C3). split; [unfold byte_ok; lia|exact C3].
Qed.
Lemma odd_le c l : Z.odd (le (c :: l)) = Z.odd c.
Proof. cbn [le]. replace (c + 256 * le l) with (c + 2 * (128 * le l)) by ring. apply Z.odd_add_mul_2. Qed.
Lemma bn_random_ok fresh R s odd nb : fresh_ok fresh -> rng_bytes R -> rng_total R -> 1 <= nb -> (nb + 7) / 8 <= max_string_length -> exists s' n, bn_random fresh R s odd nb = (s', Ret n).
Proof.
  intros F B T NB M. destruct (bytes_for nb ltac:(lia)) as (L1 & L2). set (L := (nb + 7) / 8) in *. unfold bn_random. rewrite quot8 by lia. fold L. unfold rng_string. replace ((L <? 0) || (L >? max_string_length)) with false by lia.
  destruct (F L ltac:(lia)) as (F1 & F2). specialize (T s (fresh L) L ltac:(lia) F1). specialize (B s (fresh L) 0 L F2). destruct (r_bytes R s (fresh L) 0 L) as ((s1 & b) & r). cbn [fst snd] in *. destruct T as (-> & T2). cbn [obind bind].
  exists s1. set (k := Z.land (nb - 1) 7). assert (K : k = (nb - 1) mod 8) by (unfold k; change 7 with (Z.ones 3); rewrite Z.land_ones by lia; reflexivity). pose proof (Z.mod_pos_bound (nb - 1) 8 ltac:(lia)).
  assert (NK : nb - 1 = 8 * (L - 1) + k).
  { pose proof (Z.div_mod (nb - 1) 8 ltac:(lia)). enough ((nb - 1) / 8 = L - 1) by lia. unfold L. replace (nb + 7) with (nb - 1 + 1 * 8) by ring. rewrite Z.div_add by lia. lia. }
  assert (Lp : 1 <= L) by lia.
  (* the buffer after the first change *)
  assert (S1 : exists b2, (if odd then change_byte b 0 (fun b => Z.lor b 1) else Ret b) = Ret b2 /\ bytes_ok b2 /\ zlen b2 = L /\ (odd = true -> Z.odd (nthZ b2 0) = true)).
  { destruct odd; [|exists b; splits; [reflexivity|exact B|exact T2|discriminate]]. destruct b as [|c b']; [change (zlen (@nil Z)) with 0 in T2; lia|]. pose proof (Forall_inv B) as Bc. pose proof (Forall_inv_tail B) as Bt. destruct (odd_one c Bc) as (O1 & O2).
    exists (Z.lor c 1 :: b'). splits; [|constructor; assumption|rewrite zlen_cons in *; exact T2|intros _; exact O2]. apply (change_byte_mid [] c b' 0); [reflexivity|exact O1]. }
  destruct S1 as (b2 & -> & B2 & L2' & O2). cbn [bind].
  destruct (exists_last (l := b2)) as (a & x & ->); [intros ->; change (zlen (@nil Z)) with 0 in L2'; lia|]. apply bytes_ok_app in B2. destruct B2 as (Ba & Bx). apply Forall_inv in Bx. rewrite zlen_app in L2'. change (zlen [x]) with 1 in L2'.
  destruct (top_byte k x ltac:(lia) Bx) as (X1 & X2). set (y := Z.lor (Z.land x (Z.shiftl 1 k - 1)) (Z.shiftl 1 k)) in *.
  rewrite (change_byte_mid a x [] (L - 1)); [|lia|fold y; clearbody y; clear - X1 K H; rewrite <- K in H; unfold byte_ok; assert (2 ^ (k + 1) <= 2 ^ 8) by (apply Z.pow_le_mono_r; lia); pose proof (Z.pow_pos_nonneg 2 k); lia]. fold y. cbn [bind].
  assert (V : 2 ^ (nb - 1) <= le (a ++ [y]) < 2 ^ nb).
  { rewrite le_app. change (le [y]) with (y + 256 * 0). pose proof (le_bound a Ba) as Bd. replace (zlen a) with (L - 1) in * by lia. replace (y + 256 * 0) with y by ring. replace nb with (nb - 1 + 1) at 2 by ring. rewrite NK.
    replace (8 * (L - 1) + k + 1) with (8 * (L - 1) + (k + 1)) by ring. rewrite !Z.pow_add_r by lia. rewrite (Z.pow_mul_r 2 8) by lia. change (2 ^ 8) with 256. set (P := 256 ^ (L - 1)) in *. assert (HP : 0 < P) by (apply Z.pow_pos_nonneg; lia).
    clearbody y P. rewrite (Z.pow_add_r 2 k 1) in X1 by lia. change (2 ^ 1) with 2 in *. set (A := 2 ^ k) in *. clearbody A. clear - HP X1 Bd. nia. }
  assert (V0 : 0 <= le (a ++ [y])) by (pose proof (Z.pow_pos_nonneg 2 (nb - 1)); lia).
  replace (z_numbits (le (a ++ [y])) =? nb) with true by (symmetry; apply Z.eqb_eq, numbits_eq; assumption). cbn [negb].
  assert (O : odd && Z.even (le (a ++ [y])) = false).
  { destruct odd; [|reflexivity]. cbn [andb]. specialize (O2 eq_refl). rewrite <- Z.negb_odd. destruct a as [|c a]; cbn [app] in *; rewrite odd_le.
    - unfold nthZ in O2. cbn in O2. destruct X2 as [X2|X2]; [|rewrite X2, O2; reflexivity]. assert (Y : y = 1) by (rewrite X2 in X1; change (2 ^ 0) with 1 in X1; change (2 ^ (0 + 1)) with 2 in X1; lia). rewrite Y. reflexivity.
    - unfold nthZ in O2. cbn in O2. rewrite O2. reflexivity. }
  rewrite O. eexists. reflexivity.
Qed.
