(* DH.derive_key; Paillier key generation *)
From Coq Require Import Zpow_facts Znumtheory.
From Verif Require Import Prelude PreludeFacts BytesNum NumTheory HashModel HashSpec SpecHash ShaModel Sha HashSize RngModel BnModel Bn PkModel SpecPk Pk PkGen Pk2.

(* ---- decimal numbers ---- *)
Definition dval (l : bytes) : Z := fold_left (fun a c => 10 * a + (c - 48)) l 0.
Definition digit (c : Z) : Prop := 48 <= c <= 57.
Lemma dval_snoc l c : dval (l ++ [c]) = 10 * dval l + (c - 48).
Proof. unfold dval. rewrite fold_left_app. reflexivity. Qed.
Lemma dval_nonneg l : Forall digit l -> 0 <= dval l.
Proof. induction l as [|c l IH] using rev_ind; intros H; [reflexivity|]. apply Forall_app in H. destruct H as (H1 & H2). apply Forall_inv in H2. unfold digit in H2. rewrite dval_snoc. specialize (IH H1). lia. Qed.
Lemma hd_snoc (l : bytes) c : l <> [] -> hd 0 (l ++ [c]) = hd 0 l. Proof. destruct l; [congruence|reflexivity]. Qed.
Lemma dval_pos l : Forall digit l -> l <> [] -> hd 0 l <> 48 -> 0 < dval l.
Proof.
  induction l as [|c l IH] using rev_ind; intros H N D; [congruence|]. apply Forall_app in H. destruct H as (H1 & H2). apply Forall_inv in H2. unfold digit in H2. rewrite dval_snoc. destruct l as [|d l']; [cbn in D; cbn; lia|].
  rewrite hd_snoc in D by discriminate. specialize (IH H1 ltac:(discriminate) D). lia.
Qed.
Lemma decimal_unique l : forall l' n, is_decimal l n -> is_decimal l' n -> l = l'.
Proof.
  induction l as [|c l IH] using rev_ind; intros l' n (H1 & H2 & H3) (H1' & H2' & H3').
  - destruct l' as [|d l'']; [reflexivity|]. exfalso. pose proof (dval_pos (d :: l'') H1' ltac:(discriminate) H3'). fold (dval (d :: l'')) in H2'. fold (dval []) in H2. change (dval []) with 0 in H2. lia.
  - destruct (exists_last (l := l')) as (a & d & ->).
    { intros ->. fold (dval (l ++ [c])) in H2. cbn in H2'. pose proof (dval_pos (l ++ [c]) H1 ltac:(destruct l; discriminate) H3). lia. }
    fold (dval (l ++ [c])) in H2. fold (dval (a ++ [d])) in H2'. rewrite dval_snoc in H2, H2'. apply Forall_app in H1, H1'. destruct H1 as (H1 & Hc), H1' as (H1' & Hd). apply Forall_inv in Hc, Hd. cbv beta in Hc, Hd.
    assert (E : dval l = dval a /\ c = d) by lia. destruct E as (E & ->). f_equal. apply (IH a (dval l)).
    + split; [exact H1|]. split; [reflexivity|]. destruct l; [cbn; discriminate|]. exact H3.
    + split; [exact H1'|]. split; [symmetry; exact E|]. destruct a; [cbn; discriminate|]. exact H3'.
Qed.
Lemma decimal_ok fuel : forall n, 0 < n < 10 ^ Z.of_nat fuel -> is_decimal (decimal fuel n) n /\ bytes_ok (decimal fuel n) /\ zlen (decimal fuel n) <= Z.of_nat fuel.
Proof.
  induction fuel as [|f IH]; intros n H; [change (10 ^ Z.of_nat 0) with 1 in H; lia|]. rewrite Nat2Z.inj_succ, Z.pow_succ_r in H by lia. cbn [decimal]. pose proof (Z.mod_pos_bound n 10 ltac:(lia)) as M. pose proof (Z.div_mod n 10 ltac:(lia)) as DM. destruct (Z.ltb_spec n 10) as [L|L].
  - rewrite Z.mod_small in * by lia. cbn [app]. splits.
    + split; [constructor; [lia|constructor]|]. split; [cbn [fold_left]; lia|cbn [hd]; lia].
    + constructor; [unfold byte_ok; lia|constructor].
    + change (zlen [48 + n]) with 1. lia.
  - assert (Q : 0 < n / 10 < 10 ^ Z.of_nat f) by (split; [apply Z.div_str_pos; lia|apply Z.div_lt_upper_bound; lia]). destruct (IH _ Q) as ((D1 & D2 & D3) & B & Ln). splits.
    + split; [apply Forall_app; split; [exact D1|constructor; [lia|constructor]]|]. fold (dval (decimal f (n / 10))) in D2. split; [fold (dval (decimal f (n / 10) ++ [48 + n mod 10])); rewrite dval_snoc, D2; lia|].
      destruct (decimal f (n / 10)) as [|d l] eqn:E; [cbn in D2; lia|exact D3].
    + apply bytes_ok_app. split; [exact B|]. constructor; [unfold byte_ok; lia|constructor].
    + rewrite zlen_app. change (zlen [48 + n mod 10]) with 1. lia.
Qed.
Lemma string_of_int_ok n : 0 < n < 10 ^ 20 -> is_decimal (string_of_int n) n /\ bytes_ok (string_of_int n) /\ zlen (string_of_int n) <= 20.
Proof. apply (decimal_ok 20). Qed.

(* ---- derive_key ---- *)
Lemma hash_string_ok o d s : computes o d -> bytes_ok s -> zlen s <= max_string_length -> obj_hash_string o s = Ret (d s).
Proof.
  intros C B L. destruct (C [HString s]) as (R1 & R2 & R3); [constructor; [split; assumption|constructor]|exact I|]. unfold added in *. cbn [map hop_bytes concat] in *. rewrite app_nil_r in *. cbn [h_run h_step] in *.
  unfold obj_hash_string, hash_string. destruct (h_add_string (ho_class o) (ho_st o) s) as (h1 & [[]|e| |]); cbn [bind snd fst] in *; try discriminate R1. destruct (h_result (ho_class o) h1) as (h2 & r). cbn [fst snd] in *. subst r. cbn [bind]. destruct (h_wipe (ho_class o) h2) as (h3 & r3). cbn [fst snd] in *. subst r3. reflexivity.
Qed.
Section Derive.
Variables (o : hobj) (D : bytes -> bytes) (dv secret : bytes) (nb : Z).
Hypothesis CO : computes o D.
Hypothesis SZ : forall m, zlen (D m) = 32.
Hypothesis B1 : bytes_ok dv.
Hypothesis B2 : bytes_ok secret.
Hypothesis LN : zlen dv + zlen secret + 20 <= max_string_length.
Hypothesis NB : 0 <= nb <= max_string_length.
Definition blk (i : Z) : bytes := D (dv ++ secret ++ string_of_int i).
Fixpoint blks (k : nat) (i : Z) : bytes := match k with O => [] | S k => blk i ++ blks k (i + 1) end.
Lemma zlen_blks k : forall i, zlen (blks k i) = 32 * Z.of_nat k.
Proof. induction k as [|k IH]; intros i; [reflexivity|]. cbn [blks]. rewrite zlen_app, IH. unfold blk. rewrite SZ. lia. Qed.
Lemma derive_ok fuel : forall K result pos i, zlen result = nb -> 0 <= pos -> nb - pos <= 32 * Z.of_nat K -> 0 < i -> i + nb - pos < 10 ^ 20 -> (Z.to_nat (nb - pos) < fuel)%nat ->
  derive o fuel result dv secret nb pos i = Ret (sub result 0 (Z.min pos nb) ++ sub (blks K i) 0 (Z.max 0 (nb - pos))).
Proof.
  induction fuel as [|f IH]; intros K result pos i L P H I1 I2 Fu; [lia|]. cbn [derive]. destruct (Z.ltb_spec pos nb) as [Lt|Lt].
  - destruct K as [|K]; [lia|]. destruct (string_of_int_ok i ltac:(lia)) as (_ & Bi & Li). rewrite (hash_string_ok o D); [|exact CO|rewrite !bytes_ok_app; splits; assumption|rewrite !zlen_app; lia]. cbn [obind]. fold (blk i). assert (Zb : zlen (blk i) = 32) by apply SZ. rewrite Zb.
    set (len := Z.min 32 (nb - pos)). assert (Ln : 0 < len <= 32) by lia. rewrite blit_ok by lia. cbn [obind]. set (x := sub (blk i) 0 len). assert (Zx : zlen x = len) by (unfold x; apply zlen_sub; lia).
    rewrite (IH K); [|rewrite zlen_splice; lia|lia|lia|lia|lia|lia]. f_equal. cbn [blks]. replace (Z.min pos nb) with pos by lia. replace (Z.max 0 (nb - pos)) with (nb - pos) by lia.
    destruct (Z.le_gt_cases (nb - pos) 32) as [C|C].
    + assert (len = nb - pos) by lia. replace (Z.min (pos + 32) nb) with nb by lia. replace (Z.max 0 (nb - (pos + 32))) with 0 by lia. rewrite sub_0_len, app_nil_r. rewrite sub_0_all by (rewrite zlen_splice; lia). rewrite sub_app_l by lia.
      unfold x. rewrite H0. unfold splice, sub. rewrite (skipn_all2 result) by (rewrite firstn_length, skipn_length; unfold zlen in *; lia). rewrite app_nil_r. cbn [skipn Z.to_nat]. reflexivity.
    + assert (E : len = 32) by lia. assert (Ex : x = blk i) by (unfold x; apply sub_0_all; lia). rewrite Ex. replace (Z.min (pos + 32) nb) with (pos + 32) by lia. replace (Z.max 0 (nb - (pos + 32))) with (nb - pos - 32) by lia.
      assert (E1 : sub (splice result pos (blk i)) 0 (pos + 32) = sub result 0 pos ++ blk i).
      { unfold splice. rewrite app_assoc. unfold sub. cbn [skipn Z.to_nat]. rewrite firstn_app. assert (Q : length (firstn (Z.to_nat pos) result ++ blk i) = Z.to_nat (pos + 32)) by (rewrite app_length, firstn_length; unfold zlen in *; lia).
        rewrite Q, Nat.sub_diag, firstn_O, app_nil_r. apply firstn_all2. lia. }
      rewrite E1, <- app_assoc. f_equal. unfold sub. cbn [skipn Z.to_nat]. rewrite firstn_app. rewrite (firstn_all2 (blk i)) by (unfold zlen in *; lia). f_equal. f_equal. unfold zlen in *. lia.
  - replace (Z.min pos nb) with nb by lia. replace (Z.max 0 (nb - pos)) with 0 by lia. rewrite sub_0_len, app_nil_r, sub_0_all by lia. reflexivity.
Qed.
End Derive.
Lemma blks_map D dv secret (dec : Z -> bytes) : (forall i, 0 < i -> is_decimal (dec i) i) -> forall K j, Z.of_nat (j + K) < 10 ^ 20 -> (0 < j)%nat ->
  blks D dv secret K (Z.of_nat j) = concat (map (fun i => D (dv ++ secret ++ dec (Z.of_nat i))) (seq j K)).
Proof.
  intros Hd. induction K as [|K IH]; intros j B J; [reflexivity|]. cbn [blks seq map concat]. replace (Z.of_nat j + 1) with (Z.of_nat (S j)) by lia. rewrite IH by lia. f_equal. unfold blk.
  destruct (string_of_int_ok (Z.of_nat j) ltac:(lia)) as (A & _). rewrite (decimal_unique _ _ _ A (Hd (Z.of_nat j) ltac:(lia))). reflexivity.
Qed.
Lemma derive_key_ok fresh dv secret nb (dec : Z -> bytes) K : (forall n, 0 <= n -> zlen (fresh n) = n) -> (forall i, 0 < i -> is_decimal (dec i) i) -> bytes_ok dv -> bytes_ok secret -> zlen dv + zlen secret + 20 <= max_string_length ->
  0 <= nb <= max_string_length -> nb <= 32 * Z.of_nat K -> Z.of_nat K < 2 ^ 62 ->
  dh_derive_key fresh dv secret nb = Ret (firstn (Z.to_nat nb) (concat (map (fun i => sha256 (dv ++ secret ++ dec (Z.of_nat i))) (seq 1 K)))).
Proof.
  intros F Hd Bd Bs L N H Kb. unfold dh_derive_key. replace ((nb <? 0) || (nb >? max_string_length)) with false by lia. assert (T : 1 + nb - 0 < 10 ^ 20) by (unfold max_string_length in N; change (2 ^ 57 - 9) with 144115188075855863 in N; change (10 ^ 20) with 100000000000000000000; lia).
  rewrite (derive_ok (sha256_obj fresh) sha256 dv secret nb (sha256_computes fresh F) sha256_size Bd Bs L _ K); [|apply F; lia|lia|lia|lia|exact T|lia].
  f_equal. replace (Z.min 0 nb) with 0 by lia. rewrite sub_0_len. cbn [app]. replace (Z.max 0 (nb - 0)) with nb by lia. change 1 with (Z.of_nat 1). rewrite (blks_map sha256 dv secret dec Hd K 1); [reflexivity| |lia]. change (10 ^ 20) with 100000000000000000000. change (2 ^ 62) with 4611686018427387904 in Kb. lia.
Qed.

(* ---- Paillier keys ---- *)
Section PaiGen.
Variables (fresh : Z -> bytes) (R : rng) (np : Z -> Z).
Hypothesis F : fresh_ok fresh.
Hypothesis RB : rng_bytes R.
Hypothesis NP : forall n, 0 <= n -> prime (np n).
Lemma pai_gen_factors_inv fuel : forall s nb s' pq, pai_gen_factors fresh R np fuel s nb = (s', Ret pq) ->
  good_prime nb (fst pq) /\ good_prime nb (snd pq) /\ fst pq <> snd pq /\ Z.gcd (fst pq * snd pq) ((fst pq - 1) * (snd pq - 1)) = 1.
Proof.
  induction fuel as [|f IH]; intros s nb s' pq E; [discriminate E|]. cbn [pai_gen_factors] in E. apply bind_ret in E. destruct E as (s1 & q & E1 & E). apply bind_ret in E. destruct E as (s2 & p & E2 & E).
  pose proof (random_prime_inv fresh R np F RB NP _ _ _ _ _ E1) as Q. pose proof (random_prime_inv fresh R np F RB NP _ _ _ _ _ E2) as P. destruct (Z.eqb_spec p q) as [N|N]; [eapply IH; exact E|]. unfold bn_relative_prime in E.
  destruct (Z.eqb_spec (Z.gcd (p * q) ((p - 1) * (q - 1))) 1) as [G|G]; [|eapply IH; exact E]. injection E as _ <-. cbn [fst snd]. tauto.
Qed.
Lemma lambda_coprime p q : 2 < p -> 2 < q -> Z.gcd (p * q) ((p - 1) * (q - 1)) = 1 -> Z.gcd (Z.lcm (p - 1) (q - 1)) (p * q) = 1.
Proof.
  intros P Q G. apply Zgcd_1_rel_prime. apply Zgcd_1_rel_prime in G. apply rel_prime_sym. assert (D : (Z.lcm (p - 1) (q - 1) | (p - 1) * (q - 1))) by (apply Z.lcm_least; [apply Z.divide_factor_l|apply Z.divide_factor_r]).
  apply rel_prime_sym in G. apply rel_prime_sym. eapply rel_prime_div; [exact G|exact D].
Qed.
(* strings made by to_bytes without a width *)
Lemma none_str n b : 0 <= n -> z_numbits n <= 2 ^ 52 -> bn_to_bytes None n = Ret b -> be b = n /\ str_ok b /\ (8 | zlen b).
Proof.
  intros N Bd E. assert (L : z_limbs n <= 70368744177664) by (unfold z_limbs; apply Z.lt_succ_r, Z.div_lt_upper_bound; [lia|]; change (2 ^ 52) with 4503599627370496 in Bd; lia). pose proof (limbs_nonneg n) as L0.
  rewrite to_bytes_none in E; [|exact N|unfold max_string_length; change (2 ^ 57 - 9) with 144115188075855863; lia]. assert (E' : b = to_be (Z.to_nat (8 * z_limbs n)) n) by congruence. clear E. subst b. splits.
  - apply be_none. exact N.
  - split; [apply bytes_ok_to_be|]. rewrite zlen_to_be. change (2 ^ 56) with 72057594037927936. lia.
  - rewrite zlen_to_be. exists (z_limbs n). lia.
Qed.
Lemma pai_new_key_inv fuel s numbits s' k : numbits <= 2 ^ 50 -> pai_new_key fresh R np fuel s numbits = (s', Ret k) ->
  pai_key (fst k) (snd k) /\ pp_size (snd k) = numbits /\ 2 ^ (numbits - 2) <= be (pp_n (snd k)) < 2 ^ numbits /\ 32 <= numbits /\ aligned (numbits / 2).
Proof.
  intros NS E. unfold pai_new_key in E. destruct (Z.ltb_spec numbits 32) as [N|N]; [discriminate E|]. destruct (Z.gtb_spec (Z.land numbits 1) 0) as [O|O]; cbn [orb] in E; [discriminate E|]. pose proof (even_half numbits ltac:(lia) ltac:(lia)) as H2.
  set (nb := Z.quot numbits 2) in *. apply bind_ret in E. destruct E as (s1 & (p & q) & E1 & E). apply pai_gen_factors_inv in E1. cbn [fst snd] in *. destruct E1 as (Gp & Gq & Ne & G). injection E as _ E.
  pose proof (big_prime nb p Gp ltac:(lia)) as Pb. pose proof (big_prime nb q Gq ltac:(lia)) as Qb. change (2 ^ 15) with 32768 in *. pose proof (prod_bits nb p q Gp Gq) as PQ. rewrite <- H2 in PQ. assert (PQ0 : 9 < p * q) by (clear - Pb Qb; nia).
  pose proof (lambda_coprime p q ltac:(lia) ltac:(lia) G) as LC. destruct (invert_ok (Z.lcm (p - 1) (q - 1)) (p * q) ltac:(lia) LC) as (mu & I1 & I2 & I3). rewrite I1 in E. cbn [obind] in E. pose proof (lcm_pos p q ltac:(lia) ltac:(lia)) as L0.
  assert (LB : Z.lcm (p - 1) (q - 1) < p * q).
  { assert (D : (Z.lcm (p - 1) (q - 1) | (p - 1) * (q - 1))) by (apply Z.lcm_least; [apply Z.divide_factor_l|apply Z.divide_factor_r]). apply Z.divide_pos_le in D; [|clear - Pb Qb; nia]. clear - D Pb Qb. nia. }
  apply obind_ret in E. destruct E as (b1 & T1 & E). apply obind_ret in E. destruct E as (b2 & T2 & E). apply obind_ret in E. destruct E as (b3 & T3 & E). apply obind_ret in E. destruct E as (b4 & T4 & E).
  apply obind_ret in E. destruct E as (b5 & T5 & E). apply obind_ret in E. destruct E as (b6 & T6 & E). apply obind_ret in E. destruct E as (b7 & T7 & E). injection E as <-.
  assert (Hb : forall x, 0 <= x <= p * q * (p * q) -> z_numbits x <= 2 ^ 52).
  { intros x X. apply Z.le_trans with (numbits + numbits); [|change (2 ^ 52) with (4 * 2 ^ 50); lia]. apply numbits_le; [lia|lia|]. rewrite Z.pow_add_r by lia. clear - PQ PQ0 X. nia. }
  assert (Hb1 : forall x, 0 <= x <= p * q + 1 -> z_numbits x <= 2 ^ 52) by (intros x X; apply Hb; clear - X PQ0; nia).
  apply to_bytes_inv in T1; [|lia|lia]. apply to_bytes_inv in T3; [|lia|lia]. apply none_str in T5; [|lia|apply Hb1; lia]. apply none_str in T6; [|lia|apply Hb1; lia]. apply none_str in T7; [|lia|apply Hb1; lia].
  destruct T1 as (SK & _ & T1e & T1 & _), T3 as (_ & _ & _ & _ & T3'), T5 as (T5 & _), T6 as (T6 & _), T7 as (T7 & _).
  assert (T2' : be b2 = p * q * (p * q) /\ str_ok b2 /\ (8 | zlen b2)).
  { assert (0 <= p * q * (p * q)) by (apply Z.mul_nonneg_nonneg; lia). apply none_str; [assumption| |exact T2]. apply Hb. split; [assumption|apply Z.le_refl]. }
  destruct T2' as (T2e & T2s & T2a). assert (S1 : str_ok b1).
  { rewrite T1e. split; [apply bytes_ok_to_be|]. rewrite zlen_to_be. unfold width. rewrite Z2Nat.id by (apply bytes_for; lia). destruct (bytes_for numbits ltac:(lia)) as (_ & X). change (2 ^ 50) with 1125899906842624 in NS. change (2 ^ 56) with 72057594037927936. lia. }
  cbn [fst snd pp_size pp_n pp_n2]. splits; try assumption; try lia.
  - split; [|cbn [pk_n pp_n pp_n2]; tauto]. exists p, q. cbn zeta. cbn [pk_n pk_n2 pk_lambda pk_mu pp_n pp_n2 pp_g]. rewrite T1, T2e, T5, T6, T7. splits; try reflexivity; try lia; try apply Gp; try apply Gq; [apply Zgcd_1_rel_prime; exact G|]. exact I3.
  - replace (numbits / 2) with nb by (unfold nb; apply Z.quot_div_nonneg; lia). eapply limbs_aligned; [|apply Gp|exact T3']. lia.
Qed.
End PaiGen.
