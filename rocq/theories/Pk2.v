(* Paillier and Diffie-Hellman *)
From Coq Require Import Zpow_facts Znumtheory.
From Verif Require Import Prelude PreludeFacts BytesNum NumTheory RngModel BnModel Bn PkModel SpecPk Pk PkGen.

(* ---- mod_power and mod_mult on strings ---- *)
Lemma str_size s : str_ok s -> size_ok (zlen s * 8) /\ (zlen s * 8 + 7) / 8 = zlen s /\ width (zlen s * 8) = length s /\ 0 <= be s < 2 ^ (zlen s * 8).
Proof.
  intros (B & L). pose proof (zlen_nonneg s). assert (E : (zlen s * 8 + 7) / 8 = zlen s) by (rewrite Z.add_comm, Z.div_add by lia; reflexivity). splits.
  - unfold size_ok. rewrite E. split; [lia|]. eapply Z.le_trans; [exact L|]. vm_compute. discriminate.
  - exact E.
  - unfold width. rewrite E. unfold zlen. apply Nat2Z.id.
  - apply be_bound. exact B.
  - rewrite Z.mul_comm, Z.pow_mul_r by lia. apply be_bound. exact B.
Qed.
Lemma str_aligned s : str_ok s -> (8 | zlen s) <-> aligned (zlen s * 8).
Proof. intros H. destruct (str_size s H) as (_ & E & _). unfold aligned. rewrite E. tauto. Qed.
Lemma mod_power_ok a b c : str_ok c -> (8 | zlen c) -> 0 < be b -> Z.odd (be c) = true -> 0 < be c -> mod_power a b c = Ret (to_be (length c) ((be a) ^ (be b) mod be c)).
Proof.
  intros C A B O P. unfold mod_power. change bn_of_bytes with be. unfold bn_mod_power. rewrite powm_ok by assumption. cbn [obind]. destruct (str_size c C) as (S & E & W & Bd). rewrite encode_aligned; [rewrite W; reflexivity|apply str_aligned; assumption|exact S|].
  pose proof (Z.mod_pos_bound (be a ^ be b) (be c) P). lia.
Qed.
Lemma mod_mult_ok a b c : str_ok c -> (8 | zlen c) -> 0 <= be a -> 0 <= be b -> 0 < be c -> mod_mult a b c = Ret (to_be (length c) (be a * be b mod be c)).
Proof.
  intros C A Ba Bb P. unfold mod_mult. change bn_of_bytes with be. rewrite rem_ok; [|apply Z.mul_nonneg_nonneg; assumption|exact P]. cbn [obind]. destruct (str_size c C) as (S & E & W & Bd). rewrite encode_aligned; [rewrite W; reflexivity|apply str_aligned; assumption|exact S|].
  pose proof (Z.mod_pos_bound (be a * be b) (be c) P). lia.
Qed.
Lemma be_len c x : bytes_ok c -> 0 <= x < be c -> be (to_be (length c) x) = x.
Proof. intros B H. apply be_small. pose proof (be_bound c B). unfold zlen in *. lia. Qed.

(* ---- Paillier ---- *)
Definition pai_params (p q : Z) : Prop := prime p /\ prime q /\ p <> q /\ 2 < p /\ 2 < q /\ rel_prime (p * q) ((p - 1) * (q - 1)).
(* the number c encrypts m *)
Definition encrypts (n m c : Z) : Prop := 0 <= c < n * n /\ exists r, rel_prime r n /\ cong (n * n) c ((n + 1) ^ m * r ^ n).
Lemma lambda_one p q r : pai_params p q -> rel_prime r (p * q) -> cong (p * q) (r ^ Z.lcm (p - 1) (q - 1)) 1.
Proof.
  intros (P & Q & N & P2 & Q2 & _) R. assert (L0 : 0 <= Z.lcm (p - 1) (q - 1)) by apply Z.lcm_nonneg.
  assert (Rp : ~ (p | r)) by (intros D; destruct R as [_ _ R]; specialize (R p D (Z.divide_factor_l p q)); apply Z.divide_1_r in R; lia).
  assert (Rq : ~ (q | r)) by (intros D; destruct R as [_ _ R]; specialize (R q D (Z.divide_factor_r q p)); apply Z.divide_1_r in R; lia).
  apply crt_cong; [apply primes_coprime; assumption| |]; apply fermat_multiple; try assumption; [apply Z.divide_lcm_l|apply Z.divide_lcm_r].
Qed.
Lemma lcm_pos p q : 2 < p -> 2 < q -> 0 < Z.lcm (p - 1) (q - 1).
Proof. intros P Q. pose proof (Z.lcm_nonneg (p - 1) (q - 1)). destruct (Z.eq_dec (Z.lcm (p - 1) (q - 1)) 0) as [E|E]; [|lia]. apply Z.lcm_eq_0 in E. lia. Qed.
Lemma cipher_power p q m c : let n := p * q in pai_params p q -> 0 <= m -> encrypts n m c -> cong (n * n) (c ^ Z.lcm (p - 1) (q - 1)) (1 + m * Z.lcm (p - 1) (q - 1) * n).
Proof.
  intros n H M (_ & r & R & C). pose proof H as (P & Q & _ & P2 & Q2 & _). set (l := Z.lcm (p - 1) (q - 1)). assert (L0 : 0 < l) by (apply lcm_pos; assumption). assert (N0 : 0 < n) by (apply Z.mul_pos_pos; lia).
  apply cong_trans with (((n + 1) ^ m * r ^ n) ^ l); [apply cong_pow; exact C|]. rewrite Z.pow_mul_l, <- !Z.pow_mul_r by lia.
  assert (A : cong (n * n) ((n + 1) ^ (m * l)) (1 + m * l * n)).
  { pose proof (one_plus_pow n 1 (m * l) ltac:(apply Z.mul_nonneg_nonneg; lia)) as O. replace (1 + 1 * n) with (n + 1) in O by ring. replace (1 + m * l * 1 * n) with (1 + m * l * n) in O by ring. exact O. }
  assert (B : cong (n * n) (r ^ (n * l)) 1).
  { pose proof (lambda_one p q r H R) as (x & X). fold n l in X. rewrite (Z.mul_comm n l), Z.pow_mul_r by lia. replace (r ^ l) with (1 + x * n) by lia.
    apply cong_trans with (1 + n * x * n); [apply one_plus_pow; lia|]. exists x. ring. }
  apply cong_trans with ((1 + m * l * n) * 1); [apply cong_mul; assumption|]. rewrite Z.mul_1_r. apply cong_refl.
Qed.
Lemma limbs_str s n : str_ok s -> 0 <= n <= be s -> 8 * z_limbs n <= max_string_length.
Proof.
  intros H N. destruct (str_size s H) as (_ & _ & _ & B). destruct H as (_ & L). pose proof (zlen_nonneg s). assert (X : z_numbits n <= zlen s * 8) by (apply numbits_le; lia). unfold z_limbs.
  pose proof (Z.div_mod (z_numbits n + 63) 64 ltac:(lia)). pose proof (Z.mod_pos_bound (z_numbits n + 63) 64 ltac:(lia)). unfold max_string_length. change (2 ^ 56) with 72057594037927936 in L. change (2 ^ 57 - 9) with 144115188075855863. lia.
Qed.
Lemma pai_decrypt_num p q sk pk m c : pai_params p q -> be (pk_n sk) = p * q -> be (pk_n2 sk) = (p * q) * (p * q) -> be (pk_lambda sk) = Z.lcm (p - 1) (q - 1) -> 0 <= be (pk_mu sk) -> (p * q | be (pk_lambda sk) * be (pk_mu sk) - 1) ->
  str_ok (pk_n sk) -> 0 <= m -> encrypts (p * q) m (be c) -> be (pp_n pk) = p * q -> exists x, pai_decrypt sk c = Ret x /\ be x = m mod (p * q).
Proof.
  intros H E1 E2 E3 Mu0 Mu St M C _. pose proof H as (P & Q & _ & P2 & Q2 & _). set (n := p * q) in *. assert (N9 : 9 <= n) by (unfold n; clear - P2 Q2; nia). pose proof (cipher_power p q m (be c) H M C) as CP. cbn zeta in CP. fold n in CP. rewrite <- E3 in CP.
  assert (L0 : 0 < be (pk_lambda sk)) by (rewrite E3; apply lcm_pos; assumption). set (l := be (pk_lambda sk)) in *. set (t := (m * l) mod n). assert (T : 0 <= t < n) by (apply Z.mod_pos_bound; lia).
  assert (CN : be c ^ l mod (n * n) = 1 + t * n).
  { assert (NN : 0 < n * n) by (apply Z.mul_pos_pos; lia). apply (cong_small (n * n)); [apply Z.mod_pos_bound; exact NN|clear - T N9; nia|]. apply cong_trans with (be c ^ l); [apply cong_rem; lia|]. apply cong_trans with (1 + m * l * n); [exact CP|].
    assert (Hc : cong n (m * l) t) by (apply cong_sym, cong_rem; lia). destruct Hc as (j & J). exists j. replace (1 + m * l * n - (1 + t * n)) with ((m * l - t) * n) by ring. rewrite J. ring. }
  unfold pai_decrypt. change bn_of_bytes with be. cbn zeta. unfold bn_mod_power. rewrite E1, E2. fold n. rewrite powm_ok; [|exact L0|unfold n; rewrite Z.odd_mul, odd_pq by assumption; reflexivity|apply Z.mul_pos_pos; lia].
  fold l. cbn [obind]. rewrite CN. replace (1 + t * n - 1) with (t * n) by ring. rewrite div_ok; [|apply Z.mul_nonneg_nonneg; lia|lia]. cbn [obind]. rewrite Z.div_mul by lia. rewrite rem_ok; [|apply Z.mul_nonneg_nonneg; [lia|exact Mu0]|lia]. cbn [obind].
  assert (V : (t * be (pk_mu sk)) mod n = m mod n).
  { apply cong_mod; [lia|]. apply cong_trans with (m * l * be (pk_mu sk)); [apply cong_mul; [apply cong_rem; lia|apply cong_refl]|]. apply cong_trans with (m * 1); [rewrite <- Z.mul_assoc; apply cong_mul; [apply cong_refl|exact Mu]|]. rewrite Z.mul_1_r. apply cong_refl. }
  rewrite V. pose proof (Z.mod_pos_bound m n ltac:(lia)) as Bm. eexists. split; [apply to_bytes_none; [lia|]|apply be_none; lia]. apply (limbs_str (pk_n sk)); [exact St|]. rewrite E1. fold n. lia.
Qed.
(* keys *)
Lemma pai_decrypt_ok sk pk m c : pai_key sk pk -> 0 <= m -> encrypts (be (pp_n pk)) m (be c) -> exists x, pai_decrypt sk c = Ret x /\ be x = m mod be (pp_n pk).
Proof.
  intros ((p & q & P & Q & N & P2 & Q2 & RP & E1 & E2 & E3 & E4 & E5 & E6 & E7 & E8) & St & _) M C. rewrite E1 in *. eapply pai_decrypt_num; try eassumption. unfold pai_params. tauto.
Qed.
Section Enc.
Variables (fresh : Z -> bytes) (R : rng).
Hypothesis F : fresh_ok fresh.
Hypothesis RB : rng_bytes R.
Lemma get_r_inv fuel : forall s pk s' b, str_ok (pp_n pk) -> pai_get_r fresh R fuel s pk = (s', Ret b) -> exists r, 0 < r < be (pp_n pk) /\ Z.gcd r (be (pp_n pk)) = 1 /\ be b = r.
Proof.
  induction fuel as [|f IH]; intros s pk s' b St E; [discriminate E|]. cbn [pai_get_r] in E. apply bind_ret in E. destruct E as (s1 & r & E1 & E). apply bn_random_inv in E1; [|exact F|exact RB]. destruct E1 as (N & B & _). change bn_of_bytes with be in E. unfold bn_relative_prime in E.
  destruct (Z.eqb_spec (Z.gcd r (be (pp_n pk))) 1) as [G|G]; [|eapply IH; [exact St|exact E]]. destruct (Z.ltb_spec r (be (pp_n pk))) as [L|L]; [|eapply IH; [exact St|exact E]]. cbn [andb] in E.
  assert (R0 : 0 < r) by (pose proof (Z.pow_pos_nonneg 2 (pp_size pk - 1 - 1)); lia). rewrite to_bytes_none in E; [|lia|apply (limbs_str (pp_n pk)); [exact St|lia]]. injection E as _ <-. exists r. splits; try lia; apply be_none; lia.
Qed.
Lemma encrypt_num pk msg rb r : let n := be (pp_n pk) in 1 < n -> Z.odd n = true -> be (pp_n2 pk) = n * n -> be (pp_g pk) = n + 1 -> str_ok (pp_n2 pk) -> (8 | zlen (pp_n2 pk)) -> 0 < be msg -> be rb = r -> Z.gcd r n = 1 ->
  exists c, (olet gm := mod_power (pp_g pk) msg (pp_n2 pk) in olet rn := mod_power rb (pp_n pk) (pp_n2 pk) in mod_mult gm rn (pp_n2 pk)) = Ret c /\ encrypts n (be msg) (be c) /\ length c = length (pp_n2 pk).
Proof.
  intros n N O E2 Eg S A M Er G. assert (NN : 0 < n * n) by (apply Z.mul_pos_pos; lia). assert (O2 : Z.odd (be (pp_n2 pk)) = true) by (rewrite E2, Z.odd_mul, O; reflexivity). assert (P2 : 0 < be (pp_n2 pk)) by (rewrite E2; exact NN).
  assert (Mb : forall x, 0 <= x mod be (pp_n2 pk) < be (pp_n2 pk)) by (intros x; apply Z.mod_pos_bound; exact P2).
  rewrite mod_power_ok by assumption. cbn [obind]. rewrite mod_power_ok; [|exact S|exact A|fold n; lia|exact O2|exact P2]. cbn [obind].
  rewrite mod_mult_ok; [|exact S|exact A| | |exact P2]; rewrite ?be_len by (first [apply S|apply Mb]); try apply Mb. eexists. split; [reflexivity|]. split; [|apply length_to_be]. rewrite be_len by (first [apply S|apply Mb]).
  rewrite E2, Eg. fold n. rewrite Er. split; [apply Z.mod_pos_bound; exact NN|]. exists r. split; [apply Zgcd_1_rel_prime; exact G|]. apply cong_trans with (((n + 1) ^ be msg mod (n * n)) * (r ^ n mod (n * n))); [apply cong_rem; lia|]. apply cong_mul; apply cong_rem; lia.
Qed.
Lemma pai_key_num sk pk : pai_key sk pk -> let n := be (pp_n pk) in 1 < n /\ Z.odd n = true /\ be (pp_n2 pk) = n * n /\ be (pp_g pk) = n + 1 /\ str_ok (pp_n2 pk) /\ (8 | zlen (pp_n2 pk)).
Proof.
  intros ((p & q & P & Q & N & P2 & Q2 & RP & E1 & E2 & E3 & E4 & E5 & E6 & E7 & E8) & _ & _ & S & A) n. unfold n. rewrite E1. splits; try assumption; [clear - P2 Q2; nia|apply odd_pq; assumption].
Qed.
Lemma pai_encrypt_inv fuel s sk pk msg s' c : pai_key sk pk -> 0 < be msg -> pai_encrypt fresh R fuel s pk msg = (s', Ret c) -> encrypts (be (pp_n pk)) (be msg) (be c) /\ length c = length (pp_n2 pk).
Proof.
  intros K M E. pose proof (pai_key_num sk pk K) as (N1 & N2 & N3 & N4 & N5 & N6). unfold pai_encrypt in E. apply bind_ret in E. destruct E as (s1 & rb & E1 & E). apply get_r_inv in E1; [|apply K]. destruct E1 as (r & Rr & G & Er).
  destruct (encrypt_num pk msg rb r N1 N2 N3 N4 N5 N6 M Er G) as (c' & Ec & H1 & H2). rewrite Ec in E. injection E as _ <-. split; assumption.
Qed.
Lemma pai_encrypt_zero fuel s sk pk msg : pai_key sk pk -> be msg = 0 -> forall c, snd (pai_encrypt fresh R fuel s pk msg) <> Ret c.
Proof.
  intros K M c H. unfold pai_encrypt in H. destruct (pai_get_r fresh R fuel s pk) as (s1 & [rb|e| |]); cbn [bind snd] in H; try discriminate H. unfold mod_power at 1 in H. change bn_of_bytes with be in H. unfold bn_mod_power in H. rewrite (powm_fail _ (be msg)) in H by lia. discriminate H.
Qed.
Hypothesis RT : rng_total R.
Lemma get_r_roh fuel : forall s pk, str_ok (pp_n pk) -> 2 <= pp_size pk -> (pp_size pk - 1 + 7) / 8 <= max_string_length -> ret_or_hang R (pai_get_r fresh R fuel s pk).
Proof.
  induction fuel as [|f IH]; intros s pk St N M; [right; reflexivity|]. cbn [pai_get_r]. destruct (bn_random_ok fresh R s false (pp_size pk - 1) F RB RT ltac:(lia) M) as (s' & r & E). rewrite E. cbn [bind]. apply bn_random_inv in E; [|exact F|exact RB]. destruct E as (_ & B & _). change bn_of_bytes with be.
  destruct (bn_relative_prime r (be (pp_n pk)) && (r <? be (pp_n pk))) eqn:T; [|apply IH; assumption]. apply andb_prop in T. destruct T as (_ & T). rewrite to_bytes_none; [left; eexists; reflexivity|pose proof (Z.pow_pos_nonneg 2 (pp_size pk - 1 - 1)); lia|]. apply (limbs_str (pp_n pk)); [exact St|]. pose proof (Z.pow_pos_nonneg 2 (pp_size pk - 1 - 1)); lia.
Qed.
Lemma pai_encrypt_total fuel s sk pk msg : pai_key sk pk -> 0 < be msg -> 2 <= pp_size pk -> size_ok (pp_size pk) -> ret_or_hang R (pai_encrypt fresh R fuel s pk msg).
Proof.
  intros K M N S. pose proof (pai_key_num sk pk K) as (N1 & N2 & N3 & N4 & N5 & N6). unfold pai_encrypt. assert (X : (pp_size pk - 1 + 7) / 8 <= max_string_length) by (eapply Z.le_trans; [|apply S]; apply Z.div_le_mono; lia).
  apply roh_bind; [apply get_r_roh; [apply K|exact N|exact X]|]. intros s1 rb E1. apply get_r_inv in E1; [|apply K]. destruct E1 as (r & Rr & G & Er). destruct (encrypt_num pk msg rb r N1 N2 N3 N4 N5 N6 M Er G) as (c & Ec & _). rewrite Ec. apply roh_ret.
Qed.
End Enc.
Lemma encrypts_add n m1 m2 c1 c2 : 0 < n -> 0 <= m1 -> 0 <= m2 -> encrypts n m1 c1 -> encrypts n m2 c2 -> encrypts n (m1 + m2) (c1 * c2 mod (n * n)).
Proof.
  intros N M1 M2 (B1 & r1 & R1 & C1) (B2 & r2 & R2 & C2). assert (NN : 0 < n * n) by (apply Z.mul_pos_pos; lia). split; [apply Z.mod_pos_bound; exact NN|]. exists (r1 * r2). split; [apply rel_prime_sym, rel_prime_mult; apply rel_prime_sym; assumption|].
  apply cong_trans with (c1 * c2); [apply cong_rem; lia|]. rewrite Z.pow_add_r, Z.pow_mul_l by lia. replace ((n + 1) ^ m1 * (n + 1) ^ m2 * (r1 ^ n * r2 ^ n)) with ((n + 1) ^ m1 * r1 ^ n * ((n + 1) ^ m2 * r2 ^ n)) by ring. apply cong_mul; assumption.
Qed.
Lemma pai_add_ok sk pk m1 m2 c1 c2 : pai_key sk pk -> 0 <= m1 -> 0 <= m2 -> encrypts (be (pp_n pk)) m1 (be c1) -> encrypts (be (pp_n pk)) m2 (be c2) ->
  exists c, pai_add pk c1 c2 = Ret c /\ encrypts (be (pp_n pk)) (m1 + m2) (be c) /\ length c = length (pp_n2 pk).
Proof.
  intros K M1 M2 C1 C2. pose proof (pai_key_num sk pk K) as (N1 & N2 & N3 & N4 & N5 & N6). set (n := be (pp_n pk)) in *. assert (NN : 0 < n * n) by (apply Z.mul_pos_pos; lia). unfold pai_add.
  rewrite mod_mult_ok; [|exact N5|exact N6|apply C1|apply C2|rewrite N3; exact NN]. eexists. split; [reflexivity|]. split; [|apply length_to_be]. rewrite N3. rewrite be_len; [|apply N5|rewrite N3; apply Z.mod_pos_bound; exact NN]. apply encrypts_add; assumption || lia.
Qed.

(* ---- Diffie-Hellman ---- *)
Lemma dh_pow pr b x : dh_ok pr -> 0 < x -> (olet r := bn_mod_power b x (be (dh_p pr)) in bn_to_bytes (Some (zlen (dh_p pr) * 8)) r) = Ret (to_be (length (dh_p pr)) (b ^ x mod be (dh_p pr))).
Proof.
  intros (S & A & O & P) X. unfold bn_mod_power. rewrite powm_ok by assumption. cbn [obind]. destruct (str_size _ S) as (Sz & E & W & Bd). rewrite encode_aligned; [rewrite W; reflexivity|apply str_aligned; assumption|exact Sz|]. pose proof (Z.mod_pos_bound (b ^ x) (be (dh_p pr)) P). lia.
Qed.
Lemma dh_agree pr x y : dh_ok pr -> 0 < x -> 0 < y -> exists mx my k,
  dh_message pr x = Ret mx /\ dh_message pr y = Ret my /\ snd (dh_shared_secret pr x my) = Ret k /\ snd (dh_shared_secret pr y mx) = Ret k /\
  zlen k = zlen (dh_p pr) /\ be k = (be (dh_g pr) ^ (x * y)) mod be (dh_p pr).
Proof.
  intros H X Y. pose proof H as ((B & _) & _ & _ & P). set (p := be (dh_p pr)) in *. set (g := be (dh_g pr)).
  assert (Mb : forall a, 0 <= a mod p < p) by (intros a; apply Z.mod_pos_bound; exact P).
  exists (to_be (length (dh_p pr)) (g ^ x mod p)), (to_be (length (dh_p pr)) (g ^ y mod p)), (to_be (length (dh_p pr)) (g ^ (x * y) mod p)).
  assert (Sh : forall a b, 0 < a -> 0 < b -> snd (dh_shared_secret pr a (to_be (length (dh_p pr)) (g ^ b mod p))) = Ret (to_be (length (dh_p pr)) (g ^ (a * b) mod p))).
  { intros a b A B'. unfold dh_shared_secret. change bn_of_bytes with be. rewrite dh_pow by assumption. cbn [snd]. fold p. rewrite be_len; [|exact B|apply Mb]. do 2 f_equal. apply cong_mod; [lia|]. rewrite Z.mul_comm, Z.pow_mul_r by lia. apply cong_pow, cong_rem. lia. }
  splits.
  - unfold dh_message. change bn_of_bytes with be. apply dh_pow; assumption.
  - unfold dh_message. change bn_of_bytes with be. apply dh_pow; assumption.
  - apply Sh; assumption.
  - rewrite Sh by assumption. do 2 f_equal. rewrite Z.mul_comm. reflexivity.
  - unfold zlen. rewrite length_to_be. reflexivity.
  - apply be_len; [exact B|apply Mb].
Qed.
Lemma dh_wiped pr x m k : 2 ^ 62 <= x -> snd (dh_shared_secret pr x m) = Ret k -> let x' := fst (dh_shared_secret pr x m) in
  x' = 0 /\ dh_message pr x' = Raise Invalid_argument /\ forall m', snd (dh_shared_secret pr x' m') = Raise Invalid_argument.
Proof.
  intros X E. unfold dh_shared_secret in *. destruct (obind _ _) as [r|e| |]; cbn [snd fst] in *; try discriminate E. cbn zeta. assert (W : z_wipe x = 0) by (unfold z_wipe; replace (- 2 ^ 62 <=? x) with true by (symmetry; apply Z.leb_le; lia); replace (x <? 2 ^ 62) with false by lia; reflexivity).
  rewrite W. split; [reflexivity|]. unfold dh_message, bn_mod_power. rewrite powm_fail by lia. split; [reflexivity|]. intros m'. rewrite powm_fail by lia. reflexivity.
Qed.
Section DhGen.
Variables (fresh : Z -> bytes) (R : rng) (np : Z -> Z).
Hypothesis F : fresh_ok fresh.
Hypothesis RB : rng_bytes R.
Hypothesis NP : forall n, 0 <= n -> prime (np n).
Lemma find_generator_inv fuel : forall s nb s' g, dh_find_generator fresh R fuel s nb = (s', Ret g) -> 1 < g /\ 2 ^ (nb - 2) <= g < 2 ^ (nb - 1).
Proof.
  induction fuel as [|f IH]; intros s nb s' g E; [discriminate E|]. cbn [dh_find_generator] in E. apply bind_ret in E. destruct E as (s1 & x & E1 & E). apply bn_random_inv in E1; [|exact F|exact RB]. destruct (Z.leb_spec x 1) as [L|L]; [eapply IH; exact E|]. injection E as _ <-.
  split; [lia|]. replace (nb - 2) with (nb - 1 - 1) by ring. apply E1.
Qed.
Lemma new_parameters_inv fuel s privlen nb s' pr : dh_new_parameters fresh R np fuel s privlen nb = (s', Ret pr) ->
  32 <= nb /\ privlen < nb /\ dh_privlen pr = privlen /\ prime (be (dh_p pr)) /\ 2 ^ (nb - 1) <= be (dh_p pr) < 2 ^ nb /\ 1 < be (dh_g pr) < be (dh_p pr) /\ length (dh_p pr) = width nb /\ bytes_ok (dh_p pr) /\ aligned nb.
Proof.
  intros E. unfold dh_new_parameters in E. destruct (Z.ltb_spec nb 32) as [N|N]; [discriminate E|]. destruct (Z.leb_spec nb privlen) as [L|L]; [discriminate E|]. cbn [orb] in E. apply bind_ret in E. destruct E as (s1 & p & E1 & E). apply bind_ret in E. destruct E as (s2 & g & E2 & E).
  pose proof (random_prime_inv fresh R np F RB NP fuel _ _ _ _ E1) as (P & _ & Bp). apply find_generator_inv in E2. destruct E2 as (G1 & G2). injection E as _ E. assert (P0 : 0 < 2 ^ (nb - 1)) by (apply Z.pow_pos_nonneg; lia).
  apply obind_ret in E. destruct E as (b1 & T1 & E). apply obind_ret in E. destruct E as (b2 & T2 & E). injection E as <-. apply to_bytes_inv in T1; [|lia|lia]. apply to_bytes_inv in T2; [|lia|lia]. cbn [dh_p dh_g dh_privlen].
  destruct T1 as (_ & _ & T1a & T1 & T1b), T2 as (_ & _ & _ & T2 & _). rewrite T1, T2. splits; try assumption; try lia; [rewrite T1a; apply length_to_be|rewrite T1a; apply bytes_ok_to_be|]. eapply limbs_aligned; [lia|exact Bp|exact T1b].
Qed.
End DhGen.
