(* RSA key generation *)
From Coq Require Import Zpow_facts Znumtheory.
From Verif Require Import Prelude PreludeFacts BytesNum NumTheory RngModel BnModel Bn PkModel SpecPk Pk.

Lemma obind_ret {A B} (r : out A) (k : A -> out B) b : obind r k = Ret b -> exists a, r = Ret a /\ k a = Ret b.
Proof. destruct r; cbn [obind]; intros H; try discriminate H. eexists. split; [reflexivity|exact H]. Qed.
Lemma bind_ret {S A B} (r : S * out A) (k : S -> A -> S * out B) s' b : bind r k = (s', Ret b) -> exists s a, r = (s, Ret a) /\ k s a = (s', Ret b).
Proof. destruct r as (s & [a|e| |]); cbn [bind]; intros H; try discriminate H. exists s, a. split; [reflexivity|exact H]. Qed.

Lemma to_bytes_inv nb n b : 0 <= n -> bn_to_bytes (Some nb) n = Ret b -> 0 <= nb -> size_ok nb /\ n < 2 ^ nb /\ b = to_be (width nb) n /\ be b = n /\ 8 * z_limbs n <= (nb + 7) / 8.
Proof.
  intros N E NB. pose proof E as E'. unfold bn_to_bytes in E'. destruct (Z.leb_spec (z_numbits n) nb) as [L|L]; [|discriminate E']. apply numbits_le in L; [|exact N|exact NB]. cbn [obind] in E'. rewrite quot8 in E' by lia.
  destruct (((nb + 7) / 8 <? 0) || ((nb + 7) / 8 >? max_string_length)) eqn:M; [discriminate E'|]. apply orb_false_iff in M. assert (S : size_ok nb) by (split; [exact NB|]; change (2 ^ 57 - 9) with max_string_length; lia).
  assert (H : 0 <= n < 2 ^ nb) by lia. rewrite to_bytes_some in E; [|exact NB|exact H|apply S]. destruct (Z.leb_spec (8 * z_limbs n) ((nb + 7) / 8)) as [A|A]; [|discriminate E]. injection E as <-. fold (width nb).
  splits; [exact S|lia|reflexivity|apply be_width; assumption|exact A].
Qed.
Lemma limbs_aligned nb n : 1 <= nb -> 2 ^ (nb - 1) <= n < 2 ^ nb -> 8 * z_limbs n <= (nb + 7) / 8 -> aligned nb.
Proof.
  intros N B L. assert (H : z_numbits n = nb) by (apply numbits_eq; [pose proof (Z.pow_pos_nonneg 2 (nb - 1)); lia|exact N|exact B]). unfold z_limbs in L. rewrite H in L. exists ((nb + 63) / 64).
  pose proof (Z.div_mod (nb + 63) 64 ltac:(lia)). pose proof (Z.mod_pos_bound (nb + 63) 64 ltac:(lia)). pose proof (Z.div_mod (nb + 7) 8 ltac:(lia)). pose proof (Z.mod_pos_bound (nb + 7) 8 ltac:(lia)). lia.
Qed.
Lemma gcd_mul_1 a b c : Z.gcd a b = 1 -> Z.gcd a c = 1 -> Z.gcd a (b * c) = 1.
Proof. intros H1 H2. apply Zgcd_1_rel_prime. apply rel_prime_mult; apply Zgcd_1_rel_prime; assumption. Qed.
Lemma even_half nb : ~ (Z.land nb 1 > 0) -> 0 <= nb -> nb = 2 * (Z.quot nb 2).
Proof.
  intros H N. change 1 with (Z.ones 1) in H. rewrite Z.land_ones in H by lia. change (2 ^ 1) with 2 in H. rewrite Z.quot_div_nonneg by lia. pose proof (Z.mod_pos_bound nb 2 ltac:(lia)). pose proof (Z.div_mod nb 2 ltac:(lia)). lia.
Qed.
Definition good_prime (nb n : Z) : Prop := prime n /\ 1 <= nb /\ 2 ^ (nb - 1) <= n < 2 ^ nb.
Lemma prod_bits nb p q : good_prime nb p -> good_prime nb q -> 2 ^ (2 * nb - 2) <= p * q < 2 ^ (2 * nb).
Proof.
  intros (_ & H1 & B1) (_ & _ & B2). replace (2 * nb - 2) with ((nb - 1) + (nb - 1)) by ring. replace (2 * nb) with (nb + nb) by ring. rewrite !Z.pow_add_r by lia. assert (0 < 2 ^ (nb - 1)) by (apply Z.pow_pos_nonneg; lia).
  set (A := 2 ^ (nb - 1)) in *. set (B := 2 ^ nb) in *. clearbody A B. clear - B1 B2 H. nia.
Qed.
Lemma big_prime nb p : good_prime nb p -> 16 <= nb -> 2 ^ 15 <= p.
Proof. intros (_ & _ & B) N. eapply Z.le_trans; [|apply B]. apply Z.pow_le_mono_r; lia. Qed.
Lemma key_numbers p q e : prime p -> prime q -> q < p -> 2 < p -> 2 < q -> Z.gcd e (p - 1) = 1 -> Z.gcd e (q - 1) = 1 ->
  exists d qinv, z_invert e ((p - 1) * (q - 1)) = Ret d /\ 0 < d < (p - 1) * (q - 1) /\ ((p - 1) * (q - 1) | e * d - 1) /\
  z_invert q p = Ret qinv /\ 0 <= qinv < p /\ (p | q * qinv - 1).
Proof.
  intros P Q L P2 Q2 G1 G2. assert (PQ : 3 < (p - 1) * (q - 1)) by (clear - L P2 Q2; nia).
  destruct (invert_ok e ((p - 1) * (q - 1))) as (d & D1 & D2 & D3); [lia|apply gcd_mul_1; assumption|]. destruct (invert_ok q p) as (i & I1 & I2 & I3); [lia|apply Zgcd_1_rel_prime, primes_coprime; [exact Q|exact P|lia]|].
  exists d, i. splits; try assumption; try lia. destruct (Z.eq_dec d 0) as [->|]; [|lia]. exfalso. destruct D3 as (k & D3). rewrite Z.mul_0_r in D3. assert (k <> 0) by (intros ->; lia). clear - D3 PQ H. nia.
Qed.
Section Gen.
Variables (fresh : Z -> bytes) (R : rng) (np : Z -> Z).
Hypothesis F : fresh_ok fresh.
Hypothesis RB : rng_bytes R.
Hypothesis NP : forall n, 0 <= n -> prime (np n).

Lemma random_prime_inv fuel : forall s nb s' n, bn_random_prime fresh R np fuel s nb = (s', Ret n) -> good_prime nb n.
Proof.
  induction fuel as [|f IH]; intros s nb s' n E; [discriminate E|]. cbn [bn_random_prime] in E. apply bind_ret in E. destruct E as (s1 & m & E1 & E).
  destruct (Z.eqb_spec (z_numbits (np m)) nb) as [N|N]; [|eapply IH; exact E]. injection E as _ <-. apply bn_random_inv in E1; [|exact F|exact RB]. destruct E1 as (H1 & H2 & _).
  assert (M : 0 <= m) by (pose proof (Z.pow_pos_nonneg 2 (nb - 1)); lia). pose proof (NP m M) as P. pose proof (prime_pos _ P). split; [exact P|]. split; [exact H1|]. apply numbits_eq; [lia|exact H1|exact N].
Qed.
Definition prime_to (e : option Z) (n : Z) : Prop := match e with None => True | Some e => Z.gcd n e = 1 end.
Lemma gen_factor_inv fuel : forall s e nb s' n, gen_factor fresh R np fuel s e nb = (s', Ret n) -> good_prime nb n /\ prime_to e (n - 1).
Proof.
  induction fuel as [|f IH]; intros s e nb s' n E; [discriminate E|]. cbn [gen_factor] in E. apply bind_ret in E. destruct E as (s1 & m & E1 & E). apply random_prime_inv in E1. destruct e as [e|].
  - unfold bn_relative_prime in E. destruct (Z.eqb_spec (Z.gcd (m - 1) e) 1) as [G|G]; [|eapply IH; exact E]. injection E as _ <-. split; [exact E1|exact G].
  - injection E as _ <-. split; [exact E1|exact I].
Qed.
Lemma gen_factors_inv fuel : forall s e nb s' pq, gen_factors fresh R np fuel s e nb = (s', Ret pq) ->
  good_prime nb (fst pq) /\ good_prime nb (snd pq) /\ snd pq < fst pq /\ prime_to e (fst pq - 1) /\ prime_to e (snd pq - 1).
Proof.
  induction fuel as [|f IH]; intros s e nb s' pq E; [discriminate E|]. cbn [gen_factors] in E. apply bind_ret in E. destruct E as (s1 & q & E1 & E). apply bind_ret in E. destruct E as (s2 & p & E2 & E).
  apply gen_factor_inv in E1, E2. destruct (Z.eqb_spec p q) as [N|N]; [eapply IH; exact E|]. destruct (Z.ltb_spec p q); injection E as _ <-; cbn [fst snd]; splits; try apply E1; try apply E2; lia.
Qed.
Lemma gen_exponent_inv fuel : forall s nb p1 q1 s' e, gen_exponent fresh R fuel s nb p1 q1 = (s', Ret e) -> 1 <= nb /\ 2 ^ (nb - 1) <= e < 2 ^ nb /\ Z.gcd e p1 = 1 /\ Z.gcd e q1 = 1.
Proof.
  induction fuel as [|f IH]; intros s nb p1 q1 s' e E; [discriminate E|]. cbn [gen_exponent] in E. apply bind_ret in E. destruct E as (s1 & m & E1 & E). apply bn_random_inv in E1; [|exact F|exact RB]. unfold bn_relative_prime in E.
  destruct (Z.eqb_spec (Z.gcd m p1) 1); [|eapply IH; exact E]. destruct (Z.eqb_spec (Z.gcd m q1) 1); [|eapply IH; exact E]. cbn [andb] in E. injection E as _ <-. tauto.
Qed.
(* the number-theoretic part *)
Lemma new_key_inv fuel s e numbits s' k : (forall x, e = Some x -> 0 < x) -> rsa_new_key fresh R np fuel s e numbits = (s', Ret k) ->
  32 <= numbits /\ numbits = 2 * Z.quot numbits 2 /\ new_key_spec e numbits k /\ size_ok numbits /\ 8 * z_limbs (be (rk_p (fst k))) <= (Z.quot numbits 2 + 7) / 8 /\ 2 ^ (Z.quot numbits 2 - 1) <= be (rk_p (fst k)) < 2 ^ (Z.quot numbits 2).
Proof.
  intros EP E. unfold rsa_new_key in E. destruct (Z.ltb_spec numbits 32) as [N|N]; [discriminate E|]. destruct (Z.gtb_spec (Z.land numbits 1) 0) as [O|O]; cbn [orb] in E; [discriminate E|]. pose proof (even_half numbits ltac:(lia) ltac:(lia)) as H2.
  set (nb := Z.quot numbits 2) in *. apply bind_ret in E. destruct E as (s1 & (p & q) & E1 & E). apply gen_factors_inv in E1. cbn [fst snd] in *. destruct E1 as (Gp & Gq & L & Ep & Eq).
  assert (B : exists ev, (forall x, e = Some x -> ev = x) /\ 0 < ev /\ Z.gcd ev (p - 1) = 1 /\ Z.gcd ev (q - 1) = 1 /\
    (olet d := z_invert ev ((p - 1) * (q - 1)) in olet dp := z_rem d (p - 1) in olet dq := z_rem d (q - 1) in olet qinv := z_invert q p in
     olet bn := bn_to_bytes (Some numbits) (p * q) in olet bd := bn_to_bytes (Some numbits) d in olet bp := bn_to_bytes (Some nb) p in olet bq := bn_to_bytes (Some nb) q in
     olet bdp := bn_to_bytes (Some nb) dp in olet bdq := bn_to_bytes (Some nb) dq in olet bqinv := bn_to_bytes (Some nb) qinv in olet be := bn_to_bytes (Some numbits) ev in
     Ret (RsaPriv numbits bn bd bp bq bdp bdq bqinv, RsaPub numbits bn be)) = Ret k).
  { destruct e as [x|].
    - cbn [bind] in E. exists x. splits; [intros y Y; injection Y; auto|apply EP; reflexivity|rewrite Z.gcd_comm; exact Ep|rewrite Z.gcd_comm; exact Eq|]. injection E as _ E. exact E.
    - apply bind_ret in E. destruct E as (s2 & x & E2 & E). apply gen_exponent_inv in E2. destruct E2 as (X0 & X1 & X2 & X3). exists x. splits; [discriminate|pose proof (Z.pow_pos_nonneg 2 (numbits - 1)); lia|exact X2|exact X3|]. injection E as _ E. exact E. }
  clear E. destruct B as (ev & V1 & V2 & V3 & V4 & E). pose proof (big_prime nb p Gp ltac:(lia)) as Pb. pose proof (big_prime nb q Gq ltac:(lia)) as Qb. change (2 ^ 15) with 32768 in *.
  pose proof (proj1 Gp) as P. pose proof (proj1 Gq) as Q. destruct (key_numbers p q ev P Q L ltac:(lia) ltac:(lia) V3 V4) as (d & qinv & I1 & I2 & I3 & I4 & I5 & I6). rewrite I1, I4 in E. cbn [obind] in E. rewrite !rem_ok in E by lia. cbn [obind] in E.
  pose proof (prod_bits nb p q Gp Gq) as PQ. rewrite <- H2 in PQ. assert (NB : 0 <= numbits /\ 0 <= nb) by lia.
  apply obind_ret in E. destruct E as (b1 & T1 & E). apply obind_ret in E. destruct E as (b2 & T2 & E). apply obind_ret in E. destruct E as (b3 & T3 & E). apply obind_ret in E. destruct E as (b4 & T4 & E).
  apply obind_ret in E. destruct E as (b5 & T5 & E). apply obind_ret in E. destruct E as (b6 & T6 & E). apply obind_ret in E. destruct E as (b7 & T7 & E). apply obind_ret in E. destruct E as (b8 & T8 & E). injection E as <-.
  pose proof (Z.mod_pos_bound d (p - 1) ltac:(lia)) as Mp. pose proof (Z.mod_pos_bound d (q - 1) ltac:(lia)) as Mq. assert (Ppq : 0 <= p * q) by (apply Z.mul_nonneg_nonneg; lia).
  apply to_bytes_inv in T1; [|exact Ppq|lia]. apply to_bytes_inv in T2; [|lia|lia]. apply to_bytes_inv in T3; [|lia|lia]. apply to_bytes_inv in T4; [|lia|lia]. apply to_bytes_inv in T5; [|lia|lia]. apply to_bytes_inv in T6; [|lia|lia]. apply to_bytes_inv in T7; [|lia|lia]. apply to_bytes_inv in T8; [|lia|lia].
  destruct T1 as (SK & _ & _ & T1 & _), T2 as (_ & _ & _ & T2 & _), T3 as (_ & _ & _ & T3 & T3'), T4 as (_ & _ & _ & T4 & _), T5 as (_ & _ & _ & T5 & _), T6 as (_ & _ & _ & T6 & _), T7 as (_ & _ & _ & T7 & _), T8 as (_ & _ & _ & T8 & _).
  split; [lia|]. split; [exact H2|]. unfold new_key_spec. cbn [fst snd rk_size rp_size rk_n rp_n rp_e rk_d rk_p rk_q rk_dp rk_dq rk_qinv]. rewrite T1, T2, T3, T4, T5, T6, T7, T8. replace (numbits / 2) with nb by (unfold nb; apply Z.quot_div_nonneg; lia).
  splits; try reflexivity; try assumption; try lia; try apply I2; try apply I5; try apply PQ; try apply Gp; try apply Gq.
Qed.
(* no failure: a total generator, sizes in whole limbs *)
Hypothesis RT : rng_total R.
Notation ret_or_hang := (ret_or_hang R).
Lemma roh_bind {A B} (r : r_st R * out A) (k : r_st R -> A -> r_st R * out B) : ret_or_hang r -> (forall s a, r = (s, Ret a) -> ret_or_hang (k s a)) -> ret_or_hang (bind r k).
Proof. intros [(a & H)|H] K; destruct r as (s & o); cbn [snd] in H; subst o; cbn [bind]; [apply K; reflexivity|right; reflexivity]. Qed.
Lemma roh_ret {A} s (a : A) : ret_or_hang (s, Ret a). Proof. left. exists a. reflexivity. Qed.
Lemma random_prime_roh fuel : forall s nb, 1 <= nb -> (nb + 7) / 8 <= max_string_length -> ret_or_hang (bn_random_prime fresh R np fuel s nb).
Proof.
  induction fuel as [|f IH]; intros s nb N M; [right; reflexivity|]. cbn [bn_random_prime]. destruct (bn_random_ok fresh R s true nb F RB RT N M) as (s' & n & ->). cbn [bind]. destruct (z_numbits (np n) =? nb); [apply roh_ret|apply IH; assumption].
Qed.
Lemma gen_factor_roh fuel : forall s e nb, 1 <= nb -> (nb + 7) / 8 <= max_string_length -> ret_or_hang (gen_factor fresh R np fuel s e nb).
Proof.
  induction fuel as [|f IH]; intros s e nb N M; [right; reflexivity|]. cbn [gen_factor]. apply roh_bind; [apply random_prime_roh; assumption|]. intros s1 n _. destruct e as [e|]; [|apply roh_ret]. destruct (bn_relative_prime (n - 1) e); [apply roh_ret|apply IH; assumption].
Qed.
Lemma gen_factors_roh fuel : forall s e nb, 1 <= nb -> (nb + 7) / 8 <= max_string_length -> ret_or_hang (gen_factors fresh R np fuel s e nb).
Proof.
  induction fuel as [|f IH]; intros s e nb N M; [right; reflexivity|]. cbn [gen_factors]. apply roh_bind; [apply gen_factor_roh; assumption|]. intros s1 q _. apply roh_bind; [apply gen_factor_roh; assumption|]. intros s2 p _.
  destruct (p =? q); [apply IH; assumption|]. destruct (p <? q); apply roh_ret.
Qed.
Lemma gen_exponent_roh fuel : forall s nb p1 q1, 1 <= nb -> (nb + 7) / 8 <= max_string_length -> ret_or_hang (gen_exponent fresh R fuel s nb p1 q1).
Proof.
  induction fuel as [|f IH]; intros s nb p1 q1 N M; [right; reflexivity|]. cbn [gen_exponent]. destruct (bn_random_ok fresh R s false nb F RB RT N M) as (s' & n & ->). cbn [bind]. destruct (_ && _); [apply roh_ret|apply IH; assumption].
Qed.
Lemma new_key_total fuel s e numbits : 32 <= numbits -> Z.even numbits = true -> size_ok numbits -> aligned numbits -> aligned (numbits / 2) -> (forall x, e = Some x -> 0 < x < 2 ^ numbits) ->
  ret_or_hang (rsa_new_key fresh R np fuel s e numbits).
Proof.
  intros N Ev S A A2 EP. unfold rsa_new_key. replace (numbits <? 32) with false by lia. cbn [orb]. apply Z.even_spec in Ev. destruct Ev as (nb & Hnb).
  assert (La : Z.land numbits 1 >? 0 = false) by (change 1 with (Z.ones 1); rewrite Z.land_ones by lia; change (2 ^ 1) with 2; rewrite Hnb, Z.mul_comm, Z.mod_mul by lia; reflexivity). rewrite La.
  assert (Hq : Z.quot numbits 2 = nb) by (rewrite Z.quot_div_nonneg by lia; rewrite Hnb, Z.mul_comm; apply Z.div_mul; lia). rewrite Hq. assert (Hd : numbits / 2 = nb) by (rewrite Hnb, Z.mul_comm; apply Z.div_mul; lia). rewrite Hd in A2. clear Hd.
  assert (S2 : size_ok nb) by (destruct S as (S1 & S2); split; [lia|]; eapply Z.le_trans; [|exact S2]; apply Z.div_le_mono; lia).
  apply roh_bind; [apply gen_factors_roh; [lia|apply S2]|]. intros s1 (p & q) E1. apply gen_factors_inv in E1. cbn [fst snd] in *. destruct E1 as (Gp & Gq & L & Ep & Eq).
  assert (RE : ret_or_hang match e with Some e0 => (s1, Ret e0) | None => gen_exponent fresh R fuel s1 numbits (p - 1) (q - 1) end) by (destruct e; [apply roh_ret|apply gen_exponent_roh; [lia|apply S]]).
  apply roh_bind; [exact RE|]. intros s2 ev E2. clear RE.
  assert (V : 0 < ev < 2 ^ numbits /\ Z.gcd ev (p - 1) = 1 /\ Z.gcd ev (q - 1) = 1).
  { destruct e as [x|]; [injection E2 as _ <-; cbn [prime_to] in Ep, Eq; rewrite (Z.gcd_comm x), (Z.gcd_comm x); splits; try assumption; apply EP; reflexivity|]. apply gen_exponent_inv in E2. destruct E2 as (X0 & X1 & X2 & X3). splits; try assumption; [pose proof (Z.pow_pos_nonneg 2 (numbits - 1)); lia|lia]. }
  destruct V as (V2 & V3 & V4). pose proof (big_prime nb p Gp ltac:(lia)) as Pb. pose proof (big_prime nb q Gq ltac:(lia)) as Qb. change (2 ^ 15) with 32768 in *.
  pose proof (proj1 Gp) as P. pose proof (proj1 Gq) as Q. destruct (key_numbers p q ev P Q L ltac:(lia) ltac:(lia) V3 V4) as (d & qinv & I1 & I2 & I3 & I4 & I5 & I6). rewrite I1, I4. cbn [obind]. rewrite !rem_ok by lia. cbn [obind].
  pose proof (prod_bits nb p q Gp Gq) as PQ. rewrite <- Hnb in PQ. assert (Ppq : 0 <= p * q) by (apply Z.mul_nonneg_nonneg; lia). assert (Dn : d < p * q) by (clear - I2 Pb Qb; nia).
  pose proof (Z.mod_pos_bound d (p - 1) ltac:(lia)) as Mp. pose proof (Z.mod_pos_bound d (q - 1) ltac:(lia)) as Mq. destruct Gp as (_ & _ & Gp), Gq as (_ & _ & Gq).
  rewrite (encode_aligned numbits (p * q)) by (assumption || lia). cbn [obind]. rewrite (encode_aligned numbits d) by (assumption || lia). cbn [obind]. rewrite (encode_aligned nb p) by (assumption || lia). cbn [obind]. rewrite (encode_aligned nb q) by (assumption || lia). cbn [obind].
  rewrite (encode_aligned nb (d mod (p - 1))) by (assumption || lia). cbn [obind]. rewrite (encode_aligned nb (d mod (q - 1))) by (assumption || lia). cbn [obind]. rewrite (encode_aligned nb qinv) by (assumption || lia). cbn [obind]. rewrite (encode_aligned numbits ev) by (assumption || lia). cbn [obind].
  apply roh_ret.
Qed.
(* consequences *)
Lemma new_key_unaligned fuel s e numbits : (forall x, e = Some x -> 0 < x) -> ~ aligned (numbits / 2) -> forall k, snd (rsa_new_key fresh R np fuel s e numbits) <> Ret k.
Proof.
  intros EP A k H. destruct (rsa_new_key fresh R np fuel s e numbits) as (s' & r) eqn:E. cbn [snd] in H. subst r. apply new_key_inv in E; [|exact EP]. destruct E as (N & H2 & Sp & _ & L & B). rewrite Z.quot_div_nonneg in * by lia.
  apply A. eapply limbs_aligned; [lia|exact B|exact L].
Qed.
Lemma new_key_even fuel s e numbits : 0 < e -> Z.even e = true -> forall k, snd (rsa_new_key fresh R np fuel s (Some e) numbits) <> Ret k.
Proof.
  intros EP Ev k H. destruct (rsa_new_key fresh R np fuel s (Some e) numbits) as (s' & r) eqn:E. cbn [snd] in H. subst r. apply new_key_inv in E; [|intros x X; injection X as <-; exact EP]. destruct E as (N & H2 & Sp & _ & L & B).
  destruct Sp as (_ & _ & _ & Sn & En & P & Q & Lq & _ & _ & _ & Ee & _ & D & _). rewrite (Ee e eq_refl) in D. assert (Pp : 2 ^ 15 <= be (rk_p (fst k))) by (eapply Z.le_trans; [|apply B]; apply Z.pow_le_mono_r; lia). change (2 ^ 15) with 32768 in Pp.
  pose proof (prime_odd _ P ltac:(lia)) as O. set (p := be (rk_p (fst k))) in *. set (q := be (rk_q (fst k))) in *. set (d := be (rk_d (fst k))) in *. clearbody p q d. apply Z.even_spec in Ev. apply Z.odd_spec in O. destruct Ev as (a & ->), O as (b & ->), D as (c & D).
  apply (f_equal Z.odd) in D. replace (2 * a * d - 1) with (2 * (a * d - 1) + 1) in D by ring. replace (c * ((2 * b + 1 - 1) * (q - 1))) with (2 * (c * b * (q - 1))) in D by ring. rewrite Z.odd_add_mul_2 in D || idtac. rewrite Z.odd_mul in D. rewrite Z.odd_add, Z.odd_mul in D. discriminate D.
Qed.
End Gen.
Lemma new_key_pair e numbits k : 32 <= numbits -> size_ok numbits -> new_key_spec e numbits k -> rsa_pair (fst k) (snd k) /\ rsa_crt (fst k).
Proof.
  intros N S (S1 & S2 & S3 & S4 & S5 & P & Q & L & Lq & _ & E & _ & D & DV & Dp & Dq & I0 & I). assert (Q2 : 2 < be (rk_q (fst k))) by (eapply Z.lt_le_trans; [|exact Lq]; apply Z.lt_le_trans with (2 ^ 15); [reflexivity|]; apply Z.pow_le_mono_r; [lia|]; assert (16 <= numbits / 2) by (apply Z.div_le_lower_bound; lia); lia). set (p := be (rk_p (fst k))) in *. set (q := be (rk_q (fst k))) in *. set (d := be (rk_d (fst k))) in *.
  assert (D1 : (p - 1 | be (rp_e (snd k)) * d - 1)) by (eapply Z.divide_trans; [|exact DV]; apply Z.divide_factor_l). assert (D2 : (q - 1 | be (rp_e (snd k)) * d - 1)) by (eapply Z.divide_trans; [|exact DV]; apply Z.divide_factor_r).
  assert (RP : forall x, (x | be (rp_e (snd k)) * d - 1) -> rel_prime d x).
  { intros x (y & X). apply bezout_rel_prime. exists (be (rp_e (snd k))) (- y). lia. }
  split.
  - exists p, q. unfold rsa_numbers. rewrite S3, S1, S2. fold d. splits; try assumption; try lia; try apply D; try apply S.
  - unfold rsa_crt. fold p q d. rewrite S3, S1. splits; try assumption; try lia; try apply I0; try apply D; try apply S; apply RP; assumption.
Qed.
