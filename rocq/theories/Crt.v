(* RSA by Chinese remainders: the exact result (C53), and faults (C117). *)
From Coq Require Import Zpow_facts Znumtheory.
From Verif Require Import Prelude PreludeFacts BytesNum NumTheory RngModel BnModel Bn PkModel SpecPk Pk.

Lemma to_bytes_neg size x : bn_to_bytes size (- x) = bn_to_bytes size x.
Proof. assert (N : z_numbits (- x) = z_numbits x) by (unfold z_numbits; rewrite Z.abs_opp; destruct x; reflexivity). unfold bn_to_bytes, z_to_bits, z_limbs. rewrite N, Z.abs_opp. reflexivity. Qed.

(* the sum of the two parts *)
Lemma garner p q mp mq diff h qinv x : rel_prime p q -> cong p mp x -> cong q mq x -> cong p diff (mp - mq) -> cong p h (diff * qinv) -> (p | q * qinv - 1) ->
  cong (p * q) (q * h + mq) x.
Proof.
  intros R Cp Cq Hd Hh I. apply crt_cong; [exact R| |].
  - apply cong_trans with (q * (diff * qinv) + mq); [apply cong_add; [apply cong_mul; [apply cong_refl|exact Hh]|apply cong_refl]|].
    apply cong_trans with (diff * (q * qinv) + mq); [replace (q * (diff * qinv)) with (diff * (q * qinv)) by ring; apply cong_refl|].
    apply cong_trans with ((mp - mq) * 1 + mq); [apply cong_add; [apply cong_mul; [exact Hd|exact I]|apply cong_refl]|]. replace ((mp - mq) * 1 + mq) with mp by ring. exact Cp.
  - apply cong_trans with mq; [|exact Cq]. exists h. ring.
Qed.
Lemma half_power p a d : prime p -> 2 < p -> 0 < d -> rel_prime d (p - 1) -> (a mod p) ^ (d mod (p - 1)) mod p = a ^ d mod p.
Proof.
  intros P P2 D R. pose proof (dp_pos d p P2 R) as D1. apply cong_mod; [lia|]. apply cong_trans with (a ^ (d mod (p - 1))); [apply cong_pow, cong_rem; lia|]. apply pow_exp_mod; assumption.
Qed.
Lemma crt_exact p q a d qinv : prime p -> prime q -> p <> q -> 2 < p -> 2 < q -> 0 <= a -> 0 < d -> rel_prime d (p - 1) -> rel_prime d (q - 1) ->
  0 <= qinv -> (p | q * qinv - 1) -> let x := a ^ d mod (p * q) in
  bn_mod_power_CRT a p q (d mod (p - 1)) (d mod (q - 1)) qinv = Ret (if (x mod p + p <? x mod q) && (q <=? x) then x - p * q else x).
Proof.
  intros P Q NE P2 Q2 A D R1 R2 I0 I x. pose proof (dp_pos d p P2 R1) as D1. pose proof (dp_pos d q Q2 R2) as D2.
  assert (N : 0 < p * q) by (apply Z.mul_pos_pos; lia). pose proof (Z.mod_pos_bound (a ^ d) (p * q) N) as Bx. fold x in Bx.
  assert (Xp : x mod p = a ^ d mod p) by (apply cong_mod; [lia|]; apply (cong_div p (p * q)); [apply Z.divide_factor_l|apply cong_rem; lia]).
  assert (Xq : x mod q = a ^ d mod q) by (apply cong_mod; [lia|]; apply (cong_div q (p * q)); [apply Z.divide_factor_r|apply cong_rem; lia]).
  unfold bn_mod_power_CRT, bn_mod_power. rewrite !rem_ok by lia. cbn [obind].
  rewrite !powm_ok by (assumption || lia || (apply prime_odd; assumption)). cbn [obind]. rewrite !half_power by assumption. rewrite <- Xp, <- Xq.
  set (mp := x mod p) in *. set (mq := x mod q) in *.
  assert (Bp : 0 <= mp < p) by (apply Z.mod_pos_bound; lia). assert (Bq : 0 <= mq < q) by (apply Z.mod_pos_bound; lia).
  assert (Cp : cong p mp x) by (apply cong_rem; lia). assert (Cq : cong q mq x) by (apply cong_rem; lia).
  assert (RP : rel_prime p q) by (apply primes_coprime; assumption).
  clearbody mp mq. set (diff := bn_sub_mod mp mq p).
  assert (Hd : cong p diff (mp - mq) /\ ((0 <= diff /\ mq <= mp + p) \/ (diff < 0 /\ mp + p < mq))).
  { unfold diff, bn_sub_mod. destruct (Z.ltb_spec (mp - mq) 0).
    - split; [exists 1; ring|]. destruct (Z.lt_ge_cases (mp - mq + p) 0); [right|left]; lia.
    - split; [exists 0; ring|]. left. lia. }
  destruct Hd as (Hd & [(S & T)|(S & T)]); clearbody diff.
  - rewrite rem_ok; [|apply Z.mul_nonneg_nonneg; [exact S|exact I0]|clear - P2; lia]. cbn [obind]. replace (mp + p <? mq) with false by lia. cbn [andb]. f_equal.
    set (h := (diff * qinv) mod p). assert (Bh : 0 <= h < p) by (apply Z.mod_pos_bound; clear - P2; lia).
    assert (Hh : cong p h (diff * qinv)) by (apply cong_rem; clear - P2; lia). clearbody h.
    apply (cong_small (p * q)); [clear - Bh Bq; nia|exact Bx|]. apply (garner p q mp mq diff h qinv); assumption.
  - unfold z_rem. replace (p =? 0) with false by lia. cbn [obind]. replace (mp + p <? mq) with true by lia. cbn [andb]. f_equal.
    set (k := ((- diff) * qinv) mod p). assert (Bk : 0 <= k < p) by (apply Z.mod_pos_bound; clear - P2; lia).
    assert (Ek : Z.rem (diff * qinv) p = - k).
    { replace (diff * qinv) with (- ((- diff) * qinv)) by ring. rewrite Z.rem_opp_l by lia. f_equal. unfold k. apply Z.rem_mod_nonneg; [|lia]. apply Z.mul_nonneg_nonneg; [clear - S; lia|exact I0]. }
    assert (Hk : cong p (- k) (diff * qinv)).
    { assert (C : cong p k (- diff * qinv)) by (apply cong_rem; lia). destruct C as (j & C). exists (- j). clear Ek Bk. clearbody k. clear - C. lia. }
    rewrite Ek. clearbody k. clear Ek.
    pose proof (garner p q mp mq diff (- k) qinv x RP Cp Cq Hd Hk I) as G.
    destruct (Z.eq_dec k 0) as [->|K0].
    + assert (E : q * - 0 + mq = x) by (apply (cong_small (p * q)); [clear - Bq P2; nia|exact Bx|exact G]). replace (q <=? x) with false by (clear - E Bq; lia). exact E.
    + assert (E : q * - k + mq + p * q = x).
      { apply (cong_small (p * q)); [clear - Bq Bk K0; nia|exact Bx|]. apply cong_trans with (q * - k + mq); [exists 1; ring|exact G]. }
      replace (q <=? x) with true by (symmetry; apply Z.leb_le; clear - E Bq Bk; nia). clear - E. lia.
Qed.
Lemma rsa_crt_exact sk msg : rsa_crt sk -> bytes_ok msg -> be msg < be (rk_n sk) ->
  let p := be (rk_p sk) in let q := be (rk_q sk) in let n := be (rk_n sk) in let x := be msg ^ be (rk_d sk) mod n in
  rsa_decrypt sk msg = encode (rk_size sk) x /\
  rsa_decrypt_CRT sk msg = encode (rk_size sk) (if (x mod p + p <? x mod q) && (q <=? x) then n - x else x).
Proof.
  intros (P & Q & N & P2 & Q2 & En & L & S & D & R1 & R2 & Edp & Edq & I0 & I) B M p q n x. pose proof (be_bound msg B) as (M0 & _).
  fold p q in P, Q, N, P2, Q2, En, L, R1, R2, Edp, Edq, I. fold n in En, M.
  assert (NN : 0 < n) by (rewrite En; apply Z.mul_pos_pos; lia). pose proof (Z.mod_pos_bound (be msg ^ be (rk_d sk)) n NN) as Bx. fold x in Bx.
  assert (L' : n <= 2 ^ rk_size sk) by (rewrite En; exact L).
  split.
  - unfold rsa_decrypt. cbn zeta. change bn_of_bytes with be. fold n. unfold x. rewrite <- (rsa_op_exact (rk_size sk) n); [reflexivity|exact S|rewrite En; apply odd_pq; assumption|split; assumption|exact D|exact M].
  - unfold rsa_decrypt_CRT. cbn zeta. change bn_of_bytes with be. fold n p q. replace (be msg >=? n) with false by lia.
    rewrite Edp, Edq, (crt_exact p q) by assumption. cbn [obind]. rewrite <- En. fold x.
    destruct ((x mod p + p <? x mod q) && (q <=? x)) eqn:C.
    + replace (x - n) with (- (n - x)) by ring. rewrite to_bytes_neg. apply encode_ok; [exact S|]. apply andb_true_iff in C as (_ & C). clear - C Bx L' Q2. lia.
    + apply encode_ok; [exact S|]. clear - Bx L'. lia.
Qed.

(* ---- one wrong half ---- *)
Lemma encode_value size x b : size_ok size -> 0 <= x < 2 ^ size -> encode size x = Ret b -> be b = x.
Proof. intros S H E. unfold encode in E. destruct (_ <=? _); [|discriminate E]. injection E as <-. apply be_width; assumption. Qed.
Lemma powm_inv b e m r : 0 < m -> z_powm_sec b e m = Ret r -> 0 < e /\ r = b ^ e mod m.
Proof.
  intros M. unfold z_powm_sec. destruct (Z.leb_spec e 0); [discriminate|]. cbn [orb]. destruct (Z.even m); [discriminate|]. intros H'. injection H' as <-. split; [assumption|].
  rewrite Zpow_mod_correct by lia. rewrite Z.abs_eq by lia. reflexivity.
Qed.
Lemma fault_gcd p q n t : prime p -> 2 < q -> n = p * q -> (q | t) -> ~ (n | t) -> Z.gcd t n = q.
Proof.
  intros P Q -> (k & ->) ND. rewrite Z.gcd_mul_mono_r_nonneg by lia. replace (Z.gcd k p) with 1; [lia|]. symmetry. apply Zgcd_1_rel_prime, rel_prime_sym, prime_rel_prime; [exact P|].
  intros (j & ->). apply ND. exists j. ring.
Qed.
Lemma half_root q m e d : prime q -> 2 < q -> 0 < e -> 0 < d -> (q - 1 | e * d - 1) -> cong q ((m ^ d mod q) ^ e) m.
Proof.
  intros Q Q2 E D C. apply cong_trans with ((m ^ d) ^ e); [apply cong_pow, cong_rem; lia|]. rewrite <- Z.pow_mul_r by lia. rewrite (Z.mul_comm d e).
  apply fermat_exp; [exact Q|apply Z.mul_nonneg_nonneg; lia|exact C|apply Z.mul_pos_pos; assumption].
Qed.
(* what follows from one half being right *)
Lemma fault_core (pk : rsa_public) (msg s m' : bytes) (f g n r : Z) : prime f -> 2 < g -> n = f * g -> be (rp_n pk) = n -> Z.odd n = true ->
  n <= 2 ^ rp_size pk -> size_ok (rp_size pk) -> 0 < be (rp_e pk) -> 0 <= be msg < n -> 0 <= r < n -> be s = r -> cong g (r ^ be (rp_e pk)) (be msg) ->
  rsa_unwrap_signature pk s = Ret m' -> be m' <> be msg -> Z.gcd (be m' - be msg) n = g.
Proof.
  intros F G En Ep O L S E M R Es C U NE. assert (NN : 0 < n) by lia.
  unfold rsa_unwrap_signature, rsa_encrypt in U. cbn zeta in U. change bn_of_bytes with be in U. rewrite Ep in U.
  assert (U' : rsa_op (rp_size pk) n (be (rp_e pk)) s = Ret m') by exact U. rewrite rsa_op_exact in U'; [|exact S|exact O|split; assumption|exact E|rewrite Es; apply R].
  pose proof (Z.mod_pos_bound (be s ^ be (rp_e pk)) n NN) as Bm. apply encode_value in U'; [|exact S|clear - Bm L; lia]. rewrite Es in U', Bm.
  apply (fault_gcd f g n); [exact F|exact G|exact En| |].
  - change (cong g (be m') (be msg)). rewrite U'. apply cong_trans with (r ^ be (rp_e pk)); [|exact C]. apply (cong_div g n); [rewrite En; apply Z.divide_factor_r|apply cong_rem; lia].
  - intros D. apply NE. apply (cong_small n); [rewrite U'; exact Bm|exact M|exact D].
Qed.
Definition with_p_half (sk : rsa_private) (d' dp' qinv' : bytes) : rsa_private :=
  RsaPriv (rk_size sk) (rk_n sk) d' (rk_p sk) (rk_q sk) dp' (rk_dq sk) qinv'.
Definition with_q_half (sk : rsa_private) (d' dq' : bytes) : rsa_private :=
  RsaPriv (rk_size sk) (rk_n sk) d' (rk_p sk) (rk_q sk) (rk_dp sk) dq' (rk_qinv sk).
Lemma fault_p sk pk d' dp' qinv' msg s m' : rsa_crt sk -> be (rk_q sk) < be (rk_p sk) ->
  rsa_numbers (be (rk_p sk)) (be (rk_q sk)) (be (rp_e pk)) (be (rk_d sk)) -> be (rp_n pk) = be (rk_n sk) -> rp_size pk = rk_size sk ->
  bytes_ok qinv' -> bytes_ok msg -> rsa_sign_CRT (with_p_half sk d' dp' qinv') msg = Ret s -> rsa_unwrap_signature pk s = Ret m' -> be m' <> be msg ->
  Z.gcd (be m' - be msg) (be (rk_n sk)) = be (rk_q sk).
Proof.
  intros (P & Q & N & P2 & Q2 & En & L & S & D & R1 & R2 & Edp & Edq & I0 & I) Lt (_ & _ & _ & _ & _ & E & _ & _ & Cq) Ep Esz Bi B Sg U NE. pose proof (be_bound msg B) as (M0 & _). pose proof (be_bound qinv' Bi) as (J0 & _).
  set (p := be (rk_p sk)) in *. set (q := be (rk_q sk)) in *. set (n := be (rk_n sk)) in *. set (d := be (rk_d sk)) in *.
  unfold rsa_sign_CRT, rsa_decrypt_CRT in Sg. cbn zeta in Sg. change bn_of_bytes with be in Sg. cbn [with_p_half rk_n rk_p rk_q rk_dp rk_dq rk_qinv rk_size] in Sg. fold p q n in Sg.
  destruct (Z.geb_spec (be msg) n) as [Hm|Hm]; [discriminate Sg|]. unfold bn_mod_power_CRT, bn_mod_power in Sg. rewrite !rem_ok in Sg by lia. cbn [obind] in Sg.
  destruct (z_powm_sec (be msg mod p) (be dp') p) as [mp| | |] eqn:Emp; cbn [obind] in Sg; try discriminate Sg. apply powm_inv in Emp as (_ & Emp); [|lia].
  assert (Bp : 0 <= mp < p) by (rewrite Emp; apply Z.mod_pos_bound; lia). clear Emp.
  pose proof (dp_pos d q Q2 R2) as D2. rewrite Edq, powm_ok in Sg by (assumption || lia || (apply prime_odd; assumption)). cbn [obind] in Sg. rewrite half_power in Sg by assumption.
  set (mq := be msg ^ d mod q) in *. assert (Bq : 0 <= mq < q) by (apply Z.mod_pos_bound; lia).
  assert (Cm : cong q (mq ^ be (rp_e pk)) (be msg)) by (apply half_root; assumption). clearbody mq.
  set (diff := bn_sub_mod mp mq p) in *. assert (Hd : 0 <= diff) by (unfold diff, bn_sub_mod; destruct (Z.ltb_spec (mp - mq) 0); lia). clearbody diff.
  rewrite rem_ok in Sg; [|apply Z.mul_nonneg_nonneg; assumption|clear - P2; lia]. cbn [obind] in Sg. set (h := (diff * be qinv') mod p) in *.
  assert (Bh : 0 <= h < p) by (apply Z.mod_pos_bound; clear - P2; lia). clearbody h.
  assert (Br : 0 <= q * h + mq < n) by (rewrite En; clear - Bh Bq; nia). assert (L' : n <= 2 ^ rk_size sk) by (rewrite En; exact L).
  rewrite encode_ok in Sg; [|exact S|clear - Br L'; lia]. apply encode_value in Sg; [|exact S|clear - Br L'; lia].
  apply (fault_core pk msg s m' p q n (q * h + mq)); try assumption.
  - rewrite En. apply odd_pq; assumption.
  - rewrite Esz. exact L'.
  - rewrite Esz. exact S.
  - clear - M0 Hm. lia.
  - apply cong_trans with (mq ^ be (rp_e pk)); [|exact Cm]. apply cong_pow. exists h. ring.
Qed.
Lemma fault_q sk pk d' dq' msg s m' : rsa_crt sk -> be (rk_q sk) < be (rk_p sk) ->
  rsa_numbers (be (rk_p sk)) (be (rk_q sk)) (be (rp_e pk)) (be (rk_d sk)) -> be (rp_n pk) = be (rk_n sk) -> rp_size pk = rk_size sk ->
  bytes_ok msg -> rsa_sign_CRT (with_q_half sk d' dq') msg = Ret s -> rsa_unwrap_signature pk s = Ret m' -> be m' <> be msg ->
  Z.gcd (be m' - be msg) (be (rk_n sk)) = be (rk_p sk).
Proof.
  intros (P & Q & N & P2 & Q2 & En & L & S & D & R1 & R2 & Edp & Edq & I0 & I) Lt (_ & _ & _ & _ & _ & E & _ & Cp & _) Ep Esz B Sg U NE. pose proof (be_bound msg B) as (M0 & _).
  set (p := be (rk_p sk)) in *. set (q := be (rk_q sk)) in *. set (n := be (rk_n sk)) in *. set (d := be (rk_d sk)) in *.
  unfold rsa_sign_CRT, rsa_decrypt_CRT in Sg. cbn zeta in Sg. change bn_of_bytes with be in Sg. cbn [with_q_half rk_n rk_p rk_q rk_dp rk_dq rk_qinv rk_size] in Sg. fold p q n in Sg.
  destruct (Z.geb_spec (be msg) n) as [Hm|Hm]; [discriminate Sg|]. unfold bn_mod_power_CRT, bn_mod_power in Sg. rewrite !rem_ok in Sg by lia. cbn [obind] in Sg.
  pose proof (dp_pos d p P2 R1) as D1. rewrite Edp in Sg. rewrite (powm_ok (be msg mod p)) in Sg by (assumption || lia || (apply prime_odd; assumption)). cbn [obind] in Sg. rewrite half_power in Sg by assumption.
  destruct (z_powm_sec (be msg mod q) (be dq') q) as [mq| | |] eqn:Emq; cbn [obind] in Sg; try discriminate Sg. apply powm_inv in Emq as (_ & Emq); [|lia].
  assert (Bq : 0 <= mq < q) by (rewrite Emq; apply Z.mod_pos_bound; lia). clear Emq.
  set (mp := be msg ^ d mod p) in *. assert (Bp : 0 <= mp < p) by (apply Z.mod_pos_bound; lia).
  assert (Cm : cong p (mp ^ be (rp_e pk)) (be msg)) by (apply half_root; assumption). clearbody mp.
  set (diff := bn_sub_mod mp mq p) in *. assert (Hd : 0 <= diff /\ cong p diff (mp - mq)).
  { unfold diff, bn_sub_mod. destruct (Z.ltb_spec (mp - mq) 0); (split; [lia|]); [exists 1|exists 0]; ring. }
  destruct Hd as (Hd & Cd). clearbody diff.
  rewrite rem_ok in Sg; [|apply Z.mul_nonneg_nonneg; assumption|clear - P2; lia]. cbn [obind] in Sg. set (h := (diff * be (rk_qinv sk)) mod p) in *.
  assert (Bh : 0 <= h < p) by (apply Z.mod_pos_bound; clear - P2; lia). assert (Ch : cong p h (diff * be (rk_qinv sk))) by (apply cong_rem; clear - P2; lia). clearbody h.
  assert (Br : 0 <= q * h + mq < n) by (rewrite En; clear - Bh Bq; nia). assert (L' : n <= 2 ^ rk_size sk) by (rewrite En; exact L).
  rewrite encode_ok in Sg; [|exact S|clear - Br L'; lia]. apply encode_value in Sg; [|exact S|clear - Br L'; lia].
  apply (fault_core pk msg s m' q p n (q * h + mq)); try assumption.
  - rewrite En. ring.
  - rewrite En. apply odd_pq; assumption.
  - rewrite Esz. exact L'.
  - rewrite Esz. exact S.
  - clear - M0 Hm. lia.
  - apply cong_trans with (mp ^ be (rp_e pk)); [|exact Cm]. apply cong_pow.
    apply cong_trans with (q * (diff * be (rk_qinv sk)) + mq); [apply cong_add; [apply cong_mul; [apply cong_refl|exact Ch]|apply cong_refl]|].
    apply cong_trans with (diff * (q * be (rk_qinv sk)) + mq); [replace (q * (diff * be (rk_qinv sk))) with (diff * (q * be (rk_qinv sk))) by ring; apply cong_refl|].
    apply cong_trans with ((mp - mq) * 1 + mq); [apply cong_add; [apply cong_mul; [exact Cd|exact I]|apply cong_refl]|]. replace ((mp - mq) * 1 + mq) with mp by ring. apply cong_refl.
Qed.
