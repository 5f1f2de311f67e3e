(* RSA: decryption inverts encryption; Chinese remainders; key generation. *)
From Coq Require Import Zpow_facts Znumtheory.
From Verif Require Import Prelude PreludeFacts BytesNum NumTheory RngModel BnModel Bn PkModel SpecPk.

Lemma prime_odd p : prime p -> 2 < p -> Z.odd p = true.
Proof.
  intros P H. destruct (Z.odd p) eqn:O; [reflexivity|]. exfalso. rewrite <- Z.negb_even in O. apply negb_false_iff in O. apply Z.even_spec in O. destruct O as (k & ->).
  assert (D : (2 | 2 * k)) by (exists k; ring). apply prime_div_prime in D; [lia|exact prime_2|exact P].
Qed.
Lemma odd_pq p q : prime p -> prime q -> 2 < p -> 2 < q -> Z.odd (p * q) = true.
Proof. intros P Q A B. rewrite Z.odd_mul, !prime_odd by assumption. reflexivity. Qed.
(* the result of the encoding *)
Definition encode (size x : Z) : out bytes := if 8 * ((z_numbits x + 63) / 64) <=? (size + 7) / 8 then Ret (to_be (width size) x) else Raise Invalid_argument.
Lemma encode_ok size x : size_ok size -> 0 <= x < 2 ^ size -> bn_to_bytes (Some size) x = encode size x.
Proof. intros (S1 & S2) H. unfold encode, width. fold (z_limbs x). apply to_bytes_some; assumption. Qed.
Lemma encode_aligned size x : aligned size -> size_ok size -> 0 <= x < 2 ^ size -> bn_to_bytes (Some size) x = Ret (to_be (width size) x).
Proof. intros A (S1 & S2) H. apply to_bytes_whole; assumption. Qed.
Lemma be_width size x : size_ok size -> 0 <= x < 2 ^ size -> be (to_be (width size) x) = x.
Proof. intros (S1 & S2) H. apply be_some; assumption. Qed.

(* ---- modular powers ---- *)
Definition rsa_op (size n e : Z) (msg : bytes) : out bytes :=
  if be msg >=? n then Raise (Error Message_too_long) else olet r := bn_mod_power (be msg) e n in bn_to_bytes (Some size) r.
Lemma rsa_op_ok size n e msg : aligned size -> size_ok size -> Z.odd n = true -> 0 < n <= 2 ^ size -> 0 < e -> be msg < n ->
  rsa_op size n e msg = Ret (to_be (width size) ((be msg) ^ e mod n)).
Proof.
  intros A S O N E M. unfold rsa_op. replace (be msg >=? n) with false by lia. unfold bn_mod_power. rewrite powm_ok by (assumption || lia). cbn [obind]. apply encode_aligned; [exact A|exact S|].
  pose proof (Z.mod_pos_bound (be msg ^ e) n ltac:(lia)). lia.
Qed.
Lemma rsa_op_exact size n e msg : size_ok size -> Z.odd n = true -> 0 < n <= 2 ^ size -> 0 < e -> be msg < n -> rsa_op size n e msg = encode size ((be msg) ^ e mod n).
Proof.
  intros S O N E M. unfold rsa_op. replace (be msg >=? n) with false by lia. unfold bn_mod_power. rewrite powm_ok by (assumption || lia). cbn [obind]. apply encode_ok; [exact S|].
  pose proof (Z.mod_pos_bound (be msg ^ e) n ltac:(lia)). lia.
Qed.
Lemma rsa_op_twice size p q e d msg : rsa_numbers p q e d -> aligned size -> size_ok size -> p * q <= 2 ^ size -> bytes_ok msg -> be msg < p * q ->
  exists c, rsa_op size (p * q) e msg = Ret c /\ length c = width size /\ rsa_op size (p * q) d c = Ret (to_be (width size) (be msg)).
Proof.
  intros (P & Q & N & P2 & Q2 & E & D & C1 & C2) A S L B M. pose proof (be_bound msg B) as (M0 & _). assert (NN : 0 < p * q <= 2 ^ size) by (split; [apply Z.mul_pos_pos; lia|exact L]). pose proof (odd_pq p q P Q P2 Q2) as O.
  exists (to_be (width size) (be msg ^ e mod (p * q))). pose proof (Z.mod_pos_bound (be msg ^ e) (p * q) (proj1 NN)) as Bd.
  split; [apply rsa_op_ok; assumption|]. split; [apply length_to_be|]. assert (X2 : 0 <= be msg ^ e mod (p * q) < 2 ^ size) by (clear - Bd NN; lia).
  pose proof (be_width size _ S X2) as Ec. rewrite rsa_op_ok; [|exact A|exact S|exact O|exact NN|exact D|rewrite Ec; apply Bd]. rewrite Ec. do 2 f_equal.
  assert (NZ : p * q <> 0) by (clear - NN; lia).
  assert (G : cong (p * q) ((be msg ^ e) ^ d) (be msg)) by (apply rsa_inverse; [exact P|exact Q|exact N|clear - E; lia|clear - D; lia|apply Z.mul_pos_pos; assumption|exact C1|exact C2]).
  transitivity ((be msg ^ e) ^ d mod (p * q)).
  - apply cong_mod; [exact NZ|]. apply cong_pow. apply cong_rem. exact NZ.
  - apply cong_mod in G; [|exact NZ]. rewrite G. apply Z.mod_small. split; assumption.
Qed.
Lemma rsa_numbers_swap p q e d : rsa_numbers p q e d -> rsa_numbers p q d e.
Proof. intros (P & Q & N & P2 & Q2 & E & D & C1 & C2). unfold rsa_numbers. rewrite (Z.mul_comm d e). tauto. Qed.
Lemma rsa_roundtrip sk pk msg : rsa_pair sk pk -> aligned (rp_size pk) -> bytes_ok msg -> be msg < be (rp_n pk) ->
  (exists c, rsa_encrypt pk msg = Ret c /\ length c = width (rp_size pk) /\ rsa_decrypt sk c = Ret (to_be (width (rp_size pk)) (be msg))) /\
  (exists c, rsa_sign sk msg = Ret c /\ length c = width (rp_size pk) /\ rsa_unwrap_signature pk c = Ret (to_be (width (rp_size pk)) (be msg))).
Proof.
  intros (p & q & N & E1 & E2 & E3 & L & S) A B M. rewrite E1 in M. unfold rsa_sign, rsa_unwrap_signature, rsa_encrypt, rsa_decrypt. cbn zeta. change bn_of_bytes with be. rewrite E1, E2, E3. split.
  - exact (rsa_op_twice _ p q _ _ msg N A S L B M).
  - exact (rsa_op_twice _ p q _ _ msg (rsa_numbers_swap _ _ _ _ N) A S L B M).
Qed.
Lemma rsa_exact sk pk msg : rsa_pair sk pk -> bytes_ok msg ->
  rsa_encrypt pk msg = (if be msg >=? be (rp_n pk) then Raise (Error Message_too_long) else encode (rp_size pk) ((be msg) ^ be (rp_e pk) mod be (rp_n pk))) /\
  rsa_decrypt sk msg = (if be msg >=? be (rk_n sk) then Raise (Error Message_too_long) else encode (rk_size sk) ((be msg) ^ be (rk_d sk) mod be (rk_n sk))).
Proof.
  intros (p & q & (P & Q & NE & P2 & Q2 & E & D & _) & E1 & E2 & E3 & L & S) B. pose proof (odd_pq p q P Q P2 Q2) as O. assert (NN : 0 < p * q <= 2 ^ rp_size pk) by (split; [apply Z.mul_pos_pos; lia|exact L]). unfold rsa_encrypt, rsa_decrypt. cbn zeta. change bn_of_bytes with be. rewrite E1, E2, E3.
  split; (destruct (be msg >=? p * q) eqn:G; [reflexivity|]).
  - rewrite <- (rsa_op_exact _ (p * q)) by (assumption || lia). unfold rsa_op. rewrite G. reflexivity.
  - rewrite <- (rsa_op_exact _ (p * q)) by (assumption || lia). unfold rsa_op. rewrite G. reflexivity.
Qed.

(* ---- Chinese remainders ---- *)
Lemma dp_pos d p : 2 < p -> rel_prime d (p - 1) -> 0 < d mod (p - 1).
Proof.
  intros P R. pose proof (Z.mod_pos_bound d (p - 1) ltac:(lia)) as B. destruct (Z.eq_dec (d mod (p - 1)) 0) as [E|E]; [|lia]. apply Z.mod_divide in E; [|lia]. destruct R as [_ _ R]. specialize (R (p - 1) E (Z.divide_refl _)).
  apply Z.divide_1_r in R. lia.
Qed.
(* powers depend on the exponent modulo p - 1 *)
Lemma pow_exp_mod p a d : prime p -> 2 < p -> 0 < d mod (p - 1) -> 0 < d -> cong p (a ^ (d mod (p - 1))) (a ^ d).
Proof.
  intros P P2 D D0. destruct (Zdivide_dec p a) as [Dv|Dv].
  - assert (Z0 : forall k, 0 < k -> cong p (a ^ k) 0).
    { intros k K. unfold cong. rewrite Z.sub_0_r. replace k with (Z.succ (k - 1)) by lia. rewrite Z.pow_succ_r by lia. apply Z.divide_mul_l. exact Dv. }
    apply cong_trans with 0; [apply Z0; exact D|apply cong_sym, Z0; exact D0].
  - set (r := d mod (p - 1)) in *. assert (E : d = (p - 1) * (d / (p - 1)) + r) by (apply Z.div_mod; lia). assert (Q : 0 <= d / (p - 1)) by (apply Z.div_pos; lia). rewrite E at 1. rewrite Z.pow_add_r by nia.
    apply cong_trans with (1 * a ^ r); [rewrite Z.mul_1_l; apply cong_refl|]. apply cong_sym, cong_mul; [|apply cong_refl]. apply fermat_multiple; [exact P|exact Dv|nia|]. apply Z.divide_factor_l.
Qed.
Lemma crt_value p q a d dp dq qinv : prime p -> prime q -> q < p -> 2 < p -> 2 < q -> 0 <= a -> 0 < d -> rel_prime d (p - 1) -> rel_prime d (q - 1) ->
  dp = d mod (p - 1) -> dq = d mod (q - 1) -> 0 <= qinv -> (p | q * qinv - 1) -> bn_mod_power_CRT a p q dp dq qinv = Ret (a ^ d mod (p * q)).
Proof.
  intros P Q L P2 Q2 A D R1 R2 -> -> I0 I. pose proof (dp_pos d p P2 R1) as D1. pose proof (dp_pos d q Q2 R2) as D2. unfold bn_mod_power_CRT, bn_mod_power. rewrite !rem_ok by lia. cbn [obind].
  rewrite !powm_ok by (assumption || lia || (apply prime_odd; assumption)). cbn [obind]. set (mp := (a mod p) ^ (d mod (p - 1)) mod p). set (mq := (a mod q) ^ (d mod (q - 1)) mod q).
  assert (Bp : 0 <= mp < p) by (apply Z.mod_pos_bound; lia). assert (Bq : 0 <= mq < q) by (apply Z.mod_pos_bound; lia).
  assert (Cp : cong p mp (a ^ d)).
  { unfold mp. apply cong_trans with ((a mod p) ^ (d mod (p - 1))); [apply cong_rem; lia|]. apply cong_trans with (a ^ (d mod (p - 1))); [apply cong_pow, cong_rem; lia|]. apply pow_exp_mod; assumption. }
  assert (Cq : cong q mq (a ^ d)).
  { unfold mq. apply cong_trans with ((a mod q) ^ (d mod (q - 1))); [apply cong_rem; lia|]. apply cong_trans with (a ^ (d mod (q - 1))); [apply cong_pow, cong_rem; lia|]. apply pow_exp_mod; assumption. }
  clearbody mp mq. clear D1 D2. set (diff := bn_sub_mod mp mq p). assert (Hd : 0 <= diff < p /\ cong p diff (mp - mq)).
  { unfold diff, bn_sub_mod. destruct (Z.ltb_spec (mp - mq) 0); (split; [clear - L Bp Bq H; lia|]); [exists 1|exists 0]; ring. }
  destruct Hd as (Hd1 & Hd2). clearbody diff. rewrite rem_ok; [|apply Z.mul_nonneg_nonneg; [apply Hd1|exact I0]|clear - P2; lia]. cbn [obind]. f_equal. set (h := (diff * qinv) mod p). assert (Bh : 0 <= h < p) by (apply Z.mod_pos_bound; clear - P2; lia).
  assert (Hh : cong p h (diff * qinv)) by (apply cong_rem; clear - P2; lia). clearbody h.
  assert (N : 0 < p * q) by (apply Z.mul_pos_pos; lia). apply (cong_small (p * q)); [clear - Bh Bq; nia|apply Z.mod_pos_bound; exact N|]. apply cong_trans with (a ^ d); [|apply cong_sym, cong_rem; clear - N; lia].
  apply crt_cong; [apply primes_coprime; [exact P|exact Q|lia]| |].
  - apply cong_trans with (q * (diff * qinv) + mq); [apply cong_add; [apply cong_mul; [apply cong_refl|exact Hh]|apply cong_refl]|].
    apply cong_trans with (diff * (q * qinv) + mq); [replace (q * (diff * qinv)) with (diff * (q * qinv)) by ring; apply cong_refl|].
    apply cong_trans with ((mp - mq) * 1 + mq); [apply cong_add; [apply cong_mul; [exact Hd2|exact I]|apply cong_refl]|]. replace ((mp - mq) * 1 + mq) with mp by ring. exact Cp.
  - apply cong_trans with mq; [|exact Cq]. exists h. ring.
Qed.
Lemma rsa_crt_ok sk msg : rsa_crt sk -> be (rk_q sk) < be (rk_p sk) -> bytes_ok msg -> rsa_decrypt_CRT sk msg = rsa_decrypt sk msg /\ rsa_sign_CRT sk msg = rsa_sign sk msg.
Proof.
  intros (P & Q & N & P2 & Q2 & En & L & S & D & R1 & R2 & Edp & Edq & I0 & I) Lt B. pose proof (be_bound msg B) as (M0 & _). unfold rsa_sign_CRT, rsa_sign.
  assert (G : rsa_decrypt_CRT sk msg = rsa_decrypt sk msg); [|split; exact G]. unfold rsa_decrypt_CRT, rsa_decrypt. cbn zeta. change bn_of_bytes with be. destruct (be msg >=? be (rk_n sk)); [reflexivity|].
  rewrite (crt_value _ _ _ (be (rk_d sk))) by assumption. unfold bn_mod_power. rewrite powm_ok; [|exact D|rewrite En; apply odd_pq; assumption|rewrite En; nia]. rewrite En. reflexivity.
Qed.
