(* Proofs for C110 and C111. *)
From Coq Require Import Zpow_facts Znumtheory.
From Verif Require Import Prelude PreludeFacts BytesNum NumTheory RngModel BnModel Bn PkModel SpecPk Pk Pk2.

Lemma pair_n sk pk : rsa_pair sk pk -> 0 < be (rp_n pk) <= 2 ^ rp_size pk /\ be (rk_n sk) = be (rp_n pk) /\ Z.odd (be (rp_n pk)) = true /\
  0 < be (rp_e pk) /\ 0 < be (rk_d sk) /\ size_ok (rp_size pk) /\ rk_size sk = rp_size pk.
Proof.
  intros (p & q & (P & Q & NE & P2 & Q2 & E & D & _) & E1 & E2 & E3 & L & S). rewrite E1, E2. splits; try assumption; try reflexivity.
  - apply Z.mul_pos_pos; lia.
  - apply odd_pq; assumption.
Qed.

Lemma enc_value sk pk m : rsa_pair sk pk -> aligned (rp_size pk) -> be m < be (rp_n pk) ->
  exists c, rsa_encrypt pk m = Ret c /\ bytes_ok c /\ be c = be m ^ be (rp_e pk) mod be (rp_n pk).
Proof.
  intros K A M. destruct (pair_n sk pk K) as (N & E & O & He & Hd & S & W). exists (to_be (width (rp_size pk)) (be m ^ be (rp_e pk) mod be (rp_n pk))).
  split; [exact (rsa_op_ok (rp_size pk) (be (rp_n pk)) (be (rp_e pk)) m A S O N He M)|]. split; [apply bytes_ok_to_be|].
  apply be_width; [exact S|]. pose proof (Z.mod_pos_bound (be m ^ be (rp_e pk)) (be (rp_n pk)) (proj1 N)). lia.
Qed.
Lemma dec_value sk pk m : rsa_pair sk pk -> aligned (rp_size pk) -> be m < be (rp_n pk) ->
  exists c, rsa_decrypt sk m = Ret c /\ bytes_ok c /\ be c = be m ^ be (rk_d sk) mod be (rp_n pk).
Proof.
  intros K A M. destruct (pair_n sk pk K) as (N & E & O & He & Hd & S & W). exists (to_be (width (rp_size pk)) (be m ^ be (rk_d sk) mod be (rp_n pk))).
  split; [unfold rsa_decrypt; cbn zeta; change bn_of_bytes with be; rewrite E, W; exact (rsa_op_ok (rp_size pk) (be (rp_n pk)) (be (rk_d sk)) m A S O N Hd M)|]. split; [apply bytes_ok_to_be|].
  apply be_width; [exact S|]. pose proof (Z.mod_pos_bound (be m ^ be (rk_d sk)) (be (rp_n pk)) (proj1 N)). lia.
Qed.

Lemma pow_product n a b e : n <> 0 -> 0 <= e -> (a * b mod n) ^ e mod n = (a ^ e mod n) * (b ^ e mod n) mod n.
Proof.
  intros N E. transitivity ((a * b) ^ e mod n); [apply cong_mod; [exact N|]; apply cong_pow, cong_rem; exact N|].
  rewrite Z.pow_mul_l. apply Zmult_mod.
Qed.

Lemma decrypt_product sk pk m1 m2 c1 c2 c : rsa_pair sk pk -> aligned (rp_size pk) -> bytes_ok m1 -> bytes_ok m2 -> be m1 < be (rp_n pk) -> be m2 < be (rp_n pk) ->
  rsa_encrypt pk m1 = Ret c1 -> rsa_encrypt pk m2 = Ret c2 -> be c = be c1 * be c2 mod be (rp_n pk) ->
  exists r, rsa_decrypt sk c = Ret r /\ be r = be m1 * be m2 mod be (rp_n pk).
Proof.
  intros K A B1 B2 M1 M2 E1 E2 E. destruct (pair_n sk pk K) as (N & _ & _ & _ & Hd & S & _). set (n := be (rp_n pk)) in *.
  pose proof (Z.mod_pos_bound (be c1 * be c2) n (proj1 N)) as Bd.
  destruct (dec_value sk pk c K A) as (r & Er & _ & Vr); [fold n; rewrite E; apply Bd|]. exists r. split; [exact Er|]. fold n in Vr. rewrite Vr, E.
  rewrite pow_product by (clear - N Hd; lia).
  assert (R : forall m c, bytes_ok m -> be m < n -> rsa_encrypt pk m = Ret c -> be c ^ be (rk_d sk) mod n = be m).
  { intros m c' B M Ec. destruct (proj1 (rsa_roundtrip sk pk m K A B M)) as (c'' & Ec' & _ & D). assert (c'' = c') by congruence. subst c''.
    destruct (enc_value sk pk m K A M) as (c'' & Ec'' & _ & V). assert (c'' = c') by congruence. subst c''.
    destruct (dec_value sk pk c' K A) as (r' & Er' & _ & Vr'); [rewrite V; apply Z.mod_pos_bound; apply N|].
    fold n in Vr'. rewrite <- Vr'. rewrite D in Er'. injection Er' as <-. apply be_width; [exact S|]. split; [apply (be_bound m B)|]. apply Z.lt_le_trans with n; [exact M|apply N]. }
  rewrite (R m1 c1), (R m2 c2) by assumption. reflexivity.
Qed.

Lemma sign_product sk pk m1 m2 s1 s2 m : rsa_pair sk pk -> aligned (rp_size pk) -> be m1 < be (rp_n pk) -> be m2 < be (rp_n pk) ->
  rsa_sign sk m1 = Ret s1 -> rsa_sign sk m2 = Ret s2 -> be m = be m1 * be m2 mod be (rp_n pk) ->
  exists s, rsa_sign sk m = Ret s /\ be s = be s1 * be s2 mod be (rp_n pk).
Proof.
  intros K A M1 M2 E1 E2 E. destruct (pair_n sk pk K) as (N & _ & _ & _ & Hd & S & _). set (n := be (rp_n pk)) in *.
  pose proof (Z.mod_pos_bound (be m1 * be m2) n (proj1 N)) as Bd. unfold rsa_sign in *.
  destruct (dec_value sk pk m K A) as (r & Er & _ & Vr); [fold n; rewrite E; apply Bd|]. exists r. split; [exact Er|]. fold n in Vr. rewrite Vr, E, pow_product by (clear - N Hd; lia).
  destruct (dec_value sk pk m1 K A M1) as (x1 & Ex1 & _ & V1). destruct (dec_value sk pk m2 K A M2) as (x2 & Ex2 & _ & V2).
  fold n in V1, V2. rewrite <- V1, <- V2. congruence.
Qed.

Lemma any_signature sk pk s : rsa_pair sk pk -> aligned (rp_size pk) -> bytes_ok s -> be s < be (rp_n pk) ->
  exists m, rsa_unwrap_signature pk s = Ret m /\ exists s', rsa_sign sk m = Ret s' /\ be s' = be s.
Proof.
  intros K A B M. destruct (proj1 (rsa_roundtrip sk pk s K A B M)) as (c & Ec & _ & D). exists c. split; [exact Ec|]. eexists. split; [exact D|].
  destruct (pair_n sk pk K) as (N & _ & _ & _ & _ & S & _). apply be_width; [exact S|]. split; [apply (be_bound s B)|]. apply Z.lt_le_trans with (be (rp_n pk)); [exact M|apply N].
Qed.

Lemma guess sk pk m m' c : rsa_pair sk pk -> aligned (rp_size pk) -> bytes_ok m -> bytes_ok m' -> be m < be (rp_n pk) -> rsa_encrypt pk m = Ret c ->
  (rsa_encrypt pk m' = Ret c <-> be m' = be m).
Proof.
  intros K A B B' M E. destruct (pair_n sk pk K) as (N & _ & _ & _ & _ & S & _).
  assert (Big : be m' >= be (rp_n pk) -> rsa_encrypt pk m' = Raise (Error Message_too_long)).
  { intros G. unfold rsa_encrypt. cbn zeta. change bn_of_bytes with be. replace (be m' >=? be (rp_n pk)) with true by lia. reflexivity. }
  pose proof (be_bound m B) as (M0 & _). pose proof (be_bound m' B') as (M0' & _). split; intros H.
  - assert (M' : be m' < be (rp_n pk)). { destruct (Z_lt_ge_dec (be m') (be (rp_n pk))); [assumption|]. rewrite Big in H by assumption. discriminate. }
    destruct (proj1 (rsa_roundtrip sk pk m K A B M)) as (c1 & E1 & _ & D1). destruct (proj1 (rsa_roundtrip sk pk m' K A B' M')) as (c2 & E2 & _ & D2).
    assert (c1 = c2) by congruence. subst c2. rewrite D1 in D2. injection D2 as D2. apply (f_equal be) in D2. rewrite !be_width in D2 by (assumption || (clear - N M M' M0 M0'; lia)). congruence.
  - rewrite <- E. unfold rsa_encrypt. cbn zeta. change bn_of_bytes with be. rewrite H. reflexivity.
Qed.

(* ---- Diffie-Hellman ---- *)
Lemma dh_any pr x m : dh_ok pr -> 0 < x -> exists k, snd (dh_shared_secret pr x m) = Ret k /\ zlen k = zlen (dh_p pr) /\ be k = be m ^ x mod be (dh_p pr).
Proof.
  intros H X. exists (to_be (length (dh_p pr)) (be m ^ x mod be (dh_p pr))). unfold dh_shared_secret. change bn_of_bytes with be. rewrite dh_pow by assumption. cbn [snd].
  split; [reflexivity|]. split; [unfold zlen; rewrite length_to_be; reflexivity|]. destruct H as ((B & _) & _ & _ & P). apply be_len; [exact B|]. apply Z.mod_pos_bound. exact P.
Qed.
Lemma dh_order pr x m q k : dh_ok pr -> 0 < x -> 0 < q -> be m ^ q mod be (dh_p pr) = 1 mod be (dh_p pr) -> snd (dh_shared_secret pr x m) = Ret k ->
  be k = be m ^ (x mod q) mod be (dh_p pr).
Proof.
  intros H X Q O E. destruct (dh_any pr x m H X) as (k' & E' & _ & V). assert (k' = k) by congruence. subst k'. rewrite V.
  destruct H as (_ & _ & _ & P). set (p := be (dh_p pr)) in *. assert (NZ : p <> 0) by lia.
  pose proof (Z.mod_pos_bound x q Q) as Bq. pose proof (Z.div_pos x q ltac:(lia) Q) as Dq.
  rewrite (Z.div_mod x q) at 1 by lia. rewrite Z.pow_add_r by (lia || nia). rewrite Z.pow_mul_r by lia.
  rewrite Zmult_mod. assert (G : (be m ^ q) ^ (x / q) mod p = 1 mod p).
  { transitivity (1 ^ (x / q) mod p); [|rewrite Z.pow_1_l by lia; reflexivity]. apply cong_mod; [exact NZ|]. apply cong_pow. apply cong_mod; assumption. }
  rewrite G, <- Zmult_mod, Z.mul_1_l. reflexivity.
Qed.
Lemma dh_fixed pr x m : dh_ok pr -> 0 < x -> 2 < be (dh_p pr) -> exists k, snd (dh_shared_secret pr x m) = Ret k /\
  (be m mod be (dh_p pr) = 0 -> be k = 0) /\ (be m mod be (dh_p pr) = 1 -> be k = 1) /\
  (be m mod be (dh_p pr) = be (dh_p pr) - 1 -> be k = if Z.even x then 1 else be (dh_p pr) - 1).
Proof.
  intros H X P2. destruct (dh_any pr x m H X) as (k & E & _ & V). exists k. split; [exact E|]. rewrite V. set (p := be (dh_p pr)) in *. assert (NZ : p <> 0) by lia.
  assert (R : forall a, be m mod p = a mod p -> be m ^ x mod p = a ^ x mod p).
  { intros a Ha. apply cong_mod; [exact NZ|]. apply cong_pow. apply cong_mod; assumption. }
  splits; intros Hm.
  - rewrite (R 0) by (rewrite Hm, Z.mod_0_l; lia). rewrite Z.pow_0_l by lia. apply Z.mod_0_l. lia.
  - rewrite (R 1) by (rewrite Hm, Z.mod_small; lia). rewrite Z.pow_1_l by lia. apply Z.mod_small. lia.
  - rewrite (R (-1)). 2:{ rewrite Hm. rewrite <- (Z_mod_plus_full (-1) 1 p). rewrite Z.mod_small; lia. }
    destruct (Z.even x) eqn:Ex.
    + apply Z.even_spec in Ex. destruct Ex as (h & ->). rewrite Z.pow_mul_r by lia. change ((-1) ^ 2) with 1. rewrite Z.pow_1_l by lia. apply Z.mod_small. lia.
    + rewrite <- Z.negb_odd in Ex. apply negb_false_iff in Ex. apply Z.odd_spec in Ex. destruct Ex as (h & ->). rewrite Z.pow_add_r, Z.pow_mul_r by lia.
      change ((-1) ^ 2) with 1. rewrite Z.pow_1_l by lia. change (1 * (-1) ^ 1) with (-1). rewrite <- (Z_mod_plus_full (-1) 1 p). rewrite Z.mod_small; lia.
Qed.
Lemma dh_product pr x m1 m2 m k1 k2 : dh_ok pr -> 0 < x -> be m mod be (dh_p pr) = be m1 * be m2 mod be (dh_p pr) ->
  snd (dh_shared_secret pr x m1) = Ret k1 -> snd (dh_shared_secret pr x m2) = Ret k2 ->
  exists k, snd (dh_shared_secret pr x m) = Ret k /\ be k = be k1 * be k2 mod be (dh_p pr).
Proof.
  intros H X Hm E1 E2. destruct (dh_any pr x m H X) as (k & E & _ & V). exists k. split; [exact E|].
  destruct (dh_any pr x m1 H X) as (k1' & E1' & _ & V1). destruct (dh_any pr x m2 H X) as (k2' & E2' & _ & V2).
  assert (k1' = k1) by congruence. assert (k2' = k2) by congruence. subst k1' k2'. rewrite V, V1, V2. destruct H as (_ & _ & _ & P).
  set (p := be (dh_p pr)) in *. rewrite <- pow_product by lia. apply cong_mod; [lia|]. apply cong_pow. apply cong_mod; [lia|]. rewrite Zmod_mod. exact Hm.
Qed.
