(* Lemmas for C57_exact and C57_agree: the results of DH.message and DH.shared_secret
   for all parameters, secrets and messages. *)
From Coq Require Import Znumtheory.
From Verif Require Import Prelude PreludeFacts BytesNum NumTheory RngModel BnModel Bn PkModel SpecPk Pk Pk2.

Lemma dh_out p b x : str_ok p ->
  (olet r := bn_mod_power b x (be p) in bn_to_bytes (Some (zlen p * 8)) r) =
  if (x <=? 0) || Z.even (be p) then Raise Invalid_argument else encode (zlen p * 8) (b ^ x mod be p).
Proof.
  intros S. destruct (str_size _ S) as (Sz & E & W & Bd). unfold bn_mod_power. destruct (Z.leb_spec x 0) as [X|X].
  - rewrite powm_fail by (left; lia). reflexivity.
  - cbn [orb]. rewrite <- Z.negb_odd. destruct (Z.odd (be p)) eqn:O; cbn [negb].
    + assert (P : be p <> 0) by (intros E'; rewrite E' in O; discriminate). rewrite powm_ok by (assumption || lia). cbn [obind].
      pose proof (Z.mod_pos_bound (b ^ x) (be p) ltac:(lia)) as M. apply encode_ok; [exact Sz|lia].
    + rewrite powm_fail by (right; exact O). reflexivity.
Qed.

Lemma dh_results pr x m : str_ok (dh_p pr) ->
  let p := be (dh_p pr) in
  let answer b := if (x <=? 0) || Z.even p then Raise Invalid_argument else encode (zlen (dh_p pr) * 8) (b ^ x mod p) in
  dh_message pr x = answer (be (dh_g pr)) /\ snd (dh_shared_secret pr x m) = answer (be m) /\
  fst (dh_shared_secret pr x m) = match answer (be m) with Ret _ => if x <? 2 ^ 62 then x else 0 | _ => x end.
Proof.
  intros S p answer. unfold dh_message, dh_shared_secret. change bn_of_bytes with be. rewrite !dh_out by exact S. fold p. split; [reflexivity|].
  change (if (x <=? 0) || Z.even p then Raise Invalid_argument else encode (zlen (dh_p pr) * 8) (be m ^ x mod p)) with (answer (be m)).
  destruct (answer (be m)) eqn:A; cbn [fst snd]; try (split; reflexivity). split; [reflexivity|].
  unfold answer in A. destruct (Z.leb_spec x 0); [discriminate|]. unfold z_wipe. replace (- 2 ^ 62 <=? x) with true by lia. reflexivity.
Qed.

(* a returned value: the parameters and the secret were acceptable *)
Lemma dh_ret pr x b k : str_ok (dh_p pr) ->
  (if (x <=? 0) || Z.even (be (dh_p pr)) then Raise Invalid_argument else encode (zlen (dh_p pr) * 8) (b ^ x mod be (dh_p pr))) = Ret k ->
  0 < x /\ 0 < be (dh_p pr) /\ k = to_be (length (dh_p pr)) (b ^ x mod be (dh_p pr)) /\ be k = b ^ x mod be (dh_p pr).
Proof.
  intros S H. destruct (str_size _ S) as (Sz & E & W & Bd). destruct (Z.leb_spec x 0) as [|X]; [discriminate|]. cbn [orb] in H. destruct (Z.even (be (dh_p pr))) eqn:Ev; [discriminate|].
  assert (P : be (dh_p pr) <> 0) by (intros E'; rewrite E' in Ev; discriminate). unfold encode in H. destruct (_ <=? _) in H; [|discriminate]. injection H as <-. rewrite W.
  splits; [exact X|lia|reflexivity|]. apply be_len; [apply S|]. apply Z.mod_pos_bound. lia.
Qed.

Lemma dh_agree_any pr x y mx my k k' : str_ok (dh_p pr) -> dh_message pr x = Ret mx -> dh_message pr y = Ret my ->
  snd (dh_shared_secret pr x my) = Ret k -> snd (dh_shared_secret pr y mx) = Ret k' ->
  k = k' /\ zlen k = zlen (dh_p pr) /\ be k = be (dh_g pr) ^ (x * y) mod be (dh_p pr).
Proof.
  intros S Mx My Kx Ky. destruct (dh_results pr x my S) as (E1 & E2 & _). destruct (dh_results pr y mx S) as (E3 & E4 & _). cbv zeta beta in *.
  rewrite Mx in E1. rewrite My in E3. rewrite Kx in E2. rewrite Ky in E4. symmetry in E1, E2, E3, E4. apply dh_ret in E1, E2, E3, E4; try exact S.
  destruct E1 as (X & P & _ & B1). destruct E3 as (Y & _ & _ & B3). destruct E2 as (_ & _ & K1 & B2). destruct E4 as (_ & _ & K2 & B4). rewrite B3 in *. rewrite B1 in *.
  set (p := be (dh_p pr)) in *. set (g := be (dh_g pr)) in *.
  assert (W : forall a b, 0 < a -> 0 < b -> (g ^ b mod p) ^ a mod p = g ^ (a * b) mod p).
  { intros a b A B. apply cong_mod; [lia|]. rewrite Z.mul_comm, Z.pow_mul_r by lia. apply cong_pow, cong_rem. lia. }
  rewrite (W x y X Y) in *. rewrite (W y x Y X) in *. rewrite (Z.mul_comm y x) in *. splits.
  - rewrite K1, K2. reflexivity.
  - rewrite K1. unfold zlen. rewrite length_to_be. reflexivity.
  - exact B2.
Qed.
