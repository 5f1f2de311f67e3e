(* Collisions of HMAC. *)
From Verif Require Import Prelude PreludeFacts BytesNum SpecHash SpecMac HashModel HashSpec MacModel HashLib SpecCollide SpecCollide2 Collide MdCollide.

Lemma hmac_key_length d B key : 0 < B -> (forall m, zlen (d m) <= B) -> length (hmac_key d B key) = Z.to_nat B.
Proof.
  intros HB Hd. assert (L : zlen (hmac_key d B key) = B); [|unfold zlen in L; lia]. unfold hmac_key. cbv zeta.
  assert (K : zlen (if zlen key >? B then d key else key) <= B) by (destruct (zlen key >? B) eqn:E; [apply Hd|lia]).
  rewrite zlen_app, zlen_zeros by lia. lia.
Qed.
Lemma xorb_inj a b c : length a = length c -> length b = length c -> xorb a c = xorb b c -> a = b.
Proof. intros Ha Hb E. rewrite <- (xorb_cancel a c Ha), <- (xorb_cancel b c Hb). now rewrite E. Qed.
Lemma hmac_key_inj d B k1 k2 : zlen k1 = zlen k2 -> zlen k1 <= B -> hmac_key d B k1 = hmac_key d B k2 -> k1 = k2.
Proof.
  intros E L. unfold hmac_key. rewrite <- E. assert ((zlen k1 >? B) = false) as -> by lia. cbv zeta. intros H. apply app_head in H; [exact (proj1 H)|unfold zlen in E; lia].
Qed.
Theorem hmac_collide fresh o d B key1 key2 h1 h2 ops1 ops2 : (forall n, 0 <= n -> zlen (fresh n) = n) -> hmac_hash fresh o d B ->
  bytes_ok key1 -> bytes_ok key2 -> zlen key1 <= max_string_length -> zlen key2 <= max_string_length -> hmac_of o B key1 = Ret h1 -> hmac_of o B key2 = Ret h2 ->
  Forall hop_valid ops1 -> Forall hop_valid ops2 -> (key1, added ops1) <> (key2, added ops2) -> key1 = key2 \/ (zlen key1 = zlen key2 /\ zlen key1 <= B) ->
  result_of h1 ops1 = result_of h2 ops2 ->
  exists x y, x <> y /\ d x = d y /\
    ((x = hmac_inner d B key1 (added ops1) /\ y = hmac_inner d B key2 (added ops2)) \/ (x = hmac_outer d B key1 (added ops1) /\ y = hmac_outer d B key2 (added ops2))).
Proof.
  intros Hf HH K1 K2 L1 L2 E1 E2 V1 V2 N K E. destruct (hmac_hash_ok fresh o d B Hf HH) as (HB & _ & Hd & _).
  destruct (hmac_ok fresh o d B key1 Hf HH K1 L1) as (h1' & E1' & _ & C1). rewrite E1 in E1'. apply (f_equal (fun r => match r with Ret x => x | _ => h1 end)) in E1'. cbn in E1'. subst h1'.
  destruct (hmac_ok fresh o d B key2 Hf HH K2 L2) as (h2' & E2' & _ & C2). rewrite E2 in E2'. apply (f_equal (fun r => match r with Ret x => x | _ => h2 end)) in E2'. cbn in E2'. subst h2'.
  destruct (C1 ops1 V1 Logic.I) as (_ & R1 & _). destruct (C2 ops2 V2 Logic.I) as (_ & R2 & _). unfold result_of in E. rewrite R1, R2 in E.
  assert (E' : d (hmac_outer d B key1 (added ops1)) = d (hmac_outer d B key2 (added ops2))) by (unfold hmac_spec in E; cbv zeta in E; unfold hmac_outer, hmac_inner; congruence). clear E R1 R2 C1 C2 E1 E2 h1 h2.
  assert (LK : forall key p, length (xorb (hmac_key d B key) (repeat p (Z.to_nat B))) = Z.to_nat B).
  { intros key p. rewrite xorb_length; rewrite ?repeat_length; apply hmac_key_length; lia || exact Hd. }
  destruct (list_dec (hmac_outer d B key1 (added ops1)) (hmac_outer d B key2 (added ops2))) as [Eo|No].
  2: { eexists _, _. split; [exact No|]. split; [exact E'|]. right. split; reflexivity. }
  unfold hmac_outer in Eo. apply app_head in Eo; [|now rewrite !LK]. destruct Eo as [Ek Ed].
  assert (Kq : key1 = key2).
  { destruct K as [K|[K K']]; [exact K|]. apply (hmac_key_inj d B key1 key2 K K'). revert Ek. apply xorb_inj; rewrite repeat_length; apply hmac_key_length; lia || exact Hd. }
  eexists _, _. split; [|split; [exact Ed|left; split; reflexivity]]. unfold hmac_inner. intros Ei. apply app_head in Ei; [|now rewrite !LK]. apply N. now rewrite Kq, (proj2 Ei).
Qed.
(* a key of less than B bytes and the same key followed by a zero *)
Theorem hmac_same_keys fresh o d B : (forall n, 0 <= n -> zlen (fresh n) = n) -> hmac_hash fresh o d B -> forall key, bytes_ok key -> zlen key < B ->
  exists h1 h2, hmac_of o B key = Ret h1 /\ hmac_of o B (key ++ [0]) = Ret h2 /\ forall ops, Forall hop_valid ops -> result_of h1 ops = result_of h2 ops.
Proof.
  intros Hf HH key K L. destruct (hmac_hash_ok fresh o d B Hf HH) as (HB & _ & _ & _).
  assert (L' : zlen (key ++ [0]) = zlen key + 1) by (rewrite zlen_app; reflexivity).
  destruct (hmac_ok fresh o d B key Hf HH K ltac:(lia)) as (h1 & E1 & _ & C1).
  destruct (hmac_ok fresh o d B (key ++ [0]) Hf HH ltac:(apply bytes_ok_app; split; [exact K|constructor; [unfold byte_ok; lia|constructor]]) ltac:(lia)) as (h2 & E2 & _ & C2).
  exists h1, h2. split; [exact E1|]. split; [exact E2|]. intros ops V. destruct (C1 ops V Logic.I) as (_ & R1 & _). destruct (C2 ops V Logic.I) as (_ & R2 & _). unfold result_of. rewrite R1, R2.
  assert (EK : hmac_key d B key = hmac_key d B (key ++ [0])).
  { unfold hmac_key. assert ((zlen key >? B) = false) as -> by lia. assert ((zlen (key ++ [0]) >? B) = false) as -> by lia. cbv zeta. rewrite L', <- app_assoc. f_equal.
    unfold zeros. replace (Z.to_nat (B - zlen key)) with (S (Z.to_nat (B - (zlen key + 1)))) by lia. reflexivity. }
  unfold hmac_spec. now rewrite EK.
Qed.

Lemma out_dec (x y : out bytes) : {x = y} + {x <> y}.
Proof. decide equality; [apply list_dec|decide equality; decide equality]. Qed.
