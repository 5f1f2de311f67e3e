(* HMAC objects compute RFC 2104. *)
From Verif Require Import Prelude PreludeFacts SpecBlock SpecMac HashModel HashSpec HashFacts MdHash BlockModel MacModel.

Lemma xorb_repeat_0 x n : xorb (repeat 0 n) (repeat x n) = repeat x n.
Proof. induction n as [|n IH]; [reflexivity|]. cbn [repeat]. rewrite xorb_cons, IH. reflexivity. Qed.
Lemma bytes_ok_repeat x n : byte_ok x -> bytes_ok (repeat x n).
Proof. intros H. apply Forall_forall. intros y Hy. apply repeat_spec in Hy. subst. assumption. Qed.

Section Hmac.
Variables (H : hash) (new : h_st H) (B : Z) (P : bytes -> Prop) (d : bytes -> bytes) (R : h_st H -> bytes -> Prop).
Hypothesis HB : 0 < B <= max_string_length.
Hypothesis I : himpl P H (fun m => Ret (d m)) R.
Hypothesis R0 : R new [].
Hypothesis d_len : forall m, zlen (d m) <= B.
Hypothesis d_ok : forall m, bytes_ok (d m).
Variable key : bytes.
Hypothesis key_ok : bytes_ok key.
Hypothesis key_len : zlen key <= max_string_length.
Hypothesis P_key : P key.
Hypothesis P_outer : forall x y, zlen x = B -> P (x ++ d y).

Definition hpad (byte : Z) : bytes := xorb (hmac_key d B key) (repeat byte (Z.to_nat B)).

Lemma hmac_key_ok : bytes_ok (hmac_key d B key) /\ zlen (hmac_key d B key) = B.
Proof using HB d_len d_ok key_ok. clear P_outer.
  unfold hmac_key. set (k := if zlen key >? B then d key else key). assert (Hk : bytes_ok k /\ zlen k <= B).
  { unfold k. destruct (zlen key >? B) eqn:E; [auto|]. split; [assumption|lia]. }
  clearbody k. split; [apply bytes_ok_app; split; [tauto|apply bytes_ok_zeros]|]. rewrite zlen_app, zlen_zeros by lia. lia.
Qed.
Lemma hpad_ok byte : byte_ok byte -> bytes_ok (hpad byte) /\ zlen (hpad byte) = B.
Proof using HB d_len d_ok key_ok. clear P_outer.
  intros Hb. destruct hmac_key_ok as (H1 & H2). unfold hpad. split; [apply bytes_ok_xorb; [assumption|apply bytes_ok_repeat; assumption]|].
  rewrite zlen_xorb by (rewrite H2, zlen_repeat; lia). exact H2.
Qed.
Lemma hmac_pad_ok byte : hmac_pad H new B key byte = Ret (hpad byte).
Proof.
  unfold hmac_pad, hpad, hmac_key. set (r := repeat byte (Z.to_nat B)). assert (Hr : zlen r = B) by (unfold r; rewrite zlen_repeat; lia).
  assert (E : (if zlen key >? B then snd (hash_string H new key) else Ret key) = Ret (if zlen key >? B then d key else key)).
  { destruct (zlen key >? B); [|reflexivity]. exact (himpl_string _ _ _ _ new [] key I R0 key_ok key_len P_key). }
  rewrite E. cbn [obind]. set (k := if zlen key >? B then d key else key).
  assert (Hk : zlen k <= B) by (unfold k; destruct (zlen key >? B) eqn:?; [apply d_len|lia]). pose proof (zlen_nonneg k) as Hk0. unfold xor_bytes.
  assert (in_range k 0 (zlen k) && in_range r 0 (zlen k) = true) as -> by (apply andb_true_iff; rewrite !in_range_true; lia).
  f_equal. rewrite sub_0_all by reflexivity. rewrite splice_0. replace (xorb (k ++ zeros (B - zlen k)) r) with (xorb (k ++ zeros (B - zlen k)) (firstn (length k) r ++ skipn (length k) r)) by (rewrite firstn_skipn; reflexivity).
  assert (E1 : sub r 0 (zlen k) = firstn (length k) r) by (unfold sub, zlen; rewrite Nat2Z.id; reflexivity).
  assert (L1 : length (firstn (length k) r) = length k) by (rewrite firstn_length; unfold zlen in *; lia).
  rewrite E1, (xorb_app k _ (firstn (length k) r)) by lia. f_equal. rewrite xorb_length by lia.
  assert (E2 : skipn (length k) r = repeat byte (Z.to_nat (B - zlen k))).
  { unfold r. replace (Z.to_nat B) with (length k + Z.to_nat (B - zlen k))%nat by (unfold zlen in *; lia). rewrite repeat_app, skipn_app, skipn_all2, repeat_length, Nat.sub_diag by (rewrite repeat_length; lia). reflexivity. }
  rewrite E2. unfold zeros. rewrite xorb_repeat_0. reflexivity.
Qed.

(* the state of an hmac object that was given m *)
Definition hmacR (s : h_st (hmac_class H new B key)) (m : bytes) : Prop := R s (hpad 0x36 ++ m).
Lemma hmac_himpl : himpl (fun m => P (hpad 0x36 ++ m)) (hmac_class H new B key) (fun m => Ret (hmac_spec d B key m)) hmacR.
Proof.
  constructor.
  - intros a b. rewrite app_assoc. apply (hi_prefix _ _ _ _ I).
  - intros s m o HR Hv HP. unfold hmacR in HR. rewrite app_assoc in HP. destruct (hi_op _ _ _ _ I s _ o HR Hv HP) as (s' & E & HR').
    exists s'. split; [destruct o; exact E|]. unfold hmacR. rewrite app_assoc. exact HR'.
  - intros s m HR HP. cbn [h_result hmac_class]. unfold hmac_result. rewrite hmac_pad_ok.
    destruct (hpad_ok 0x5C) as (Ho1 & Ho2); [unfold byte_ok; lia|]. set (op := hpad 0x5C) in *. set (inner := d (hpad 0x36 ++ m)).
    assert (HPo : P (op ++ inner)) by (apply P_outer; exact Ho2).
    destruct (hi_op _ _ _ _ I new [] (HSub op 0 (zlen op)) R0) as (h1 & E1 & R1).
    { cbn [hop_valid]. rewrite sub_0_all by reflexivity. split; [assumption|]. split; [lia|]. apply in_range_true. lia. }
    { cbn [hop_bytes app]. rewrite sub_0_all by reflexivity. apply (hi_prefix _ _ _ _ I) with inner. exact HPo. }
    cbn [h_step hop_bytes app] in E1, R1. rewrite sub_0_all in R1 by reflexivity. rewrite E1.
    destruct (h_result H s) as [s' r] eqn:Er. pose proof (hi_res _ _ _ _ I s _ HR HP) as Hr. rewrite Er in Hr. cbn [snd] in Hr. subst r. cbn [bind].
    fold inner. destruct (hi_op _ _ _ _ I h1 op (HString inner) R1) as (h2 & E2 & R2).
    { split; [apply d_ok|]. pose proof (d_len (hpad 0x36 ++ m)). unfold inner. lia. }
    { exact HPo. }
    cbn [h_step hop_bytes] in E2, R2. rewrite E2. pose proof (hi_res _ _ _ _ I h2 _ R2 HPo) as Hr. pose proof (hi_wipe _ _ _ _ I h2 _ R2 HPo) as Hw.
    destruct (h_result H h2) as [h3 r]. cbn [snd fst] in Hr, Hw. subst r. destruct (h_wipe H h3) as [h4 r]. cbn [snd] in Hw. subst r. reflexivity.
  - intros s m HR HP. cbn [h_result h_wipe hmac_class]. unfold hmac_result. rewrite hmac_pad_ok.
    destruct (hpad_ok 0x5C) as (Ho1 & Ho2); [unfold byte_ok; lia|]. set (op := hpad 0x5C) in *. set (inner := d (hpad 0x36 ++ m)).
    assert (HPo : P (op ++ inner)) by (apply P_outer; exact Ho2).
    destruct (hi_op _ _ _ _ I new [] (HSub op 0 (zlen op)) R0) as (h1 & E1 & R1).
    { cbn [hop_valid]. rewrite sub_0_all by reflexivity. split; [assumption|]. split; [lia|]. apply in_range_true. lia. }
    { cbn [hop_bytes app]. rewrite sub_0_all by reflexivity. apply (hi_prefix _ _ _ _ I) with inner. exact HPo. }
    cbn [h_step hop_bytes app] in E1, R1. rewrite sub_0_all in R1 by reflexivity. rewrite E1.
    pose proof (hi_res _ _ _ _ I s _ HR HP) as Hr. pose proof (hi_wipe _ _ _ _ I s _ HR HP) as Hw.
    destruct (h_result H s) as [s' r]. cbn [snd fst] in Hr, Hw. subst r. cbn [bind].
    fold inner. destruct (hi_op _ _ _ _ I h1 op (HString inner) R1) as (h2 & E2 & R2).
    { split; [apply d_ok|]. pose proof (d_len (hpad 0x36 ++ m)). unfold inner. lia. }
    { exact HPo. }
    cbn [h_step hop_bytes] in E2, R2. rewrite E2. pose proof (hi_res _ _ _ _ I h2 _ R2 HPo) as Hr'. pose proof (hi_wipe _ _ _ _ I h2 _ R2 HPo) as Hw'.
    destruct (h_result H h2) as [h3 r]. cbn [snd fst] in Hr', Hw'. subst r. destruct (h_wipe H h3) as [h4 r]. cbn [snd] in Hw'. subst r. cbn [fst]. exact Hw.
Qed.
Lemma hmac_new_ok : P (hpad 0x36) -> exists s, hmac_new H new B key = Ret (HObj (hmac_class H new B key) s) /\ hmacR s [].
Proof.
  intros HP. unfold hmac_new. rewrite hmac_pad_ok. cbn [obind]. destruct (hpad_ok 0x36) as (Ho1 & Ho2); [unfold byte_ok; lia|]. set (ip := hpad 0x36) in *.
  destruct (hi_op _ _ _ _ I new [] (HSub ip 0 (zlen ip)) R0) as (h1 & E1 & R1).
  { cbn [hop_valid]. rewrite sub_0_all by reflexivity. split; [assumption|]. split; [lia|]. apply in_range_true. lia. }
  { cbn [hop_bytes app]. rewrite sub_0_all by reflexivity. exact HP. }
  cbn [h_step hop_bytes app] in E1, R1. rewrite sub_0_all in R1 by reflexivity. rewrite E1. cbn [snd fst obind]. exists h1. split; [reflexivity|].
  unfold hmacR. fold ip. rewrite app_nil_r. exact R1.
Qed.
End Hmac.

(* for an object that computes d of any message *)
Lemma hmac_computes o d B key : 0 < B <= max_string_length -> computes o d -> (forall m, zlen (d m) <= B) -> (forall m, bytes_ok (d m)) ->
  bytes_ok key -> zlen key <= max_string_length ->
  exists h, hmac_of o B key = Ret h /\ h_size (ho_class h) = h_size (ho_class o) /\ computes h (hmac_spec d B key).
Proof.
  intros HB HC Hl Hd Hk Hkl. destruct (computes_himpl (fun _ => True) o _ (fun _ _ _ => Logic.I) HC) as (HI & HR).
  destruct (hmac_new_ok _ _ B _ d _ HB HI HR Hl Hd key Hk Hkl Logic.I (fun _ _ _ => Logic.I) Logic.I) as (s & E & HR').
  exists (HObj (hmac_class (ho_class o) (ho_st o) B key) s). split; [exact E|]. split; [reflexivity|]. apply himpl_computes with (R := hmacR (ho_class o) (ho_st o) B d (reached o) key); [|exact HR'].
  exact (hmac_himpl _ _ B (fun _ => True) d _ HB HI HR Hl Hd key Hk Hkl Logic.I (fun _ _ _ => Logic.I)).
Qed.
(* with a bound on the total length of what is hashed *)
Lemma hmac_computes_bounded o d B N key : 0 < B <= max_string_length -> computes_on (fun m => zlen m < N) o (fun m => Ret (d m)) ->
  (forall m, zlen (d m) <= B) -> (forall m, bytes_ok (d m)) ->
  bytes_ok key -> zlen key <= max_string_length -> zlen key < N -> 2 * B < N ->
  exists h, hmac_of o B key = Ret h /\ computes_on (fun m => B + zlen m < N) h (fun m => Ret (hmac_spec d B key m)).
Proof.
  intros HB HC Hl Hd Hk Hkl HkN HBN.
  assert (Hpre : forall a b : bytes, zlen (a ++ b) < N -> zlen a < N) by (intros a b; rewrite zlen_app; pose proof (zlen_nonneg b); lia).
  destruct (computes_himpl _ o _ Hpre HC) as (HI & HR).
  assert (Hpo : forall x y, zlen x = B -> zlen (x ++ d y) < N) by (intros x y Hx; rewrite zlen_app; specialize (Hl y); lia).
  assert (Hi : zlen (hpad B d key 0x36) = B) by (apply hpad_ok; try assumption; unfold byte_ok; lia).
  assert (HiN : zlen (hpad B d key 0x36) < N) by lia.
  destruct (hmac_new_ok _ _ B _ d _ HB HI HR Hl Hd key Hk Hkl HkN Hpo HiN) as (s & E & HR').
  exists (HObj (hmac_class (ho_class o) (ho_st o) B key) s). split; [exact E|].
  intros ops Hv HP. apply (himpl_computes _ _ _ _ s (hmac_himpl _ _ B _ d _ HB HI HR Hl Hd key Hk Hkl HkN Hpo) HR' ops Hv).
  rewrite zlen_app. rewrite Hi. exact HP.
Qed.
