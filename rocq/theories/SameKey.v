(* Keys of different lengths that give the same cipher; DES and complements; weak keys of DES. *)
From Verif Require Import Prelude PreludeFacts BytesNum SpecBlock SpecDes SpecMac SpecStream SpecBlowfish HashModel HashSpec BlockModel CipherModel BlockObj DesModel Des DesApi DesParity
  BlowfishModel Blowfish StreamModel Rc4 MacModel Hmac HashLib SpecCollide MacApi SpecSameKey.

Lemma cycle_P key key' : same_cycle key key' -> (0 < length key)%nat -> (0 < length key')%nat -> bytes_ok key -> bytes_ok key' -> fst (bf_init_P key) = fst (bf_init_P key').
Proof.
  intros H L L' B B'. rewrite !init_P_eq by assumption. apply map_ext. intros i. f_equal. unfold key_word_at. f_equal. apply map_ext. intros k. apply H.
Qed.
Theorem blowfish_cycle d key key' : 4 <= zlen key <= 56 -> 4 <= zlen key' <= 56 -> bytes_ok key -> bytes_ok key' -> same_cycle key key' ->
  new_blowfish d key = new_blowfish d key'.
Proof.
  intros L L' B B' H. unfold new_blowfish. replace ((4 <=? zlen key) && (zlen key <=? 56)) with true by lia. replace ((4 <=? zlen key') && (zlen key' <=? 56)) with true by lia.
  assert (E : Blowfish_Init key = Blowfish_Init key'). { rewrite !Init_fill. unfold zlen in L, L'. rewrite (cycle_P key key' H) by (assumption || lia). reflexivity. }
  rewrite E. reflexivity.
Qed.
Transparent rc4_ksa.
Lemma ksa_cycle key key' : same_cycle key key' -> rc4_ksa key = rc4_ksa key'.
Proof.
  intros H. unfold rc4_ksa. f_equal. generalize (map Z.of_nat (seq 0 256), 0) as s. generalize (seq 0 256) as l. induction l as [|i l IH]; intros s; [reflexivity|].
  cbn [fold_left]. rewrite IH. f_equal. unfold rc4_ksa_step. specialize (H i). unfold cycle_at in H. rewrite H. reflexivity.
Qed.
Opaque rc4_ksa.
Theorem arcfour_cycle key key' : 1 <= zlen key <= 256 -> 1 <= zlen key' <= 256 -> same_cycle key key' -> new_arcfour key = new_arcfour key'.
Proof.
  intros L L' H. unfold new_arcfour. replace ((zlen key >? 0) && (zlen key <=? 256)) with true by lia. replace ((zlen key' >? 0) && (zlen key' <=? 256)) with true by lia.
  unfold zlen in L, L'. rewrite (proj1 (cook_ok key ltac:(lia))), (proj1 (cook_ok key' ltac:(lia))), (ksa_cycle key key' H). reflexivity.
Qed.
Lemma repeat_cycle key n : (0 < length key)%nat -> (0 < n)%nat -> same_cycle key (concat (repeat key n)).
Proof.
  intros Lk Hn i. unfold cycle_at. assert (L : length (concat (repeat key n)) = (n * length key)%nat).
  { clear. induction n as [|n IH]; [reflexivity|]. cbn [repeat concat]. rewrite app_length, IH. lia. }
  rewrite L. assert (Hi : (i mod (n * length key) < n * length key)%nat) by (apply Nat.mod_upper_bound; nia).
  assert (Em : (i mod length key = (i mod (n * length key)) mod length key)%nat).
  { rewrite (Nat.mul_comm n). rewrite Nat.mod_mul_r by lia. rewrite Nat.mul_comm, Nat.mod_add by lia. rewrite Nat.mod_mod by lia. reflexivity. }
  rewrite Em. clear Em. revert Hi. generalize (i mod (n * length key))%nat as j. clear i L Hn. induction n as [|n IH]; intros j Hj; [lia|].
  cbn [repeat concat]. destruct (Nat.lt_ge_cases j (length key)) as [Hl|Hl].
  - rewrite app_nth1 by exact Hl. rewrite Nat.mod_small by exact Hl. reflexivity.
  - rewrite app_nth2 by exact Hl. rewrite <- IH by lia. f_equal.
    replace j with ((j - length key) + 1 * length key)%nat at 1 by lia. apply Nat.mod_add. lia.
Qed.

(* triple DES *)
Lemma sub_first (a b : bytes) : zlen a = 8 -> sub (a ++ b) 0 8 = a.
Proof. intros H. unfold sub, zlen in *. change (Z.to_nat 0) with 0%nat. change (Z.to_nat 8) with 8%nat. cbn [skipn]. rewrite firstn_app, firstn_all2 by lia. replace (8 - length a)%nat with 0%nat by lia. cbn [firstn]. apply app_nil_r. Qed.
Lemma sub_second (a b : bytes) o : zlen a = 8 -> 8 <= o -> sub (a ++ b) o 8 = sub b (o - 8) 8.
Proof. intros H Ho. unfold sub, zlen in *. rewrite skipn_app, skipn_all2 by lia. cbn [app]. do 2 f_equal. lia. Qed.
Lemma sub_whole (a : bytes) : zlen a = 8 -> sub a 0 8 = a.
Proof. intros H. rewrite <- (app_nil_r a) at 1. apply sub_first, H. Qed.
Lemma parts2 (k1 k2 : bytes) : zlen k1 = 8 -> zlen k2 = 8 -> sub (k1 ++ k2) 0 8 = k1 /\ sub (k1 ++ k2) 8 8 = k2.
Proof. intros L1 L2. split; [apply sub_first, L1|]. rewrite sub_second by (assumption || lia). apply sub_whole, L2. Qed.
Lemma parts3 (k1 k2 k3 : bytes) : zlen k1 = 8 -> zlen k2 = 8 -> zlen k3 = 8 ->
  sub (k1 ++ k2 ++ k3) 0 8 = k1 /\ sub (k1 ++ k2 ++ k3) 8 8 = k2 /\ sub (k1 ++ k2 ++ k3) 16 8 = k3.
Proof.
  intros L1 L2 L3. split; [apply sub_first, L1|]. rewrite !(sub_second k1) by (assumption || lia). change (8 - 8) with 0. change (16 - 8) with 8.
  split; [apply sub_first, L2|]. rewrite sub_second by (assumption || lia). apply sub_whole, L3.
Qed.
Theorem triple_two d k1 k2 : zlen k1 = 8 -> zlen k2 = 8 -> new_triple_des d (k1 ++ k2) = new_triple_des d (k1 ++ k2 ++ k1).
Proof.
  intros L1 L2. destruct (parts2 k1 k2 L1 L2) as (P1 & P2). destruct (parts3 k1 k2 k1 L1 L2 L1) as (Q1 & Q2 & Q3).
  unfold new_triple_des. rewrite P1, P2, Q1, Q2, Q3. rewrite !zlen_app, L1, L2. destruct d; reflexivity.
Qed.
Theorem final_two fresh iv p k1 k2 : zlen k1 = 8 -> zlen k2 = 8 -> des_final_triple_des fresh new_des iv p (k1 ++ k2) = des_final_triple_des fresh new_des iv p (k1 ++ k2 ++ k1).
Proof.
  intros L1 L2. destruct (parts2 k1 k2 L1 L2) as (P1 & P2). destruct (parts3 k1 k2 k1 L1 L2 L1) as (Q1 & Q2 & Q3).
  unfold des_final_triple_des, bytes_sub, in_range. rewrite P1, P2, Q1, Q2, Q3. rewrite !zlen_app, L1, L2. reflexivity.
Qed.
(* triple DES with two equal neighbours is DES with the third key *)
Lemma tdea_neighbours d k k' b : zlen k = 8 -> zlen k' = 8 -> zlen b = 8 -> bytes_ok b ->
  tdea_dir d (k ++ k ++ k') b = des_dir d k' b /\ tdea_dir d (k' ++ k ++ k) b = des_dir d k' b.
Proof.
  intros L L' Lb Bb. destruct (parts3 k k k' L L L') as (P1 & P2 & P3). destruct (parts3 k' k k L' L L) as (Q1 & Q2 & Q3).
  unfold tdea_dir, tdea_E, tdea_D, tdea_key. cbn [Z.eqb Pos.eqb andb]. change (8 * 0) with 0. change (8 * 1) with 8. change (8 * 2) with 16.
  rewrite !zlen_app, L, L'. change (8 + (8 + 8) =? 16) with false. cbn iota. rewrite P1, P2, P3, Q1, Q2, Q3.
  destruct d; split; unfold des_dir.
  - f_equal. apply (des_dir_inv Encrypt k b Lb Bb).
  - apply (des_dir_inv Decrypt k (des_E k' b)); apply (des_dir_blk Encrypt).
  - apply (des_dir_inv Encrypt k (des_D k' b)); apply (des_dir_blk Decrypt).
  - f_equal. apply (des_dir_inv Decrypt k b Lb Bb).
Qed.
Lemma same_block_intro o o' F F' : block_computes o 8 F -> block_checks o 8 -> block_computes o' 8 F' -> block_checks o' 8 ->
  (forall b, zlen b = 8 -> bytes_ok b -> F b = F' b) -> same_block o o'.
Proof.
  intros (S & C) X (S' & C') X' E. split; [congruence|]. intros src so dst p Bs.
  destruct (Z_le_dec 0 so), (Z_le_dec so (zlen src - 8)), (Z_le_dec 0 p), (Z_le_dec p (zlen dst - 8)).
  1: rewrite C, C' by (lia || (apply bytes_ok_sub; exact Bs)); cbn [fst snd]; rewrite E; [repeat split; reflexivity|apply zlen_sub; lia|apply bytes_ok_sub; exact Bs].
  all: rewrite X, X' by lia; cbn [fst snd]; repeat split; reflexivity.
Qed.
Theorem triple_neighbours d k k' : zlen k = 8 -> zlen k' = 8 -> bytes_ok k -> bytes_ok k' ->
  exists o o1 o2, new_des d k' = Ret o /\ new_triple_des d (k ++ k ++ k') = Ret o1 /\ new_triple_des d (k' ++ k ++ k) = Ret o2 /\
    same_block o o1 /\ same_block o o2.
Proof.
  intros L L' B B'. destruct (new_des_computes d k' L' B') as (o & E & C & X).
  destruct (new_triple_computes d (k ++ k ++ k')) as (o1 & E1 & C1 & X1); [right; rewrite !zlen_app; lia|repeat (apply Forall_app; split); assumption|].
  destruct (new_triple_computes d (k' ++ k ++ k)) as (o2 & E2 & C2 & X2); [right; rewrite !zlen_app; lia|repeat (apply Forall_app; split); assumption|].
  exists o, o1, o2. split; [exact E|]. split; [exact E1|]. split; [exact E2|].
  split; eapply same_block_intro; eauto; intros b Lb Bb; symmetry; apply (tdea_neighbours d k k' b L L' Lb Bb).
Qed.
(* HMAC *)
Theorem hmac_zeros fresh o d B key n : (forall n, 0 <= n -> zlen (fresh n) = n) -> hmac_hash fresh o d B -> bytes_ok key -> 0 <= n -> zlen key + n <= B ->
  exists h1 h2, hmac_of o B key = Ret h1 /\ hmac_of o B (key ++ zeros n) = Ret h2 /\ forall ops, Forall hop_valid ops -> result_of h1 ops = result_of h2 ops.
Proof.
  intros Hf HH K Hn L. destruct (hmac_hash_ok fresh o d B Hf HH) as (HB & _ & _ & _).
  assert (L' : zlen (key ++ zeros n) = zlen key + n) by (rewrite zlen_app, zlen_zeros by lia; reflexivity).
  destruct (hmac_ok fresh o d B key Hf HH K ltac:(lia)) as (h1 & E1 & _ & C1).
  destruct (hmac_ok fresh o d B (key ++ zeros n) Hf HH ltac:(apply bytes_ok_app; split; [exact K|apply bytes_ok_zeros]) ltac:(lia)) as (h2 & E2 & _ & C2).
  exists h1, h2. split; [exact E1|]. split; [exact E2|]. intros ops V. destruct (C1 ops V Logic.I) as (_ & R1 & _). destruct (C2 ops V Logic.I) as (_ & R2 & _). unfold result_of. rewrite R1, R2.
  assert (EK : hmac_key d B key = hmac_key d B (key ++ zeros n)).
  { unfold hmac_key. assert ((zlen key >? B) = false) as -> by lia. assert ((zlen (key ++ zeros n) >? B) = false) as -> by lia. cbv zeta. rewrite L', <- app_assoc. f_equal.
    unfold zeros. rewrite <- repeat_app. f_equal. lia. }
  unfold hmac_spec. now rewrite EK.
Qed.
Theorem hmac_long fresh o d B key : (forall n, 0 <= n -> zlen (fresh n) = n) -> hmac_hash fresh o d B -> bytes_ok key -> B < zlen key <= max_string_length ->
  exists h1 h2, hmac_of o B key = Ret h1 /\ hmac_of o B (d key) = Ret h2 /\ forall ops, Forall hop_valid ops -> result_of h1 ops = result_of h2 ops.
Proof.
  intros Hf HH K L. destruct (hmac_hash_ok fresh o d B Hf HH) as (HB & A1 & A2 & A3).
  destruct (hmac_ok fresh o d B key Hf HH K ltac:(lia)) as (h1 & E1 & _ & C1).
  destruct (hmac_ok fresh o d B (d key) Hf HH (A3 key)) as (h2 & E2 & _ & C2); [specialize (A2 key); lia|].
  exists h1, h2. split; [exact E1|]. split; [exact E2|]. intros ops V. destruct (C1 ops V Logic.I) as (_ & R1 & _). destruct (C2 ops V Logic.I) as (_ & R2 & _). unfold result_of. rewrite R1, R2.
  assert (EK : hmac_key d B key = hmac_key d B (d key)).
  { unfold hmac_key. assert ((zlen key >? B) = true) as -> by lia. specialize (A2 key). assert ((zlen (d key) >? B) = false) as -> by lia. reflexivity. }
  unfold hmac_spec. now rewrite EK.
Qed.
