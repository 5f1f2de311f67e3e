(* DES: the complement of the key and of the block give the complement; weak keys. *)
From Verif Require Import Prelude PreludeFacts BytesNum SpecBlock SpecDes HashModel BlockModel CipherModel BlockObj DesModel DesBits Des DesApi SpecSameKey SameKey.

Definition neg (l : list bool) : list bool := map negb l.
Lemma neg_length l : length (neg l) = length l. Proof. apply map_length. Qed.
Lemma neg_nth l n : (n < length l)%nat -> nth n (neg l) false = negb (nth n l false).
Proof. intros H. unfold neg. rewrite (nth_indep _ false (negb false)) by (rewrite map_length; exact H). apply map_nth. Qed.
Lemma permute_neg t l : forallb (fun i => (i - 1 <? length l)%nat) t = true -> permute t (neg l) = neg (permute t l).
Proof.
  intros H. rewrite forallb_forall in H. unfold permute. unfold neg at 2. rewrite map_map. apply map_ext_in. intros i Hi. apply neg_nth.
  specialize (H i Hi). apply Nat.ltb_lt in H. exact H.
Qed.
Lemma xor_neg_both a : forall b, xor_bits (neg a) (neg b) = xor_bits a b.
Proof. unfold xor_bits. induction a as [|x a IH]; intros [|y b]; try reflexivity. cbn [neg map combine]. fold (neg a) (neg b). rewrite IH. cbn [map fst snd]. f_equal. destruct x, y; reflexivity. Qed.
Lemma xor_neg_l a : forall b, xor_bits (neg a) b = neg (xor_bits a b).
Proof. unfold xor_bits. induction a as [|x a IH]; intros [|y b]; try reflexivity. cbn [neg map combine]. fold (neg a). rewrite IH. cbn [map fst snd]. f_equal. destruct x, y; reflexivity. Qed.
Lemma rot_neg n l : rot_left n (neg l) = neg (rot_left n l).
Proof. unfold rot_left, neg. rewrite skipn_map, firstn_map, map_app. reflexivity. Qed.
Lemma f_neg R K : length R = 32%nat -> des_f (neg R) (neg K) = des_f R K.
Proof. intros H. unfold des_f. rewrite permute_neg by (rewrite H; reflexivity). rewrite xor_neg_both. reflexivity. Qed.
Definition neg2 (p : list bool * list bool) := (neg (fst p), neg (snd p)).
Lemma rounds_neg Ks : forall p, length (fst p) = 32%nat -> length (snd p) = 32%nat -> fold_left des_round (map neg Ks) (neg2 p) = neg2 (fold_left des_round Ks p).
Proof.
  induction Ks as [|K Ks IH]; intros p H1 H2; [reflexivity|]. cbn [map fold_left]. rewrite <- IH.
  - f_equal. unfold des_round, neg2. cbn [fst snd]. rewrite f_neg by exact H2. rewrite xor_neg_l. reflexivity.
  - exact H2.
  - unfold des_round. cbn [fst snd]. rewrite xor_bits_length by (rewrite des_f_length; exact H1). exact H1.
Qed.
Lemma schedule_neg s : forall C D, length C = 28%nat -> length D = 28%nat -> Forall (fun n => (n <= 28)%nat) s -> schedule s (neg C) (neg D) = map neg (schedule s C D).
Proof.
  induction s as [|n s IH]; intros C D HC HD Hs; [reflexivity|]. apply Forall_cons_iff in Hs. destruct Hs as (Hn & Hs). cbn [schedule map].
  assert (LC : length (rot_left n C) = 28%nat) by (rewrite rot_length; lia). assert (LD : length (rot_left n D) = 28%nat) by (rewrite rot_length; lia).
  rewrite !rot_neg, IH by assumption. f_equal. rewrite <- permute_neg; [unfold neg; rewrite map_app; reflexivity|]. rewrite app_length, LC, LD. reflexivity.
Qed.
Lemma byte_neg b : byte_ok b -> byte_bits (255 - b) = neg (byte_bits b).
Proof.
  intros H. assert (F : forallb (fun n => let b := Z.of_nat n in if list_eq_dec Bool.bool_dec (byte_bits (255 - b)) (neg (byte_bits b)) then true else false) (seq 0 256) = true) by (vm_compute; reflexivity).
  rewrite forallb_forall in F. specialize (F (Z.to_nat b)). cbv zeta in F. unfold byte_ok in H. rewrite Z2Nat.id in F by lia.
  destruct (list_eq_dec Bool.bool_dec (byte_bits (255 - b)) (neg (byte_bits b))) as [E|E]; [exact E|]. discriminate F. apply in_seq. lia.
Qed.
Lemma bits_neg l : bytes_ok l -> bits_of (inverted l) = neg (bits_of l).
Proof.
  induction l as [|b l IH]; intros H; [reflexivity|]. apply Forall_cons_iff in H. destruct H as (Hb & H). cbn [inverted map bits_of flat_map]. fold (inverted l) (bits_of (inverted l)) (bits_of l).
  rewrite IH, byte_neg by assumption. unfold neg. rewrite map_app. reflexivity.
Qed.
Lemma inverted_length l : length (inverted l) = length l. Proof. apply map_length. Qed.
Lemma inverted_zlen l : zlen (inverted l) = zlen l. Proof. unfold zlen. rewrite inverted_length. reflexivity. Qed.
Lemma inverted_ok l : bytes_ok l -> bytes_ok (inverted l).
Proof. intros H. unfold bytes_ok, inverted in *. apply Forall_map. eapply Forall_impl; [|exact H]. unfold byte_ok. intros; lia. Qed.
Lemma keys_neg key : zlen key = 8 -> bytes_ok key -> des_keys (inverted key) = map neg (des_keys key).
Proof.
  intros L B. unfold des_keys. cbv zeta. rewrite bits_neg by exact B. assert (Lb : length (bits_of key) = 64%nat) by (rewrite bits_of_length; unfold zlen in L; lia).
  rewrite permute_neg by (rewrite Lb; reflexivity). unfold neg at 1 2. rewrite firstn_map, skipn_map. fold (neg (firstn 28 (permute PC1 (bits_of key)))) (neg (skipn 28 (permute PC1 (bits_of key)))).
  assert (Lp : length (permute PC1 (bits_of key)) = 56%nat) by (rewrite permute_length; reflexivity).
  apply schedule_neg; [rewrite firstn_length; lia|rewrite skipn_length; lia|repeat constructor].
Qed.
Lemma des_bits_neg Ks b : length b = 64%nat -> des_bits (map neg Ks) (neg b) = neg (des_bits Ks b).
Proof.
  intros L. unfold des_bits. cbv zeta. rewrite permute_neg by (rewrite L; reflexivity). assert (Lp : length (permute IP b) = 64%nat) by (rewrite permute_length; reflexivity).
  set (p := permute IP b) in *. assert (E : (firstn 32 (neg p), skipn 32 (neg p)) = neg2 (firstn 32 p, skipn 32 p)) by (unfold neg2, neg; cbn [fst snd]; rewrite firstn_map, skipn_map; reflexivity).
  rewrite E. assert (L1 : length (firstn 32 p) = 32%nat) by (rewrite firstn_length; lia). assert (L2 : length (skipn 32 p) = 32%nat) by (rewrite skipn_length; lia).
  rewrite rounds_neg by assumption. pose proof (rounds_half Ks (firstn 32 p, skipn 32 p) (conj L1 L2)) as (G1 & G2).
  set (q := fold_left des_round Ks _) in *. unfold neg2. cbn [fst snd]. rewrite <- permute_neg; [unfold neg; rewrite map_app; reflexivity|]. rewrite app_length, G1, G2. reflexivity.
Qed.
Lemma des_dir_invert d key b : zlen key = 8 -> bytes_ok key -> zlen b = 8 -> bytes_ok b -> des_dir d (inverted key) (inverted b) = inverted (des_dir d key b).
Proof.
  intros L B Lb Bb. assert (E : forall Ks, bytes_of_bits 8 (des_bits (map neg Ks) (bits_of (inverted b))) = inverted (bytes_of_bits 8 (des_bits Ks (bits_of b)))).
  { intros Ks. rewrite bits_neg by exact Bb. rewrite des_bits_neg by (rewrite bits_of_length; unfold zlen in Lb; lia).
    set (l := des_bits Ks (bits_of b)). assert (Ll : length l = 64%nat) by apply des_bits_length.
    destruct (bytes_bits 8 l Ll) as (A1 & A2 & A3). rewrite <- A1 at 1. rewrite <- bits_neg by exact A3.
    set (m := bytes_of_bits 8 l) in *. pose proof (bits_bytes (inverted m) (inverted_ok _ A3)) as Q. rewrite inverted_length in Q. unfold zlen in A2. replace (length m) with 8%nat in Q by lia. exact Q. }
  destruct d; unfold des_dir, des_E, des_D; rewrite keys_neg by assumption; [|rewrite <- map_rev]; apply E.
Qed.
Lemma inverted_sub l o n : inverted (sub l o n) = sub (inverted l) o n.
Proof. unfold inverted, sub. rewrite skipn_map, firstn_map. reflexivity. Qed.
Lemma tdea_dir_invert d key b : tdea_key_size key -> bytes_ok key -> zlen b = 8 -> bytes_ok b -> tdea_dir d (inverted key) (inverted b) = inverted (tdea_dir d key b).
Proof.
  intros K B Lb Bb. assert (P : forall i, 0 <= i <= 2 -> tdea_key (inverted key) i = inverted (tdea_key key i) /\ zlen (tdea_key key i) = 8 /\ bytes_ok (tdea_key key i)).
  { intros i Hi. unfold tdea_key. rewrite inverted_zlen. unfold tdea_key_size in K. destruct ((i =? 2) && (zlen key =? 16)) eqn:E.
    - rewrite inverted_sub. split; [reflexivity|]. split; [apply zlen_sub; lia|apply bytes_ok_sub; exact B].
    - rewrite inverted_sub. split; [reflexivity|]. split; [apply zlen_sub; lia|apply bytes_ok_sub; exact B]. }
  destruct (P 0 ltac:(lia)) as (P0 & L0 & B0). destruct (P 1 ltac:(lia)) as (P1 & L1 & B1). destruct (P 2 ltac:(lia)) as (P2 & L2 & B2).
  assert (IE : forall k x, zlen k = 8 -> bytes_ok k -> zlen x = 8 /\ bytes_ok x -> des_E (inverted k) (inverted x) = inverted (des_E k x)) by (intros k x Hk Hk' (Hx & Hx'); exact (des_dir_invert Encrypt k x Hk Hk' Hx Hx')).
  assert (ID : forall k x, zlen k = 8 -> bytes_ok k -> zlen x = 8 /\ bytes_ok x -> des_D (inverted k) (inverted x) = inverted (des_D k x)) by (intros k x Hk Hk' (Hx & Hx'); exact (des_dir_invert Decrypt k x Hk Hk' Hx Hx')).
  assert (BE : forall k x, zlen (des_E k x) = 8 /\ bytes_ok (des_E k x)) by (intros k x; exact (des_dir_blk Encrypt k x)).
  assert (BD : forall k x, zlen (des_D k x) = 8 /\ bytes_ok (des_D k x)) by (intros k x; exact (des_dir_blk Decrypt k x)).
  destruct d; unfold tdea_dir, tdea_E, tdea_D; rewrite P0, P1, P2.
  - rewrite (IE _ b L0 B0 (conj Lb Bb)), (ID _ _ L1 B1 (BE _ _)), (IE _ _ L2 B2 (BD _ _)). reflexivity.
  - rewrite (ID _ b L2 B2 (conj Lb Bb)), (IE _ _ L1 B1 (BD _ _)), (ID _ _ L0 B0 (BE _ _)). reflexivity.
Qed.
Lemma inverted_splice dst p b : inverted (splice dst p b) = splice (inverted dst) p (inverted b).
Proof. unfold inverted, splice. rewrite !map_app, firstn_map, skipn_map, ?map_length. unfold zlen. rewrite ?map_length. reflexivity. Qed.
Lemma invert_objects o o' F F' : block_computes o 8 F -> block_checks o 8 -> block_computes o' 8 F' -> block_checks o' 8 ->
  (forall b, zlen b = 8 -> bytes_ok b -> F' (inverted b) = inverted (F b)) -> inverts o o'.
Proof.
  intros (S & C) X (S' & C') X' E src so dst p Bs.
  destruct (Z_le_dec 0 so), (Z_le_dec so (zlen src - 8)), (Z_le_dec 0 p), (Z_le_dec p (zlen dst - 8)).
  1: rewrite C, C' by (rewrite ?inverted_zlen; lia || (rewrite <- ?inverted_sub; try apply inverted_ok; apply bytes_ok_sub; exact Bs)); cbn [fst snd].
  1: rewrite <- inverted_sub, E, inverted_splice; [split; reflexivity|apply zlen_sub; lia|apply bytes_ok_sub; exact Bs].
  all: rewrite X, X' by (rewrite ?inverted_zlen; lia); cbn [fst snd]; split; reflexivity.
Qed.
Theorem des_invert d key : zlen key = 8 -> bytes_ok key -> exists o o', new_des d key = Ret o /\ new_des d (inverted key) = Ret o' /\ inverts o o'.
Proof.
  intros L B. destruct (new_des_computes d key L B) as (o & E & C & X). destruct (new_des_computes d (inverted key)) as (o' & E' & C' & X'); [rewrite inverted_zlen; exact L|apply inverted_ok, B|].
  exists o, o'. split; [exact E|]. split; [exact E'|]. eapply invert_objects; eauto. intros b Lb Bb. apply (des_dir_invert d); assumption.
Qed.
Theorem triple_invert d key : zlen key = 16 \/ zlen key = 24 -> bytes_ok key -> exists o o', new_triple_des d key = Ret o /\ new_triple_des d (inverted key) = Ret o' /\ inverts o o'.
Proof.
  intros L B. destruct (new_triple_computes d key L B) as (o & E & C & X). destruct (new_triple_computes d (inverted key)) as (o' & E' & C' & X'); [unfold tdea_key_size; rewrite inverted_zlen; exact L|apply inverted_ok, B|].
  exists o, o'. split; [exact E|]. split; [exact E'|]. eapply invert_objects; eauto. intros b Lb Bb. apply (tdea_dir_invert d); assumption.
Qed.
(* weak keys *)
Definition zs_eqb (a b : list Z) : bool := if list_eq_dec Z.eq_dec a b then true else false.
Definition weak_b (p : bytes * bytes) : bool :=
  zs_eqb (d3des_cook_key (fst p) Encrypt) (d3des_cook_key (snd p) Decrypt) && zs_eqb (d3des_cook_key (fst p) Decrypt) (d3des_cook_key (snd p) Encrypt) && (zlen (fst p) =? 8) && (zlen (snd p) =? 8).
Lemma zs_eqb_eq a b : zs_eqb a b = true -> a = b.
Proof. unfold zs_eqb. destruct (list_eq_dec Z.eq_dec a b); [auto|discriminate]. Qed.
Lemma weak_cooked : forallb weak_b weak_pairs = true.
Proof. vm_compute. reflexivity. Qed.
Lemma weak_b_ok p : weak_b p = true -> new_des Encrypt (fst p) = new_des Decrypt (snd p) /\ new_des Decrypt (fst p) = new_des Encrypt (snd p).
Proof.
  unfold weak_b. intros F. apply andb_prop in F. destruct F as (F & L'). apply andb_prop in F. destruct F as (F & L). apply andb_prop in F. destruct F as (F1 & F2).
  apply zs_eqb_eq in F1, F2. unfold new_des. rewrite L, L', F1, F2. split; reflexivity.
Qed.
Theorem weak_same k k' : In (k, k') weak_pairs -> new_des Encrypt k = new_des Decrypt k' /\ new_des Decrypt k = new_des Encrypt k'.
Proof. intros H. exact (weak_b_ok (k, k') (proj1 (forallb_forall weak_b weak_pairs) weak_cooked (k, k') H)). Qed.
Lemma weak_ok k k' : In (k, k') weak_pairs -> zlen k = 8 /\ bytes_ok k /\ zlen k' = 8 /\ bytes_ok k'.
Proof.
  assert (F : forallb (fun p => (zlen (fst p) =? 8) && (zlen (snd p) =? 8) && forallb (fun b => (0 <=? b) && (b <? 256)) (fst p ++ snd p)) weak_pairs = true) by (vm_compute; reflexivity).
  intros H. rewrite forallb_forall in F. specialize (F _ H). cbn [fst snd] in F. apply andb_prop in F. destruct F as (F & F3). apply andb_prop in F. destruct F as (F1 & F2).
  rewrite forallb_app in F3. apply andb_prop in F3. destruct F3 as (G & G'). rewrite forallb_forall in G, G'. unfold bytes_ok. rewrite !Forall_forall. unfold byte_ok.
  split; [lia|]. split; [intros x Hx; specialize (G x Hx); lia|]. split; [lia|]. intros x Hx; specialize (G' x Hx); lia.
Qed.
Theorem weak_undoes k k' : In (k, k') weak_pairs -> exists o o', new_des Encrypt k = Ret o /\ new_des Encrypt k' = Ret o' /\ undoes o o' 8 /\ undoes o' o 8.
Proof.
  intros H. destruct (weak_ok k k' H) as (L & B & L' & B'). destruct (weak_same k k' H) as (E1 & E2).
  destruct (des_undoes k L B) as (e & d & H1 & H2 & H3 & H4). exists e, d. split; [exact H1|]. split; [rewrite <- E2; exact H2|]. split; assumption.
Qed.
