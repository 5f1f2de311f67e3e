(* DES decryption inverts encryption; the classes des and triple_des. *)
From Verif Require Import Prelude PreludeFacts BytesNum Word SpecTransducer TransformModel SpecBlock KeccakModel BlockModel BlockCipher SpecModes Modes CipherModel CipherApi BlockObj SpecDes DesModel DesBits Des.
From Verif Require AesField MdHash.
From Coq Require Import Btauto.

Lemma xor_bits_twice a b : length a = length b -> xor_bits (xor_bits a b) b = a.
Proof.
  revert b. induction a as [|x a IH]; intros [|y b] H; try discriminate H; [reflexivity|]. injection H as H. unfold xor_bits in *. cbn [combine map fst snd]. rewrite IH by exact H. f_equal. btauto.
Qed.
Definition swap_pair (p : list bool * list bool) : list bool * list bool := (snd p, fst p).
Definition half32 (p : list bool * list bool) : Prop := length (fst p) = 32%nat /\ length (snd p) = 32%nat.
Lemma round_half p K : half32 p -> half32 (des_round p K).
Proof. intros (H1 & H2). split; cbn [des_round fst snd]; [exact H2|]. rewrite xor_bits_length; [exact H1|rewrite des_f_length; exact H1]. Qed.
Lemma rounds_half Ks : forall p, half32 p -> half32 (fold_left des_round Ks p).
Proof. induction Ks as [|K Ks IH]; intros p H; [exact H|]. apply IH, round_half, H. Qed.
Lemma round_undo p K : half32 p -> des_round (swap_pair (des_round p K)) K = swap_pair p.
Proof.
  intros (H1 & H2). unfold des_round, swap_pair. cbn [fst snd]. f_equal. apply xor_bits_twice. rewrite des_f_length. exact H1.
Qed.
Lemma rounds_undo Ks : forall p, half32 p -> fold_left des_round (rev Ks) (swap_pair (fold_left des_round Ks p)) = swap_pair p.
Proof.
  induction Ks as [|K Ks IH]; intros p H; [reflexivity|]. cbn [rev fold_left]. rewrite fold_left_app. rewrite IH by (apply round_half; exact H). cbn [fold_left]. apply round_undo, H.
Qed.
Lemma IP_inv_l l : length l = 64%nat -> permute IP (permute IP_inv l) = l.
Proof. intros H. explode l H. vm_compute. reflexivity. Qed.
Lemma IP_inv_r l : length l = 64%nat -> permute IP_inv (permute IP l) = l.
Proof. intros H. explode l H. vm_compute. reflexivity. Qed.
Lemma des_bits_inv Ks b : length b = 64%nat -> des_bits (rev Ks) (des_bits Ks b) = b.
Proof.
  intros H. unfold des_bits. cbn zeta. set (p := (firstn 32 (permute IP b), skipn 32 (permute IP b))).
  assert (LI : length (permute IP b) = 64%nat) by apply permute_length.
  assert (Hp : half32 p) by (split; cbn [fst snd p]; [rewrite firstn_length, LI; reflexivity|rewrite skipn_length, LI; reflexivity]).
  destruct (rounds_half Ks p Hp) as (Q1 & Q2). set (q := fold_left des_round Ks p) in *.
  rewrite IP_inv_l by (rewrite app_length, Q1, Q2; reflexivity).
  rewrite firstn_app, Q2, Nat.sub_diag, firstn_O, app_nil_r, firstn_all2, skipn_app, Q2, Nat.sub_diag, skipn_O, skipn_all2 by lia. cbn [app].
  change (snd q, fst q) with (swap_pair q). unfold q. rewrite rounds_undo by exact Hp. cbn [swap_pair fst snd p]. rewrite firstn_skipn. apply IP_inv_r. exact H.
Qed.
Lemma des_bits_length Ks b : length (des_bits Ks b) = 64%nat.
Proof. unfold des_bits. cbn zeta. apply permute_length. Qed.
(* bytes and bits *)
Lemma byte_num l : length l = 8%nat -> byte_bits (num l) = l /\ byte_ok (num l).
Proof.
  intros H. split; [|split; [apply num_nonneg|]; generalize (num_bound l); rewrite H; change (2 ^ Z.of_nat 8) with 256; lia].
  explode l H. repeat match goal with b : bool |- _ => destruct b end; vm_compute; reflexivity.
Qed.
Lemma bytes_bits n : forall l, length l = (8 * n)%nat -> bits_of (bytes_of_bits n l) = l /\ zlen (bytes_of_bits n l) = Z.of_nat n /\ bytes_ok (bytes_of_bits n l).
Proof.
  induction n as [|n IH]; intros l H.
  - destruct l; [|cbn [length] in H; lia]. repeat split. constructor.
  - cbn [bytes_of_bits bits_of flat_map]. fold (bits_of (bytes_of_bits n (skipn 8 l))). destruct (IH (skipn 8 l)) as (I1 & I2 & I3); [rewrite skipn_length; lia|].
    destruct (byte_num (firstn 8 l)) as (B1 & B2); [rewrite firstn_length; lia|]. rewrite B1, I1, firstn_skipn. split; [reflexivity|]. split; [rewrite zlen_cons, I2; lia|]. constructor; assumption.
Qed.
Lemma bits_bytes b : bytes_ok b -> bytes_of_bits (length b) (bits_of b) = b.
Proof.
  induction b as [|x b IH]; intros B; [reflexivity|]. apply Forall_cons_iff in B. destruct B as (Bx & B). cbn [length bytes_of_bits bits_of flat_map]. fold (bits_of b).
  rewrite firstn_app, byte_bits_length, Nat.sub_diag, firstn_O, app_nil_r, (firstn_all2 (byte_bits x)) by (rewrite byte_bits_length; lia).
  rewrite skipn_app, byte_bits_length, Nat.sub_diag, skipn_O, (skipn_all2 (byte_bits x)) by (rewrite byte_bits_length; lia). cbn [app]. rewrite (IH B), num_byte by exact Bx. reflexivity.
Qed.
Definition des_dir (d : dir) (key : bytes) : bytes -> bytes := match d with Encrypt => des_E key | Decrypt => des_D key end.
Definition tdea_dir (d : dir) (key : bytes) : bytes -> bytes := match d with Encrypt => tdea_E key | Decrypt => tdea_D key end.
Definition other (d : dir) : dir := match d with Encrypt => Decrypt | Decrypt => Encrypt end.
Lemma des_dir_blk d key b : zlen (des_dir d key b) = 8 /\ bytes_ok (des_dir d key b).
Proof. destruct d; apply (bytes_bits 8); apply des_bits_length. Qed.
Lemma des_dir_inv d key b : zlen b = 8 -> bytes_ok b -> des_dir (other d) key (des_dir d key b) = b.
Proof.
  intros L B. assert (Lb : length b = 8%nat) by (unfold zlen in L; lia). assert (L64 : length (bits_of b) = 64%nat) by (rewrite bits_of_length, Lb; reflexivity).
  destruct d; unfold des_dir, other, des_E, des_D.
  - destruct (bytes_bits 8 (des_bits (des_keys key) (bits_of b))) as (-> & _); [apply des_bits_length|]. rewrite des_bits_inv by exact L64. rewrite <- Lb. apply bits_bytes. exact B.
  - destruct (bytes_bits 8 (des_bits (rev (des_keys key)) (bits_of b))) as (-> & _); [apply des_bits_length|].
    rewrite <- (rev_involutive (des_keys key)) at 1. rewrite des_bits_inv by exact L64. rewrite <- Lb. apply bits_bytes. exact B.
Qed.
Lemma d3des_dir key d b : zlen key = 8 -> bytes_ok key -> zlen b = 8 -> bytes_ok b -> d3des_transform (d3des_cook_key key d) b = des_dir d key b.
Proof. intros. rewrite d3des_ok by assumption. destruct d; reflexivity. Qed.

(* ---- class des ---- *)
Lemma new_des_computes d key : zlen key = 8 -> bytes_ok key ->
  exists o, new_des d key = Ret o /\ block_computes o 8 (des_dir d key) /\ block_checks o 8.
Proof.
  intros K B. unfold new_des. rewrite K. eexists. split; [reflexivity|]. apply raw_computes; [|lia]. intros b Lb Bb. rewrite d3des_dir by assumption. reflexivity.
Qed.
Lemma des_undoes key : zlen key = 8 -> bytes_ok key ->
  exists e d, new_des Encrypt key = Ret e /\ new_des Decrypt key = Ret d /\ undoes e d 8 /\ undoes d e 8.
Proof.
  intros K B. destruct (new_des_computes Encrypt key K B) as (e & Ee & Ce & _). destruct (new_des_computes Decrypt key K B) as (d & Ed & Cd & _).
  exists e, d. split; [exact Ee|]. split; [exact Ed|]. split.
  - apply (computes_undoes e d 8 _ _ ltac:(lia) Ce Cd). intros b Lb Bb. destruct (des_dir_blk Encrypt key b). split; [assumption|]. split; [assumption|]. apply (des_dir_inv Encrypt); assumption.
  - apply (computes_undoes d e 8 _ _ ltac:(lia) Cd Ce). intros b Lb Bb. destruct (des_dir_blk Decrypt key b). split; [assumption|]. split; [assumption|]. apply (des_dir_inv Decrypt); assumption.
Qed.
Lemma des_family key : zlen key = 8 -> bytes_ok key -> block_family new_des key 8 (des_E key) (des_D key).
Proof.
  intros K B. apply computes_family; [lia| | |intros; apply (des_dir_blk Encrypt)|intros; apply (des_dir_blk Decrypt)|intros; apply (des_dir_inv Encrypt); assumption].
  - destruct (new_des_computes Encrypt key K B) as (e & Ee & Ce & _). eauto.
  - destruct (new_des_computes Decrypt key K B) as (e & Ee & Ce & _). eauto.
Qed.
(* ---- triple DES ---- *)
Definition tdea_key_size (key : bytes) : Prop := zlen key = 16 \/ zlen key = 24.
Lemma triple_computes k1 k2 k3 d1 d2 d3 : zlen k1 = 8 -> zlen k2 = 8 -> zlen k3 = 8 -> bytes_ok k1 -> bytes_ok k2 -> bytes_ok k3 ->
  let o := BObj triple_des_class (d3des_cook_key k1 d1, d3des_cook_key k2 d2, d3des_cook_key k3 d3) in
  block_computes o 8 (fun b => des_dir d3 k3 (des_dir d2 k2 (des_dir d1 k1 b))) /\ block_checks o 8.
Proof.
  intros L1 L2 L3 B1 B2 B3. cbn zeta. split; [split; [reflexivity|]|].
  - intros src so dst d H1 H2 B. cbn [b_bc b_st bc_transform triple_des_class].
    replace ((so <? 0) || (so >? zlen src - 8) || (d <? 0) || (d >? zlen dst - 8)) with false by lia.
    assert (Ls : zlen (sub src so 8) = 8) by (rewrite zlen_sub; lia). rewrite (d3des_dir k1 d1) by assumption.
    set (x := des_dir d1 k1 (sub src so 8)). destruct (des_dir_blk d1 k1 (sub src so 8)) as (Lx & Bx). fold x in Lx, Bx.
    rewrite sub_splice_same by lia. rewrite (d3des_dir k2 d2) by assumption.
    set (y := des_dir d2 k2 x). destruct (des_dir_blk d2 k2 x) as (Ly & By). fold y in Ly, By.
    rewrite (sub_splice_same _ _ y) by (rewrite ?zlen_splice; lia). rewrite (d3des_dir k3 d3) by assumption.
    set (z := des_dir d3 k3 y). destruct (des_dir_blk d3 k3 y) as (Lz & Bz). fold z in Lz, Bz.
    assert (T : forall u v, zlen u = 8 -> zlen v = 8 -> splice (splice dst d u) d v = splice dst d v).
    { intros u v Hu Hv. assert (Eu : dst = firstn (Z.to_nat d) dst ++ skipn (Z.to_nat d) dst) by (symmetry; apply firstn_skipn).
      assert (Ld : d = zlen (firstn (Z.to_nat d) dst)) by (unfold zlen in *; rewrite firstn_length; lia).
      rewrite Eu at 1 2. rewrite !(MdHash.splice_app_mid _ _ _ d) by exact Ld. do 2 f_equal.
      rewrite skipn_app, skipn_all2 by (unfold zlen in *; lia). replace (length v - length u)%nat with 0%nat by (unfold zlen in *; lia). rewrite skipn_O.
      cbn [app]. f_equal. unfold zlen in Hu, Hv. lia. }
    rewrite (T x y Lx Ly), (T y z Ly Lz). reflexivity.
  - intros src so dst d Hn. cbn [b_bc b_st bc_transform triple_des_class].
    replace ((so <? 0) || (so >? zlen src - 8) || (d <? 0) || (d >? zlen dst - 8)) with true by lia. reflexivity.
Qed.
Lemma new_triple_computes d key : tdea_key_size key -> bytes_ok key ->
  exists o, new_triple_des d key = Ret o /\ block_computes o 8 (tdea_dir d key) /\ block_checks o 8.
Proof.
  intros K B. assert (Q : forall i, 0 <= i -> i + 8 <= zlen key -> zlen (sub key i 8) = 8 /\ bytes_ok (sub key i 8)) by (intros; split; [rewrite zlen_sub; lia|apply bytes_ok_sub; exact B]).
  unfold tdea_key_size in K. destruct (Q 0) as (A1 & A2); [lia|lia|]. destruct (Q 8) as (A3 & A4); [lia|lia|].
  unfold new_triple_des, tdea_dir, tdea_E, tdea_D, tdea_key. replace (negb (zlen key =? 16) && negb (zlen key =? 24)) with false by lia.
  cbn [Z.eqb Pos.eqb andb Z.mul]. change (8 * 0) with 0. change (8 * 1) with 8. change (8 * 2) with 16. destruct K as [K|K]; rewrite K.
  - change (16 =? 24) with false. change (16 =? 16) with true. cbn iota. destruct d; (eexists; split; [reflexivity|]).
    + apply (triple_computes (sub key 0 8) (sub key 8 8) (sub key 0 8) Encrypt Decrypt Encrypt); assumption.
    + apply (triple_computes (sub key 0 8) (sub key 8 8) (sub key 0 8) Decrypt Encrypt Decrypt); assumption.
  - destruct (Q 16) as (A5 & A6); [lia|lia|]. change (24 =? 24) with true. change (24 =? 16) with false. cbn iota. destruct d; (eexists; split; [reflexivity|]).
    + apply (triple_computes (sub key 0 8) (sub key 8 8) (sub key 16 8) Encrypt Decrypt Encrypt); assumption.
    + apply (triple_computes (sub key 16 8) (sub key 8 8) (sub key 0 8) Decrypt Encrypt Decrypt); assumption.
Qed.
Lemma tdea_blk d key b : zlen (tdea_dir d key b) = 8 /\ bytes_ok (tdea_dir d key b).
Proof. destruct d; [apply (des_dir_blk Encrypt)|apply (des_dir_blk Decrypt)]. Qed.
Lemma tdea_inv d key b : zlen b = 8 -> bytes_ok b -> tdea_dir (other d) key (tdea_dir d key b) = b.
Proof.
  intros L B. destruct d; cbn [other tdea_dir]; unfold tdea_E, tdea_D.
  - destruct (des_dir_blk Encrypt (tdea_key key 0) b) as (L1 & B1). destruct (des_dir_blk Decrypt (tdea_key key 1) (des_E (tdea_key key 0) b)) as (L2 & B2). cbn [des_dir] in *.
    assert (I1 := des_dir_inv Encrypt (tdea_key key 2) _ L2 B2). assert (I2 := des_dir_inv Decrypt (tdea_key key 1) _ L1 B1). cbn [des_dir other] in I1, I2. rewrite I1, I2. apply (des_dir_inv Encrypt); assumption.
  - destruct (des_dir_blk Decrypt (tdea_key key 2) b) as (L1 & B1). destruct (des_dir_blk Encrypt (tdea_key key 1) (des_D (tdea_key key 2) b)) as (L2 & B2). cbn [des_dir] in *.
    assert (I1 := des_dir_inv Decrypt (tdea_key key 0) _ L2 B2). assert (I2 := des_dir_inv Encrypt (tdea_key key 1) _ L1 B1). cbn [des_dir other] in I1, I2. rewrite I1, I2. apply (des_dir_inv Decrypt); assumption.
Qed.
Lemma triple_undoes key : tdea_key_size key -> bytes_ok key ->
  exists e d, new_triple_des Encrypt key = Ret e /\ new_triple_des Decrypt key = Ret d /\ undoes e d 8 /\ undoes d e 8.
Proof.
  intros K B. destruct (new_triple_computes Encrypt key K B) as (e & Ee & Ce & _). destruct (new_triple_computes Decrypt key K B) as (d & Ed & Cd & _).
  exists e, d. split; [exact Ee|]. split; [exact Ed|]. split.
  - apply (computes_undoes e d 8 _ _ ltac:(lia) Ce Cd). intros b Lb Bb. destruct (tdea_blk Encrypt key b). split; [assumption|]. split; [assumption|]. apply (tdea_inv Encrypt); assumption.
  - apply (computes_undoes d e 8 _ _ ltac:(lia) Cd Ce). intros b Lb Bb. destruct (tdea_blk Decrypt key b). split; [assumption|]. split; [assumption|]. apply (tdea_inv Decrypt); assumption.
Qed.
Lemma triple_family key : tdea_key_size key -> bytes_ok key -> block_family new_triple_des key 8 (tdea_E key) (tdea_D key).
Proof.
  intros K B. apply computes_family; [lia| | |intros; apply (tdea_blk Encrypt)|intros; apply (tdea_blk Decrypt)|intros; apply (tdea_inv Encrypt); assumption].
  - destruct (new_triple_computes Encrypt key K B) as (e & Ee & Ce & _). eauto.
  - destruct (new_triple_computes Decrypt key K B) as (e & Ee & Ce & _). eauto.
Qed.
Lemma des_key_sizes d key : bytes_ok key ->
  (zlen key = 8 -> exists o, new_des d key = Ret o) /\ (zlen key <> 8 -> new_des d key = Raise (Error Wrong_key_size)) /\
  (tdea_key_size key -> exists o, new_triple_des d key = Ret o) /\ (~ tdea_key_size key -> new_triple_des d key = Raise (Error Wrong_key_size)).
Proof.
  intros B. split; [|split; [|split]]; intros K.
  - destruct (new_des_computes d key K B) as (o & E & _). eauto.
  - unfold new_des. replace (zlen key =? 8) with false by lia. reflexivity.
  - destruct (new_triple_computes d key K B) as (o & E & _). eauto.
  - unfold new_triple_des, tdea_key_size in *. replace (negb (zlen key =? 16) && negb (zlen key =? 24)) with true by lia. reflexivity.
Qed.
