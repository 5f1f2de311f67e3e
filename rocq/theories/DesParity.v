(* The least significant bit of each byte of a DES key is ignored. *)
From Verif Require Import Prelude PreludeFacts BytesNum SpecBlock SpecDes HashModel BlockModel CipherModel BlockObj DesModel DesApi MacModel.

Lemma land_even x y m : x / 2 = y / 2 -> m mod 2 = 0 -> Z.land x m = Z.land y m.
Proof.
  intros H E. apply Z.bits_inj'. intros n Hn. rewrite !Z.land_spec. destruct (Z.eq_dec n 0) as [->|Hz].
  - assert (Z.testbit m 0 = false) as -> by (rewrite Z.bit0_odd, Zodd_mod, E; reflexivity). rewrite !Bool.andb_false_r. reflexivity.
  - f_equal. replace n with (Z.succ (n - 1)) by lia. rewrite <- !Z.div2_bits by lia. rewrite H. reflexivity.
Qed.
Lemma pc1m_parity key key' : map (fun b => b / 2) key = map (fun b => b / 2) key' -> pc1m key = pc1m key'.
Proof.
  intros H. unfold pc1m. apply map_ext_in. intros l Hl. f_equal. f_equal.
  assert (Hb : nth (l mod 8) bytebit 0 mod 2 = 0).
  { assert (F : forallb (fun l => nth (l mod 8) bytebit 0 mod 2 =? 0) pc1 = true) by (vm_compute; reflexivity).
    rewrite forallb_forall in F. apply Z.eqb_eq, F, Hl. }
  apply land_even; [|exact Hb].
  rewrite <- (map_nth (fun b => b / 2) key 0 (l / 8)), <- (map_nth (fun b => b / 2) key' 0 (l / 8)), H. reflexivity.
Qed.
Lemma map_half_sub key key' o n : map (fun b => b / 2) key = map (fun b => b / 2) key' -> map (fun b => b / 2) (sub key o n) = map (fun b => b / 2) (sub key' o n).
Proof. intros H. unfold sub. rewrite <- !firstn_map, <- !skipn_map, H. reflexivity. Qed.
Lemma half_len key key' : map (fun b => b / 2) key = map (fun b => b / 2) key' -> zlen key = zlen key'.
Proof. intros H. apply (f_equal (@length Z)) in H. rewrite !map_length in H. unfold zlen. congruence. Qed.
Lemma cook_parity key key' d : map (fun b => b / 2) key = map (fun b => b / 2) key' -> d3des_cook_key key d = d3des_cook_key key' d.
Proof. intros H. unfold d3des_cook_key. rewrite (pc1m_parity _ _ H). reflexivity. Qed.
Lemma des_parity d key key' : map (fun b => b / 2) key = map (fun b => b / 2) key' -> new_des d key = new_des d key'.
Proof. intros H. unfold new_des. rewrite (half_len _ _ H), (cook_parity _ _ d H). reflexivity. Qed.
Lemma triple_parity d key key' : map (fun b => b / 2) key = map (fun b => b / 2) key' -> new_triple_des d key = new_triple_des d key'.
Proof.
  intros H. unfold new_triple_des. rewrite (half_len _ _ H).
  rewrite (cook_parity (sub key 0 8) (sub key' 0 8) Encrypt), (cook_parity (sub key 8 8) (sub key' 8 8) Encrypt), (cook_parity (sub key 16 8) (sub key' 16 8) Encrypt),
    (cook_parity (sub key 0 8) (sub key' 0 8) Decrypt), (cook_parity (sub key 8 8) (sub key' 8 8) Decrypt), (cook_parity (sub key 16 8) (sub key' 16 8) Decrypt);
    try (apply map_half_sub; exact H). reflexivity.
Qed.
Lemma final_parity fresh iv p key key' : map (fun b => b / 2) key = map (fun b => b / 2) key' ->
  des_final_triple_des fresh new_des iv p key = des_final_triple_des fresh new_des iv p key'.
Proof.
  intros H. unfold des_final_triple_des. rewrite (half_len _ _ H). unfold bytes_sub, in_range. rewrite (half_len _ _ H).
  destruct (negb (zlen key' =? 16) && negb (zlen key' =? 24)); [reflexivity|].
  destruct (_ && _ && _); [|reflexivity]. cbn [obind]. destruct (_ && _ && _); [|reflexivity]. cbn [obind].
  rewrite (des_parity Encrypt (sub key 0 8) (sub key' 0 8)), (des_parity Decrypt (sub key 8 8) (sub key' 8 8)) by (apply map_half_sub; exact H).
  destruct (zlen key' =? 24).
  - destruct (_ && _ && _); [|reflexivity]. cbn [obind]. rewrite (des_parity Encrypt (sub key 16 8) (sub key' 16 8)) by (apply map_half_sub; exact H). reflexivity.
  - cbn [obind]. rewrite (des_parity Encrypt (sub key 0 8) (sub key' 0 8)) by (apply map_half_sub; exact H). reflexivity.
Qed.
(* triple DES with three equal keys is DES *)
Lemma tdea_same d key b : zlen key = 8 -> bytes_ok key -> zlen b = 8 -> bytes_ok b ->
  match d with Encrypt => tdea_E | Decrypt => tdea_D end (key ++ key ++ key) b = match d with Encrypt => des_E | Decrypt => des_D end key b.
Proof.
  intros L B Lb Bb. assert (T : forall i, 0 <= i <= 2 -> tdea_key (key ++ key ++ key) i = key).
  { intros i Hi. unfold tdea_key. rewrite !zlen_app, L. assert ((i =? 2) && (8 + (8 + 8) =? 16) = false) as -> by lia.
    assert (i = 0 \/ i = 1 \/ i = 2) as [->|[->| ->]] by lia; unfold sub; unfold zlen in L.
    - change (Z.to_nat (8 * 0)) with 0%nat. change (Z.to_nat 8) with 8%nat. cbn [skipn]. rewrite firstn_app, firstn_all2 by lia. replace (8 - length key)%nat with 0%nat by lia. cbn [firstn]. apply app_nil_r.
    - change (Z.to_nat (8 * 1)) with 8%nat. change (Z.to_nat 8) with 8%nat. rewrite skipn_app, skipn_all2 by lia. replace (8 - length key)%nat with 0%nat by lia. cbn [skipn app].
      rewrite firstn_app, firstn_all2 by lia. replace (8 - length key)%nat with 0%nat by lia. cbn [firstn]. apply app_nil_r.
    - change (Z.to_nat (8 * 2)) with 16%nat. change (Z.to_nat 8) with 8%nat. rewrite app_assoc, skipn_app, skipn_all2 by (rewrite app_length; lia). rewrite app_length.
      replace (16 - (length key + length key))%nat with 0%nat by lia. cbn [skipn app]. apply firstn_all2. lia. }
  destruct d; unfold tdea_E, tdea_D; rewrite !T by lia.
  - f_equal. apply (des_dir_inv Encrypt); assumption.
  - f_equal. apply (des_dir_inv Decrypt); assumption.
Qed.
Lemma triple_single d key : zlen key = 8 -> bytes_ok key ->
  exists o o', new_des d key = Ret o /\ new_triple_des d (key ++ key ++ key) = Ret o' /\
    block_computes o 8 (match d with Encrypt => des_E key | Decrypt => des_D key end) /\
    block_computes o' 8 (match d with Encrypt => des_E key | Decrypt => des_D key end).
Proof.
  intros L B. destruct (new_des_computes d key L B) as (o & E & C & _).
  destruct (new_triple_computes d (key ++ key ++ key)) as (o' & E' & C' & _).
  - right. rewrite !zlen_app. lia.
  - repeat (apply Forall_app; split); assumption.
  - exists o, o'. split; [exact E|]. split; [exact E'|]. split; [destruct d; exact C|].
    destruct C' as (C1 & C2). split; [exact C1|]. intros src so dst p H1 H2 H3. rewrite C2 by assumption. f_equal. f_equal. f_equal.
    pose proof (tdea_same d key (sub src so 8) L B ltac:(apply zlen_sub; lia) H3) as T. destruct d; exact T.
Qed.
