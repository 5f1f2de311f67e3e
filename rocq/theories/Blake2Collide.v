(* Collisions of BLAKE2. *)
From Verif Require Import Prelude PreludeFacts BytesNum Word SpecBlock SpecHash SpecBlake2 BlockTotal HashModel HashSpec Blake2Model Sha Blake2 HashLib MacApi SpecCollide SpecCollide2 Collide MdCollide SpongeCollide.

Section Blake2.
Variable P : blake2.
Hypotheses (Hw : 0 < b_w P) (Hbb : 0 < b_bb P).
Lemma b_F_mod h blk t f : b_F P h blk (t mod 2 ^ (2 * b_w P)) f = b_F P h blk t f.
Proof.
  unfold b_F. set (w := b_w P) in *.
  assert (W : 0 < 2 ^ w) by (apply Z.pow_pos_nonneg; lia).
  assert (E : 2 ^ (2 * w) = 2 ^ w * 2 ^ w) by (rewrite <- Z.pow_add_r by lia; f_equal; lia). rewrite E.
  assert (E1 : (t mod (2 ^ w * 2 ^ w)) mod 2 ^ w = t mod 2 ^ w).
  { rewrite Z.rem_mul_r by lia. rewrite Z.mul_comm, Z.mod_add by lia. apply Z.mod_mod. lia. }
  assert (E2 : ((t mod (2 ^ w * 2 ^ w)) / 2 ^ w) mod 2 ^ w = (t / 2 ^ w) mod 2 ^ w).
  { rewrite Z.rem_mul_r by lia. rewrite Z.mul_comm, Z.div_add by lia. rewrite (Z.div_small (t mod 2 ^ w)) by (apply Z.mod_pos_bound; lia). rewrite Z.add_0_l. apply Z.mod_mod. lia. }
  rewrite E1, E2. reflexivity.
Qed.
Lemma b2_from_cons total t b c blks : b2_from P total t (b :: c :: blks) = (b, (t + b_bb P) mod 2 ^ (2 * b_w P), false) :: b2_from P total (t + b_bb P) (c :: blks).
Proof. reflexivity. Qed.
Lemma b2_fold total blks : blks <> [] -> forall h t, fold_left (b2_step P) (b2_from P total t blks) h = b_F P (b_blocks P h t (removelast blks)) (b_pad P (last blks [])) total true.
Proof.
  induction blks as [|b blks IH]; intros N h t; [contradiction|]. destruct blks as [|c blks].
  - cbn [b2_from fold_left b2_step removelast last b_blocks]. unfold b_pad. apply b_F_mod.
  - rewrite b2_from_cons. cbn [fold_left]. rewrite IH by discriminate. change (removelast (b :: c :: blks)) with (b :: removelast (c :: blks)). change (last (b :: c :: blks) []) with (last (c :: blks) []).
    cbn [b_blocks]. unfold b2_step. now rewrite b_F_mod.
Qed.
Lemma b2_last total blks : blks <> [] -> forall t, exists p, b2_from P total t blks = p ++ [(b_pad P (last blks []), total mod 2 ^ (2 * b_w P), true)].
Proof.
  induction blks as [|b blks IH]; intros N t; [contradiction|]. destruct blks as [|c blks]; [exists []; reflexivity|].
  destruct (IH ltac:(discriminate) (t + b_bb P)) as (p & E). rewrite b2_from_cons, E. exists ((b, (t + b_bb P) mod 2 ^ (2 * b_w P), false) :: p). reflexivity.
Qed.
Lemma b2_length total blks : forall t, length (b2_from P total t blks) = length blks.
Proof. induction blks as [|b blks IH]; intros t; [reflexivity|]. destruct blks as [|c blks]; [reflexivity|]. rewrite b2_from_cons. cbn [length]. now rewrite IH. Qed.
Lemma b2_concat total blks : forall t, exists k, concat (map (fun c : bytes * Z * bool => fst (fst c)) (b2_from P total t blks)) = concat blks ++ zeros k.
Proof.
  induction blks as [|b blks IH]; intros t; [exists 0; reflexivity|]. destruct blks as [|c blks].
  - exists (b_bb P - zlen b). cbn. now rewrite !app_nil_r.
  - destruct (IH (t + b_bb P)) as (k & E). exists k. rewrite b2_from_cons. cbn [map concat fst]. cbn [map concat fst] in E. rewrite E. now rewrite !app_assoc.
Qed.

Notation blocks d := (match d%list with [] => [[]] | _ => chunks (b_bb P) d%list end).
Lemma chunks_any n l : 0 < n -> concat (chunks n l) = l.
Proof.
  intros Hn. destruct (split_blocks n l Hn) as (blks & tail & E & H1 & H2 & H3 & _). rewrite E at 1. rewrite chunks_concat by assumption. rewrite concat_app.
  destruct tail as [|x tail]; [rewrite chunks_nil; cbn; now rewrite app_nil_r, E, app_nil_r|].
  rewrite chunks_short by (rewrite ?zlen_cons; assert (X := zlen_nonneg tail); rewrite zlen_cons in H2; lia). cbn [concat]. now rewrite app_nil_r, E.
Qed.
Lemma blocks_concat d : concat (blocks d) = d.
Proof. destruct d as [|x d]; [reflexivity|]. now apply chunks_any. Qed.
Lemma blocks_nonempty d : blocks d <> [].
Proof. destruct d as [|x d]; [discriminate|]. intros E. apply (f_equal (@concat Z)) in E. rewrite chunks_any in E by exact Hbb. discriminate E. Qed.
Lemma chunks_count_any n l l' : 0 < n -> zlen l = zlen l' -> length (chunks n l) = length (chunks n l').
Proof.
  intros Hn E. assert (E' : length l = length l') by (unfold zlen in E; lia). unfold chunks. rewrite E'. generalize (length l') at 1 2 as k. intros k. clear E. revert l l' E'.
  induction k as [|k IH]; intros l l' E; [reflexivity|]. cbn [chunks_fuel]. destruct l as [|x l]; destruct l' as [|y l']; try discriminate E; [reflexivity|].
  cbn [length]. f_equal. apply IH. rewrite !skipn_length. cbn [length] in *. lia.
Qed.
Lemma blocks_count d d' : zlen d = zlen d' -> length (blocks d) = length (blocks d').
Proof.
  intros E. destruct d as [|x d]; destruct d' as [|y d']; [reflexivity|unfold zlen in E; cbn [length] in E; lia|unfold zlen in E; cbn [length] in E; lia|].
  now apply chunks_count_any.
Qed.

Variables (nn : Z) (key : bytes).
Lemma b2_digest m : blake2_digest P nn key m = firstn (Z.to_nat nn) (concat (map (to_le (Z.to_nat (b_n P))) (fold_left (b2_step P) (b2_calls P key m) (b2_init P key nn)))).
Proof. unfold blake2_digest, b2_calls, b2_init. cbv zeta. rewrite b2_fold by apply blocks_nonempty. reflexivity. Qed.
Lemma b2_calls_nonempty m : b2_calls P key m <> [].
Proof.
  unfold b2_calls. cbv zeta. intros E. destruct (b2_last (zlen (b_data P key m)) _ (blocks_nonempty (b_data P key m)) 0) as (p & E'). rewrite E in E'. destruct p; discriminate E'.
Qed.
Lemma b2_same_length m1 m2 p : zlen (b_data P key m1) < 2 ^ (2 * b_w P) -> zlen (b_data P key m2) < 2 ^ (2 * b_w P) -> b2_calls P key m1 = p ++ b2_calls P key m2 ->
  zlen (b_data P key m1) = zlen (b_data P key m2) /\ p = [].
Proof.
  intros H1 H2 E. unfold b2_calls in E. cbv zeta in E. set (d1 := b_data P key m1) in *. set (d2 := b_data P key m2) in *.
  assert (L : zlen d1 = zlen d2).
  { destruct (b2_last (zlen d1) _ (blocks_nonempty d1) 0) as (p1 & E1). destruct (b2_last (zlen d2) _ (blocks_nonempty d2) 0) as (p2 & E2). rewrite E1, E2, app_assoc in E.
    apply app_tail in E; [|reflexivity]. destruct E as [_ E]. apply (f_equal (fun l => snd (fst (hd ([], 0, true) l)))) in E. cbn [hd fst snd] in E.
    rewrite !Z.mod_small in E by (split; [apply zlen_nonneg|assumption]). exact E. }
  split; [exact L|]. apply (f_equal (@length _)) in E. rewrite app_length, !b2_length, (blocks_count d1 d2 L) in E. destruct p; [reflexivity|cbn [length] in E; lia].
Qed.
Lemma b2_calls_inj m1 m2 : zlen (b_data P key m1) < 2 ^ (2 * b_w P) -> zlen (b_data P key m2) < 2 ^ (2 * b_w P) -> b2_calls P key m1 = b2_calls P key m2 -> m1 = m2.
Proof.
  intros H1 H2 E. destruct (b2_same_length m1 m2 [] H1 H2 E) as [L _]. unfold b2_calls in E. cbv zeta in E.
  apply (f_equal (fun l => concat (map (fun c : bytes * Z * bool => fst (fst c)) l))) in E.
  destruct (b2_concat (zlen (b_data P key m1)) (blocks (b_data P key m1)) 0) as (k1 & E1). destruct (b2_concat (zlen (b_data P key m2)) (blocks (b_data P key m2)) 0) as (k2 & E2).
  rewrite E1, E2, !blocks_concat in E. apply app_head in E; [|unfold zlen in L; lia]. destruct E as [E _]. unfold b_data in E. exact (proj2 (app_head _ _ _ _ eq_refl E)).
Qed.
Lemma b2_collide m1 m2 : zlen (b_data P key m1) < 2 ^ (2 * b_w P) -> zlen (b_data P key m2) < 2 ^ (2 * b_w P) -> m1 <> m2 -> blake2_digest P nn key m1 = blake2_digest P nn key m2 ->
  collision (b2_step P) (b2_init P key nn) (b2_calls P key m1) (b2_calls P key m2) \/
  last_collision (b2_step P) (fun h => firstn (Z.to_nat nn) (concat (map (to_le (Z.to_nat (b_n P))) h))) (b2_init P key nn) (b2_calls P key m1) (b2_calls P key m2).
Proof.
  intros H1 H2 N E. rewrite !b2_digest in E.
  assert (Bd : forall x y : bytes * Z * bool, {x = y} + {x <> y}) by (decide equality; [apply bool_dec|decide equality; [apply Z.eq_dec|apply list_dec]]).
  destruct (collide (b2_step P) (fun h => firstn (Z.to_nat nn) (concat (map (to_le (Z.to_nat (b_n P))) h))) list_dec Bd _ _ _ (b2_calls_nonempty m1) (b2_calls_nonempty m2) E) as [C|[C|[C|(p & Np & _ & [C|C])]]].
  - exfalso. exact (N (b2_calls_inj m1 m2 H1 H2 C)).
  - now left.
  - now right.
  - exfalso. exact (Np (proj2 (b2_same_length m1 m2 p H1 H2 C))).
  - exfalso. exact (Np (proj2 (b2_same_length m2 m1 p H2 H1 C))).
Qed.
End Blake2.


Theorem blake2b_collide fresh sz key o ops1 ops2 : (forall n, 0 <= n -> zlen (fresh n) = n) -> bytes_ok key -> blake2b_obj fresh sz key = Ret o ->
  Forall hop_valid ops1 -> Forall hop_valid ops2 -> zlen (added ops1) < 2 ^ 128 - 128 -> zlen (added ops2) < 2 ^ 128 - 128 -> added ops1 <> added ops2 -> result_of o ops1 = result_of o ops2 ->
  let g h := firstn (Z.to_nat (sz / 8)) (concat (map (to_le 8) h)) in
  let calls m := b2_calls blake2b_params key m in let iv := b2_init blake2b_params key (sz / 8) in
  collision (b2_step blake2b_params) iv (calls (added ops1)) (calls (added ops2)) \/ last_collision (b2_step blake2b_params) g iv (calls (added ops1)) (calls (added ops2)).
Proof.
  intros Hf Hk Ho V1 V2 H1 H2 N E.
  assert (D : (8 <= sz <= 512 /\ sz mod 8 = 0 /\ zlen key <= 64) \/ ~ (8 <= sz <= 512 /\ sz mod 8 = 0 /\ zlen key <= 64)) by lia. destruct D as [(Hsz & Hm & Hl)|D].
  2: { exfalso. assert (X := blake2_new_other 64 12 32 24 16 63 blake2b_iv fresh sz key D). unfold blake2b_obj in Ho. rewrite X in Ho. discriminate Ho. }
  destruct (blake2b_ok fresh sz key Hf Hsz Hm Hl Hk) as (o' & Ho' & _ & Hc). rewrite Ho in Ho'. apply (f_equal (fun r => match r with Ret x => x | _ => o end)) in Ho'. cbn in Ho'. subst o'.
  apply (computes_same _ _ _ _ Hc V1 V2) in E.
  assert (L : forall m, zlen m < 2 ^ 128 - 128 -> zlen (b_data blake2b_params key m) < 2 ^ (2 * b_w blake2b_params)).
  { intros m Hmm. unfold b_data. rewrite zlen_app. change (2 ^ (2 * b_w blake2b_params)) with (2 ^ 128). change (b_bb blake2b_params) with 128.
    destruct (Z.eqb_spec (zlen key) 0); [change (zlen (@nil Z)) with 0; lia|]. rewrite zlen_app, zlen_zeros by lia. lia. }
  exact (b2_collide blake2b_params eq_refl eq_refl (sz / 8) key (added ops1) (added ops2) (L _ H1) (L _ H2) N E).
Qed.

Theorem blake2s_collide fresh sz key o ops1 ops2 : (forall n, 0 <= n -> zlen (fresh n) = n) -> bytes_ok key -> blake2s_obj fresh sz key = Ret o ->
  Forall hop_valid ops1 -> Forall hop_valid ops2 -> zlen (added ops1) < 2 ^ 64 - 64 -> zlen (added ops2) < 2 ^ 64 - 64 -> added ops1 <> added ops2 -> result_of o ops1 = result_of o ops2 ->
  let g h := firstn (Z.to_nat (sz / 8)) (concat (map (to_le 4) h)) in
  let calls m := b2_calls blake2s_params key m in let iv := b2_init blake2s_params key (sz / 8) in
  collision (b2_step blake2s_params) iv (calls (added ops1)) (calls (added ops2)) \/ last_collision (b2_step blake2s_params) g iv (calls (added ops1)) (calls (added ops2)).
Proof.
  intros Hf Hk Ho V1 V2 H1 H2 N E.
  assert (D : (8 <= sz <= 256 /\ sz mod 8 = 0 /\ zlen key <= 32) \/ ~ (8 <= sz <= 256 /\ sz mod 8 = 0 /\ zlen key <= 32)) by lia. destruct D as [(Hsz & Hm & Hl)|D].
  2: { exfalso. assert (X := blake2_new_other 32 10 16 12 8 7 blake2s_iv fresh sz key D). unfold blake2s_obj in Ho. rewrite X in Ho. discriminate Ho. }
  destruct (blake2s_ok fresh sz key Hf Hsz Hm Hl Hk) as (o' & Ho' & _ & Hc). rewrite Ho in Ho'. apply (f_equal (fun r => match r with Ret x => x | _ => o end)) in Ho'. cbn in Ho'. subst o'.
  apply (computes_same _ _ _ _ Hc V1 V2) in E.
  assert (L : forall m, zlen m < 2 ^ 64 - 64 -> zlen (b_data blake2s_params key m) < 2 ^ (2 * b_w blake2s_params)).
  { intros m Hmm. unfold b_data. rewrite zlen_app. change (2 ^ (2 * b_w blake2s_params)) with (2 ^ 64). change (b_bb blake2s_params) with 64.
    destruct (Z.eqb_spec (zlen key) 0); [change (zlen (@nil Z)) with 0; lia|]. rewrite zlen_app, zlen_zeros by lia. lia. }
  exact (b2_collide blake2s_params eq_refl eq_refl (sz / 8) key (added ops1) (added ops2) (L _ H1) (L _ H2) N E).
Qed.
