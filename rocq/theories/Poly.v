(* Both variants of Poly1305, behind the buffering of poly1305-donna.c,
   compute the RFC 8439 tag. *)
From Verif Require Import Prelude PreludeFacts BytesNum Word SpecBlock BlockTotal SpecPoly PolyModel Poly64 Poly32 MdModel MdHash.
Ltac Zify.zify_post_hook ::= Z.div_mod_to_equations.

(* what the streaming code needs of the block functions *)
Record poly_ok (P : poly_impl) : Type := {
  po_inv : Z -> Z -> Z -> pi_st P -> Prop;
  po_init : forall key, 32 <= zlen key -> bytes_ok key -> po_inv (poly_r key) (poly_s key) 0 (pi_init P key);
  po_block : forall r s acc x m (final : bool), po_inv r s acc x -> zlen m = 16 -> bytes_ok m ->
    po_inv r s (((acc + le m + (if final then 0 else 2 ^ 128)) * r) mod p1305) (pi_block P x final m);
  po_tag : forall r s acc x, po_inv r s acc x -> pi_tag P x = to_le 16 ((acc + s) mod 2 ^ 128)
}.

Lemma le_one m n : zlen m = n -> le (m ++ [1]) = le m + 256 ^ n.
Proof. intros <-. rewrite le_app. change (le [1]) with 1. lia. Qed.
Lemma le_zeros n : le (zeros n) = 0.
Proof. unfold zeros. induction (Z.to_nat n); cbn [repeat le]; [reflexivity|]. rewrite IHn0. reflexivity. Qed.
Lemma last_block m : 0 <= zlen m < 16 -> le (m ++ 1 :: zeros (15 - zlen m)) = le (m ++ [1]).
Proof. intros H. change (1 :: zeros (15 - zlen m)) with ([1] ++ zeros (15 - zlen m)). rewrite app_assoc, le_app, le_zeros. lia. Qed.

Section Stream.
Variable P : poly_impl.
Variable O : poly_ok P.
Variable key : bytes.
Let r := poly_r key.
Let s := poly_s key.
Let acc blks := fold_left (poly_step r) blks 0.

Lemma step_full blks x b : po_inv P O r s (acc blks) x -> zlen b = 16 -> bytes_ok b -> po_inv P O r s (acc (blks ++ [b])) (pi_block P x false b).
Proof.
  intros H Hl Hb. pose proof (po_block P O r s _ x b false H Hl Hb) as K. unfold acc in *. rewrite fold_left_app. cbn [fold_left]. unfold poly_step at 1.
  rewrite (le_one b 16 Hl). change (256 ^ 16) with (2 ^ 128). rewrite Z.add_assoc. exact K.
Qed.

Lemma blocks_ok n : forall blks x m, 16 * Z.of_nat n <= zlen m -> bytes_ok m -> Forall (fun b => zlen b = 16) blks ->
  po_inv P O r s (acc blks) x ->
  exists blks', concat blks' = concat blks ++ sub m 0 (16 * Z.of_nat n) /\ Forall (fun b => zlen b = 16) blks' /\
    po_inv P O r s (acc blks') (poly_blocks P n x false m).
Proof.
  induction n as [|n IH]; intros blks x m Hl Hb HF H.
  - exists blks. cbn [poly_blocks]. split; [|auto]. change (16 * Z.of_nat 0) with 0. rewrite sub_0_len, app_nil_r. reflexivity.
  - cbn [poly_blocks]. assert (L16 : zlen (firstn 16 m) = 16) by (rewrite zlen_firstn; lia).
    destruct (IH (blks ++ [firstn 16 m]) (pi_block P x false (firstn 16 m)) (skipn 16 m)) as (blks' & E & F & I).
    { rewrite zlen_skipn. lia. } { apply Forall_skipn. assumption. } { apply Forall_app. split; [assumption|]. repeat constructor. assumption. }
    { apply step_full; [assumption|assumption|apply Forall_firstn; assumption]. }
    exists blks'. split; [|auto]. rewrite E, concat_app. cbn [concat]. rewrite app_nil_r, <- app_assoc. f_equal.
    replace (16 * Z.of_nat (S n)) with (16 + 16 * Z.of_nat n) by lia. rewrite sub_app_split by lia. f_equal.
Qed.

Definition poly_rel (c : pctx P) (msg : bytes) : Prop := bytes_ok msg /\ exists blks tail junk,
  msg = concat blks ++ tail /\ Forall (fun b => zlen b = 16) blks /\ zlen tail < 16 /\ po_inv P O r s (acc blks) (pc_st c) /\
  pc_left c = zlen tail /\ pc_buf c = tail ++ junk /\ zlen (tail ++ junk) = 16 /\ pc_final c = false.

Lemma rest_ok c msg m : poly_rel c msg -> pc_left c = 0 -> bytes_ok m -> exists c', poly_rest P c m = Ret c' /\ poly_rel c' (msg ++ m).
Proof.
  intros (Hb & blks & tail & junk & E & HF & Ht & I & L & B & LB & F) L0 Hm. assert (tail = []) as -> by (apply zlen_0; lia).
  cbn [app] in *. rewrite app_nil_r in E. unfold poly_rest. rewrite F, L0. pose proof (zlen_nonneg m) as Hz.
  set (want := if 16 <=? zlen m then 16 * (zlen m / 16) else 0). set (n := Z.to_nat (want / 16)).
  assert (W : want = 16 * Z.of_nat n /\ 0 <= want <= zlen m /\ zlen m - want < 16) by (unfold n, want; destruct (16 <=? zlen m) eqn:Q; lia).
  destruct W as (W & W1 & W2). destruct (blocks_ok n blks (pc_st c) m) as (blks' & E' & F' & I'); [lia|assumption|assumption|assumption|].
  rewrite <- W in E'. clearbody n. clear W.
  assert (Em : m = sub m 0 want ++ skipn (Z.to_nat want) m).
  { unfold sub. cbn [skipn]. change (Z.to_nat 0) with 0%nat. cbn [skipn]. symmetry. apply firstn_skipn. }
  set (t := skipn (Z.to_nat want) m) in *. assert (Lt : zlen t = zlen m - want) by (unfold t; rewrite zlen_skipn; lia).
  assert (Hb' : bytes_ok (msg ++ m)) by (apply bytes_ok_app; auto). assert (EE : msg ++ m = concat blks' ++ t) by (rewrite E', Em at 1; rewrite E, app_assoc; reflexivity).
  pose proof (zlen_nonneg t) as Hzt.
  destruct (zlen t =? 0) eqn:Q.
  - eexists. split; [reflexivity|]. split; [assumption|]. exists blks', t, junk. cbn [pc_st pc_left pc_buf pc_final].
    assert (t = []) as -> by (apply zlen_0; lia). cbn [app]. repeat (split; [first [assumption|reflexivity|lia]|]). reflexivity.
  - rewrite B, c_memcpy_ok by lia. cbn [obind]. eexists. split; [reflexivity|]. split; [assumption|].
    exists blks', t, (skipn (length t) junk). cbn [pc_st pc_left pc_buf pc_final]. rewrite splice_0. rewrite zlen_app, zlen_skipn.
    repeat (split; [first [assumption|reflexivity|unfold zlen in *; lia]|]). reflexivity.
Qed.

Lemma update_ok c msg m : poly_rel c msg -> bytes_ok m -> exists c', poly_update P c m = Ret c' /\ poly_rel c' (msg ++ m).
Proof.
  intros R Hm. unfold poly_update. destruct (pc_left c =? 0) eqn:Q; [apply rest_ok; [assumption|lia|assumption]|].
  destruct R as (Hb & blks & tail & junk & E & HF & Ht & I & L & B & LB & F). rewrite L in *. pose proof (zlen_nonneg m) as Hz. pose proof (zlen_nonneg tail) as Hzt.
  set (want := Z.min (16 - zlen tail) (zlen m)). set (d1 := firstn (Z.to_nat want) m). set (d2 := skipn (Z.to_nat want) m).
  assert (Ed : m = d1 ++ d2) by (symmetry; apply firstn_skipn). assert (L1 : zlen d1 = want) by (unfold d1; rewrite zlen_firstn; lia).
  assert (L2 : zlen d2 = zlen m - want) by (unfold d2; rewrite zlen_skipn; lia).
  assert (Hb12 : bytes_ok d1 /\ bytes_ok d2) by (apply bytes_ok_app; rewrite <- Ed; assumption). destruct Hb12 as (Hb1 & Hb2).
  rewrite B, c_memcpy_ok by lia. cbn [obind]. rewrite splice_app_mid by reflexivity.
  destruct (zlen tail + want <? 16) eqn:K.
  - eexists. split; [reflexivity|]. split; [apply bytes_ok_app; auto|]. exists blks, (tail ++ d1), (skipn (length d1) junk). cbn [pc_st pc_left pc_buf pc_final].
    assert (d2 = []) as -> by (apply zlen_0; lia). rewrite app_nil_r in Ed. rewrite <- app_assoc, !zlen_app, zlen_skipn. rewrite zlen_app in LB.
    split; [rewrite E, Ed, app_assoc; reflexivity|]. repeat (split; [first [assumption|reflexivity|unfold zlen in *; lia]|]). assumption.
  - rewrite skipn_all2 by (rewrite zlen_app in LB; unfold zlen in *; lia). rewrite app_nil_r. rewrite F. cbn [poly_blocks].
    assert (L16 : zlen (tail ++ d1) = 16) by (rewrite zlen_app; lia). rewrite (firstn_all2 (n := 16) (tail ++ d1)) by (unfold zlen in L16; lia).
    assert (Hbt : bytes_ok tail) by (rewrite E in Hb; apply bytes_ok_app in Hb; apply Hb).
    assert (EE : msg ++ m = (msg ++ d1) ++ d2) by (rewrite <- app_assoc, <- Ed; reflexivity). rewrite EE. apply rest_ok; [|reflexivity|assumption].
    split; [apply bytes_ok_app; auto|]. exists (blks ++ [tail ++ d1]), [], (tail ++ d1). cbn [pc_st pc_left pc_buf pc_final app]. rewrite concat_app. cbn [concat].
    split; [rewrite E, !app_nil_r, app_assoc; reflexivity|]. split; [apply Forall_app; split; [assumption|repeat constructor; assumption]|]. split; [reflexivity|].
    split; [apply step_full; [assumption|assumption|apply bytes_ok_app; auto]|]. auto.
Qed.

Lemma finish_ok c msg : poly_rel c msg -> snd (poly_finish P c) = Ret (poly1305 key msg).
Proof.
  intros (Hb & blks & tail & junk & E & HF & Ht & I & L & B & LB & F). unfold poly_finish. rewrite L.
  assert (Hbt : bytes_ok tail) by (rewrite E in Hb; apply bytes_ok_app in Hb; apply Hb). unfold poly1305. fold r s. rewrite E. cbv zeta. pose proof (zlen_nonneg tail) as Hzt.
  destruct (zlen tail =? 0) eqn:Q.
  - cbn [snd]. assert (tail = []) as -> by (apply zlen_0; lia). rewrite app_nil_r, chunks_concat0 by (assumption || lia). f_equal. apply (po_tag P O r). assumption.
  - rewrite chunks_concat, chunks_short by (assumption || lia). rewrite fold_left_app. cbn [fold_left]. fold (acc blks).
    rewrite B, c_memcpy_ok by (rewrite ?zlen_cons, ?zlen_zeros; lia). cbn [snd poly_blocks]. rewrite splice_app_mid by reflexivity.
    assert (LZ : zlen (1 :: zeros (15 - zlen tail)) = 16 - zlen tail) by (rewrite zlen_cons, zlen_zeros; lia).
    rewrite (skipn_all2 junk) by (rewrite zlen_app in LB; unfold zlen in *; lia). rewrite app_nil_r.
    assert (L16 : zlen (tail ++ 1 :: zeros (15 - zlen tail)) = 16) by (rewrite zlen_app; lia).
    rewrite (firstn_all2 (n := 16) (tail ++ _)) by (unfold zlen in L16; unfold zlen; lia). f_equal.
    rewrite (po_tag P O _ _ _ _ (po_block P O r s _ _ _ true I L16 ltac:(apply bytes_ok_app; split; [assumption|constructor; [unfold byte_ok; lia|apply bytes_ok_zeros]]))).
    unfold poly_step. rewrite last_block by lia. rewrite Z.add_0_r. reflexivity.
Qed.

Lemma rel_init fresh : 32 <= zlen key -> bytes_ok key -> zlen (fresh 16) = 16 -> exists c, poly1305_init P fresh key = Ret c /\ poly_rel c [].
Proof.
  intros Hl Hb Hf. unfold poly1305_init. replace (zlen key <? 32) with false by lia. eexists. split; [reflexivity|].
  split; [constructor|]. exists [], [], (fresh 16). cbn [pc_st pc_left pc_buf pc_final app concat].
  repeat (split; [first [assumption|reflexivity|constructor|apply (po_init P O); assumption]|]). reflexivity.
Qed.
End Stream.

(* ---- the two variants ---- *)
Section Both.
Variable w : Z -> Z -> Z.
Hypothesis Hw : forall n x, 0 <= x < 2 ^ n -> w n x = x.
Definition poly64_ok : poly_ok (poly64 w).
Proof.
  refine {| po_inv := (ok64 : Z -> Z -> Z -> pi_st (poly64 w) -> Prop) |}.
  - intros key Hl Hb. exact (init64 key Hl Hb).
  - intros r s acc x m final H Hl Hb. exact (block64 w Hw r s acc x m final H Hl Hb).
  - intros r s acc x H. exact (tag64 w Hw r s acc x H).
Defined.
Definition poly32_ok : poly_ok (poly32 w).
Proof.
  refine {| po_inv := (ok32 : Z -> Z -> Z -> pi_st (poly32 w) -> Prop) |}.
  - intros key Hl Hb. exact (init32 key Hl Hb).
  - intros r s acc x m final H Hl Hb. exact (block32 w Hw r s acc x m final H Hl Hb).
  - intros r s acc x H. exact (tag32 w Hw r s acc x H).
Defined.
End Both.

(* ---- a run of the API: pieces added one after the other, then the tag ---- *)
Definition piece := (bytes * Z * Z)%type.
Definition piece_ok (p : piece) : Prop := let '(buf, ofs, len) := p in 0 <= ofs /\ 0 <= len /\ ofs + len <= zlen buf /\ bytes_ok buf.
Definition piece_data (p : piece) : bytes := let '(buf, ofs, len) := p in sub buf ofs len.
Fixpoint poly_feed (P : poly_impl) (c : pctx P) (ps : list piece) : out (pctx P) :=
  match ps with
  | [] => Ret c
  | (buf, ofs, len) :: ps => match poly1305_update P c buf ofs len with
                             | (c, Ret _) => poly_feed P c ps
                             | (_, Raise e) => Raise e | (_, Undef) => Undef | (_, Hang) => Hang
                             end
  end.
Definition poly_run (P : poly_impl) (fresh : Z -> bytes) (key : bytes) (ps : list piece) : out bytes :=
  olet c := poly1305_init P fresh key in
  olet c := poly_feed P c ps in
  snd (poly1305_final P c).

Lemma poly_update_rel P (O : poly_ok P) key c msg buf ofs len : poly_rel P O key c msg -> piece_ok (buf, ofs, len) ->
  exists c', poly1305_update P c buf ofs len = (c', Ret tt) /\ poly_rel P O key c' (msg ++ sub buf ofs len).
Proof.
  intros R (H1 & H2 & H3 & H4). unfold poly1305_update. rewrite (proj2 (in_range_true _ _ _)) by lia.
  destruct (update_ok P O key c msg (sub buf ofs len) R (bytes_ok_sub _ _ _ H4)) as (c' & -> & R'). exists c'. auto.
Qed.
Lemma poly_run_ok P (O : poly_ok P) fresh key ps : 32 <= zlen key -> bytes_ok key -> zlen (fresh 16) = 16 -> Forall piece_ok ps ->
  poly_run P fresh key ps = Ret (poly1305 key (concat (map piece_data ps))).
Proof.
  intros Hl Hb Hf HF. unfold poly_run. destruct (rel_init P O key fresh Hl Hb Hf) as (c & -> & R). cbn [obind].
  change (concat (map piece_data ps)) with ([] ++ concat (map piece_data ps)). revert c R. generalize (@nil Z) as msg.
  induction HF as [|p ps Hp HF IH]; intros msg c R; cbn [poly_feed].
  - cbn [obind map concat]. rewrite app_nil_r. apply (finish_ok P O). assumption.
  - destruct p as [[buf ofs] len]. destruct (poly_update_rel P O key c msg buf ofs len R Hp) as (c' & -> & R'). rewrite (IH _ _ R').
    cbn [map concat piece_data]. rewrite app_assoc. reflexivity.
Qed.
Lemma poly64_run_ok w (Hw : forall n x, 0 <= x < 2 ^ n -> w n x = x) fresh key ps : 32 <= zlen key -> bytes_ok key -> zlen (fresh 16) = 16 -> Forall piece_ok ps ->
  poly_run (poly64 w) fresh key ps = Ret (poly1305 key (concat (map piece_data ps))).
Proof. exact (poly_run_ok (poly64 w) (poly64_ok w Hw) fresh key ps). Qed.
Lemma poly32_run_ok w (Hw : forall n x, 0 <= x < 2 ^ n -> w n x = x) fresh key ps : 32 <= zlen key -> bytes_ok key -> zlen (fresh 16) = 16 -> Forall piece_ok ps ->
  poly_run (poly32 w) fresh key ps = Ret (poly1305 key (concat (map piece_data ps))).
Proof. exact (poly_run_ok (poly32 w) (poly32_ok w Hw) fresh key ps). Qed.
Lemma mach_fits n x : 0 <= x < 2 ^ n -> mach n x = x.
Proof. apply Z.mod_small. Qed.
