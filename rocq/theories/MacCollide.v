(* CBC-MAC: extension of messages, messages of the same length. *)
From Verif Require Import Prelude PreludeFacts BytesNum SpecBlock SpecModes SpecHash SpecMac HashModel HashSpec BlockModel BlockCipher CipherModel CipherSpec CipherApi BlockTotal MacModel Mac MacApi SpecDes DesModel DesApi SpecCollide SpecCollide2 Collide MdCollide HmacCollide WipeHash Blake2Collide SpongeCollide.
From Verif Require Aes Gcm Blake3Chunk.

Definition pad_len (bs : Z) (p : option padding) (u : Z) : option bytes :=
  match p with None => if u =? 0 then Some [] else None | Some p => pad_fn p bs u end.
Lemma message_pad bs p m : mac_message bs p m = option_map (fun l => chunks bs (m ++ l)) (pad_len bs p (zlen m mod bs)).
Proof. unfold mac_message, pad_len. destruct p; [reflexivity|]. destruct (zlen m mod bs =? 0); [|reflexivity]. cbn [option_map]. now rewrite app_nil_r. Qed.
Lemma pad_len_ok bs p u l : 0 < bs -> 0 <= u < bs -> pad_len bs p u = Some l -> bytes_ok l /\ (u + zlen l) mod bs = 0 /\ u + zlen l <= bs.
Proof.
  intros Hb Hu H. destruct p as [p|]; cbn [pad_len] in H.
  - assert (Hp := pad_any (Build_block_cipher unit bs (fun _ _ _ d _ => ((tt, d), Ret tt)) (fun _ => tt)) p (zeros bs) u). cbn [bc_blocksize] in Hp.
    specialize (Hp ltac:(apply zlen_zeros; lia) Hu). rewrite H in Hp. destruct Hp as (_ & Hl & Hlb). rewrite Hl. split; [exact Hlb|]. split; [apply Z.mod_same; lia|lia].
  - destruct (u =? 0) eqn:E; [|discriminate]. injection H as <-. split; [exact (Forall_nil _)|]. change (zlen (@nil Z)) with 0. split; [|lia]. replace (u + 0) with 0 by lia. apply Z.mod_0_l. lia.
Qed.
Lemma blocks_of bs (a : bytes) : 0 < bs -> zlen a mod bs = 0 -> a = concat (chunks bs a) /\ Forall (fun b : bytes => zlen b = bs) (chunks bs a).
Proof.
  intros Hb H. destruct (split_blocks bs a Hb) as (blks & tail & E & H1 & _ & H2 & _). rewrite H in H2. apply zlen_0 in H2. subst tail. rewrite app_nil_r in E. rewrite E, chunks_concat0 by assumption. auto.
Qed.
Lemma chunks_app bs (a m : bytes) : 0 < bs -> zlen a mod bs = 0 -> chunks bs (a ++ m) = chunks bs a ++ chunks bs m.
Proof. intros Hb H. destruct (blocks_of bs a Hb H) as (E & F). rewrite E at 1. apply chunks_concat; assumption. Qed.
Lemma mod_app bs (a m : bytes) : 0 < bs -> zlen a mod bs = 0 -> zlen (a ++ m) mod bs = zlen m mod bs.
Proof. intros Hb H. rewrite zlen_app, <- Z.add_mod_idemp_l, H by lia. reflexivity. Qed.
Lemma message_app bs p a m : 0 < bs -> zlen a mod bs = 0 -> mac_message bs p (a ++ m) = option_map (app (chunks bs a)) (mac_message bs p m).
Proof.
  intros Hb H. rewrite !message_pad, mod_app by assumption. destruct (pad_len bs p (zlen m mod bs)); [|reflexivity]. cbn [option_map]. now rewrite <- app_assoc, chunks_app by assumption.
Qed.
Lemma cbc_app E iv X Y : cbc_mac E iv (X ++ Y) = cbc_mac E (cbc_mac E iv X) Y.
Proof. apply fold_left_app. Qed.
Lemma zlen_firstn_ge bs (m : bytes) : 0 <= bs <= zlen m -> zlen (firstn (Z.to_nat bs) m) = bs.
Proof. intros H. unfold zlen in *. rewrite firstn_length. lia. Qed.

(* ---- extension ---- *)
Theorem extend fresh nb key bs E D iv p o ops1 ops2 ops3 X t : (forall n, 0 <= n -> zlen (fresh n) = n) -> block_family nb key bs E D -> mac_iv_ok bs iv ->
  (forall q, p = Some q -> pad_supports q bs) -> block_mac fresh (nb Encrypt) iv (option_map scheme_of p) key = Ret o ->
  Forall hop_valid ops1 -> Forall hop_valid ops2 -> Forall hop_valid ops3 ->
  mac_message bs p (added ops1) = Some X -> result_of o ops1 = Ret t -> bs <= zlen (added ops2) ->
  added ops3 = concat X ++ xorb (firstn (Z.to_nat bs) (added ops2)) (xorb t (iv_val bs iv)) ++ skipn (Z.to_nat bs) (added ops2) ->
  result_of o ops3 = result_of o ops2.
Proof.
  intros Hf F Hiv Hp Ho V1 V2 V3 HX Ht L2 E3. destruct (block_mac_ok fresh nb key bs E D iv p Hf F Hiv Hp) as (o' & Ho' & _ & C). rewrite Ho in Ho'. apply ret_inj in Ho'. subst o'.
  destruct (C ops1 V1 Logic.I) as (_ & R1 & _). destruct (C ops2 V2 Logic.I) as (_ & R2 & _). destruct (C ops3 V3 Logic.I) as (_ & R3 & _). unfold result_of in *. rewrite R2, R3. clear R2 R3 C.
  rewrite R1, HX in Ht. cbn [option_map mac_out] in Ht. apply ret_inj in Ht. pose proof (fam_bs _ _ _ _ _ F) as Hb. destruct (mac_iv bs iv ltac:(lia) Hiv) as (_ & Li & Bi).
  set (v := iv_val bs iv) in *. set (m1 := added ops1) in *. set (m2 := added ops2) in *. clear R1.
  assert (B1 : bytes_ok m1) by (apply added_bytes; exact V1).
  pose proof (mac_message_ok bs p m1 X ltac:(lia) B1 HX) as XO. destruct (cbc_mac_ok E bs X (fam_len _ _ _ _ _ F) XO v Li Bi) as (Lt & _). rewrite Ht in Lt.
  set (f := firstn (Z.to_nat bs) m2) in *. set (r := skipn (Z.to_nat bs) m2) in *. assert (Lf : zlen f = bs) by (apply zlen_firstn_ge; lia).
  assert (E2 : m2 = f ++ r) by (symmetry; apply firstn_skipn). 
  assert (Lg : zlen (xorb f (xorb t v)) = bs) by (rewrite !zlen_xorb; rewrite ?zlen_xorb; lia).
  assert (XB : Forall (fun b : bytes => zlen b = bs) X) by (eapply Forall_impl; [|exact XO]; cbn; tauto).
  assert (M0 : zlen (concat X) mod bs = 0).
  { clear - XB Hb. induction XB as [|b X Lb XB IH]; [apply Z.mod_0_l; lia|]. cbn [concat]. rewrite mod_app; [exact IH|lia|]. rewrite Lb. apply Z.mod_same. lia. }
  assert (Hone : forall g : bytes, zlen g = bs -> zlen g mod bs = 0) by (intros g ->; apply Z.mod_same; lia).
  assert (Hch : forall g, zlen g = bs -> chunks bs g = [g]) by (intros g Lg'; apply chunks_short; lia).
  rewrite E3, E2, message_app, chunks_concat0 by (assumption || lia). rewrite !message_app, !Hch by (assumption || lia || (apply Hone; assumption)).
  destruct (mac_message bs p r) as [R|]; [|reflexivity]. cbn [option_map mac_out]. f_equal. rewrite !cbc_app, Ht. f_equal. unfold cbc_mac. cbn [fold_left]. f_equal.
  rewrite Aes.xorb_assoc. f_equal. rewrite (xorb_comm t v). apply xorb_cancel. unfold zlen in *. lia.
Qed.

(* ---- one block differs ---- *)
Section Inj.
Variables (bs : Z) (E : bytes -> bytes).
Hypothesis E_ok : forall b, zlen b = bs -> bytes_ok b -> zlen (E b) = bs /\ bytes_ok (E b).
Hypothesis E_inj : forall a b, zlen a = bs -> zlen b = bs -> bytes_ok a -> bytes_ok b -> E a = E b -> a = b.
Let blk := fun b : bytes => zlen b = bs /\ bytes_ok b.
Lemma cbc_state_inj X : Forall blk X -> forall a b, blk a -> blk b -> cbc_mac E a X = cbc_mac E b X -> a = b.
Proof.
  induction 1 as [|x X (Lx & Bx) HX IH]; intros a b (La & Ba) (Lb & Bb) H; [exact H|]. cbn [cbc_mac fold_left] in H. fold (cbc_mac E (E (xorb x a)) X) in H. fold (cbc_mac E (E (xorb x b)) X) in H.
  assert (L1 : zlen (xorb x a) = bs) by (rewrite zlen_xorb; lia). assert (L2 : zlen (xorb x b) = bs) by (rewrite zlen_xorb; lia).
  assert (O1 := bytes_ok_xorb _ _ Bx Ba). assert (O2 := bytes_ok_xorb _ _ Bx Bb).
  apply IH in H; [|apply E_ok; assumption|apply E_ok; assumption]. apply E_inj in H; try assumption. rewrite (xorb_comm x a), (xorb_comm x b) in H.
  apply xorb_inj in H; [exact H| |]; unfold zlen in *; lia.
Qed.
Lemma cbc_one iv A x y B : blk iv -> Forall blk A -> Forall blk B -> blk x -> blk y -> cbc_mac E iv (A ++ x :: B) = cbc_mac E iv (A ++ y :: B) -> x = y.
Proof.
  intros (Li & Bi) HA HB (Lx & Bx) (Ly & By) H. rewrite !cbc_app in H. destruct (cbc_mac_ok E bs A E_ok HA iv Li Bi) as (Lc & Bc). set (c := cbc_mac E iv A) in *. cbn [cbc_mac fold_left] in H.
  assert (L1 : zlen (xorb x c) = bs) by (rewrite zlen_xorb; lia). assert (L2 : zlen (xorb y c) = bs) by (rewrite zlen_xorb; lia).
  assert (O1 := bytes_ok_xorb _ _ Bx Bc). assert (O2 := bytes_ok_xorb _ _ By Bc).
  apply (cbc_state_inj B HB) in H; [|apply E_ok; assumption|apply E_ok; assumption]. apply E_inj in H; try assumption. apply xorb_inj in H; [exact H| |]; unfold zlen in *; lia.
Qed.
Lemma cbc_same_length iv X : blk iv -> forall Y, Forall blk X -> Forall blk Y -> length X = length Y -> X <> Y -> cbc_mac E iv X = cbc_mac E iv Y ->
  exists A B x y R, X = A ++ x :: R /\ Y = B ++ y :: R /\ length A = length B /\ x <> y /\ cbc_mac E iv A <> cbc_mac E iv B /\ xorb x (cbc_mac E iv A) = xorb y (cbc_mac E iv B).
Proof.
  intros Hiv. induction X as [|x X IH] using rev_ind; intros Y HX HY L N H.
  - destruct Y; [congruence|discriminate].
  - destruct Y as [|y Y _] using rev_ind; [rewrite app_length in L; cbn in L; lia|]. rewrite !app_length in L. cbn [length] in L. apply Forall_app in HX, HY. destruct HX as (HX & Hx), HY as (HY & Hy).
    apply Forall_inv in Hx, Hy. rewrite !cbc_app in H. destruct Hiv as (Li & Bi). destruct (cbc_mac_ok E bs X E_ok HX iv Li Bi) as (Lc & Bc), (cbc_mac_ok E bs Y E_ok HY iv Li Bi) as (Ld & Bd).
    destruct Hx as (Lx & Bx), Hy as (Ly & By). unfold cbc_mac at 1 3 in H. cbn [fold_left] in H. apply E_inj in H; try (rewrite ?zlen_xorb; lia); try (apply bytes_ok_xorb; assumption).
    destruct (list_dec x y) as [->|Nx].
    + assert (Hc : cbc_mac E iv X = cbc_mac E iv Y) by (rewrite (xorb_comm y (cbc_mac E iv X)), (xorb_comm y (cbc_mac E iv Y)) in H; apply xorb_inj in H; [exact H| |]; unfold zlen in *; lia).
      destruct (IH Y HX HY ltac:(lia) ltac:(congruence) Hc) as (A & B & a & b & R & -> & -> & Q). exists A, B, a, b, (R ++ [y]). rewrite <- !app_assoc. cbn [app]. split; [reflexivity|]. split; [reflexivity|exact Q].
    + exists X, Y, x, y, []. split; [reflexivity|]. split; [reflexivity|]. split; [lia|]. split; [exact Nx|]. split; [|exact H]. intros Q. rewrite Q in H. apply xorb_inj in H; [congruence| |]; unfold zlen in *; lia.
Qed.
End Inj.

(* a difference of at most a block, at a boundary: a difference of one piece *)
Lemma one_piece bs a x y b : 0 < bs -> zlen a mod bs = 0 -> zlen x = zlen y -> zlen x <= bs -> x <> y ->
  exists A u v R, zlen u = zlen v /\ 0 < zlen u <= bs /\ u <> v /\ chunks bs (a ++ x ++ b) = A ++ u :: R /\ chunks bs (a ++ y ++ b) = A ++ v :: R /\
    (bytes_ok x -> bytes_ok y -> bytes_ok b -> bytes_ok u /\ bytes_ok v) /\ (R <> [] -> zlen u = bs) /\ (zlen (x ++ b) mod bs = 0 -> zlen u = bs) /\ A = chunks bs a.
Proof.
  intros Hb Ha Lxy Lx N. assert (Px : 0 < zlen x).
  { destruct x, y; try (unfold zlen in Lxy; cbn [length] in Lxy; lia); [congruence|]. rewrite zlen_cons. pose proof (zlen_nonneg x). lia. }
  assert (exists k, Z.of_nat k = bs - zlen x) as (k & Ek) by (exists (Z.to_nat (bs - zlen x)); lia). exists (chunks bs a), (x ++ firstn k b), (y ++ firstn k b), (chunks bs (skipn k b)). rewrite (chunks_app bs a (x ++ b)), (chunks_app bs a (y ++ b)) by assumption.
  assert (Lk : zlen (firstn k b) = Z.min (bs - zlen x) (zlen b)) by (unfold zlen in *; rewrite firstn_length; lia). pose proof (zlen_nonneg b) as Pb.
  assert (Hc : forall z : bytes, zlen z = zlen x -> chunks bs (z ++ b) = (z ++ firstn k b) :: chunks bs (skipn k b)).
  { intros z Lz. destruct (Z_lt_ge_dec (zlen b) (bs - zlen x)) as [S|S].
    - rewrite (firstn_all2 b), (skipn_all2 b), chunks_nil by (unfold zlen in *; lia). apply chunks_short. rewrite zlen_app. lia.
    - rewrite <- (firstn_skipn k b) at 1. rewrite app_assoc. apply chunks_cons; [lia|]. rewrite zlen_app. lia. }
  rewrite !zlen_app, Lk, !Hc by congruence. split; [lia|]. split; [lia|]. split; [intros Q; apply app_head in Q; [tauto|unfold zlen in Lxy; lia]|]. split; [reflexivity|]. split; [reflexivity|].
  split; [intros B1 B2 B3; split; apply bytes_ok_app; split; try assumption; apply (Blake3Chunk.bytes_ok_split b k); assumption|].
  assert (S : zlen b < bs - zlen x \/ bs - zlen x <= zlen b) by lia. split; [|split; [|reflexivity]].
  - intros NR. destruct S as [S|S]; [|lia]. destruct NR. rewrite skipn_all2 by (unfold zlen in *; lia). apply chunks_nil.
  - intros Hm. destruct S as [S|S]; [|lia]. exfalso. rewrite Z.mod_small in Hm; lia.
Qed.
Lemma fam_inj nb key bs E D : block_family nb key bs E D -> forall a b, zlen a = bs -> zlen b = bs -> bytes_ok a -> bytes_ok b -> E a = E b -> a = b.
Proof. intros F a b La Lb Ba Bb H. rewrite <- (fam_inv _ _ _ _ _ F a La Ba), <- (fam_inv _ _ _ _ _ F b Lb Bb). now rewrite H. Qed.

(* messages that are cut in blocks and padded *)
Lemma message_one bs p a x y b X : 0 < bs -> zlen a mod bs = 0 -> zlen x = zlen y -> zlen x <= bs -> x <> y -> bytes_ok x -> bytes_ok y -> bytes_ok b -> bytes_ok a ->
  mac_message bs p (a ++ x ++ b) = Some X -> exists A u v R, X = A ++ u :: R /\ mac_message bs p (a ++ y ++ b) = Some (A ++ v :: R) /\ u <> v /\
    zlen u = bs /\ zlen v = bs /\ bytes_ok u /\ bytes_ok v /\ Forall (fun b : bytes => zlen b = bs /\ bytes_ok b) A /\ Forall (fun b : bytes => zlen b = bs /\ bytes_ok b) R.
Proof.
  intros Hb Ha Lxy Lx N Bx By Bb Ba H. pose proof H as H0. rewrite message_pad in *.
  assert (EL : zlen (a ++ x ++ b) = zlen (a ++ y ++ b)) by (rewrite !zlen_app; lia). rewrite <- EL. pose proof (Z.mod_pos_bound (zlen (a ++ x ++ b)) bs Hb) as Hu.
  destruct (pad_len bs p (zlen (a ++ x ++ b) mod bs)) as [l|] eqn:P; [|discriminate]. apply pad_len_ok in P; [|exact Hb|exact Hu]. destruct P as (Bl & Ml & _). cbn [option_map] in H |- *. injection H as <-.
  rewrite <- !app_assoc. destruct (one_piece bs a x y (b ++ l) Hb Ha Lxy Lx N) as (A & u & v & R & L1 & L2 & Nu & E1 & E2 & B3 & _ & L3 & EA).
  assert (M : zlen (x ++ b ++ l) mod bs = 0). { rewrite Z.add_mod_idemp_l, <- zlen_app, <- !app_assoc, mod_app in Ml by (assumption || lia). exact Ml. }
  specialize (L3 M). destruct (B3 Bx By ltac:(apply bytes_ok_app; auto)) as (Bu & Bv). exists A, u, v, R. rewrite E1, E2. split; [reflexivity|]. split; [reflexivity|]. split; [exact Nu|].
  split; [exact L3|]. split; [lia|]. split; [exact Bu|]. split; [exact Bv|].
  assert (FO : Forall (fun b : bytes => zlen b = bs /\ bytes_ok b) (A ++ u :: R)).
  { rewrite <- E1. apply chunks_ok; [exact Hb| |repeat (apply bytes_ok_app; split; try assumption)]. rewrite mod_app by assumption. exact M. }
  apply Forall_app in FO. destruct FO as (F1 & F2). apply Forall_inv_tail in F2. auto.
Qed.
Lemma bytes_ok_parts a x b : bytes_ok (a ++ x ++ b) -> bytes_ok a /\ bytes_ok x /\ bytes_ok b.
Proof. intros H. apply bytes_ok_app in H. destruct H as (H1 & H2). apply bytes_ok_app in H2. tauto. Qed.

Theorem one_block fresh nb key bs E D iv p o ops1 ops2 a x y b t : (forall n, 0 <= n -> zlen (fresh n) = n) -> block_family nb key bs E D -> mac_iv_ok bs iv ->
  (forall q, p = Some q -> pad_supports q bs) -> block_mac fresh (nb Encrypt) iv (option_map scheme_of p) key = Ret o -> Forall hop_valid ops1 -> Forall hop_valid ops2 ->
  added ops1 = a ++ x ++ b -> added ops2 = a ++ y ++ b -> zlen a mod bs = 0 -> zlen x = zlen y -> zlen x <= bs -> x <> y -> result_of o ops1 = Ret t -> result_of o ops2 <> Ret t.
Proof.
  intros Hf F Hiv Hp Ho V1 V2 E1 E2 Ha Lxy Lx N Ht Ht2. destruct (block_mac_ok fresh nb key bs E D iv p Hf F Hiv Hp) as (o' & Ho' & _ & C). rewrite Ho in Ho'. apply ret_inj in Ho'. subst o'.
  destruct (C ops1 V1 Logic.I) as (_ & R1 & _). destruct (C ops2 V2 Logic.I) as (_ & R2 & _). unfold result_of in *. rewrite R1 in Ht. rewrite R2 in Ht2. clear R1 R2 C Ho.
  apply added_bytes in V1, V2. rewrite E1 in V1, Ht. rewrite E2 in V2, Ht2. destruct (bytes_ok_parts _ _ _ V1) as (Ba & Bx & Bb), (bytes_ok_parts _ _ _ V2) as (_ & By & _).
  pose proof (fam_bs _ _ _ _ _ F) as Hb. destruct (mac_message bs p (a ++ x ++ b)) as [X|] eqn:EX; [|discriminate].
  apply message_one with (y := y) in EX; try assumption; [|lia]. destruct EX as (A & u & v & R & -> & EY & Nu & Lu & Lv & Bu & Bv & FA & FR). rewrite EY in Ht2. cbn [option_map mac_out] in *.
  apply ret_inj in Ht, Ht2. destruct (mac_iv bs iv ltac:(lia) Hiv) as (_ & Li & Bi).
  apply Nu, (cbc_one bs E (fam_len _ _ _ _ _ F) (fam_inj _ _ _ _ _ F) (iv_val bs iv) A u v R); try assumption; try (split; assumption). congruence.
Qed.
Theorem one_block_final fresh key iv p o ops1 ops2 a x y b t : (forall n, 0 <= n -> zlen (fresh n) = n) -> bytes_ok key -> zlen key = 16 \/ zlen key = 24 -> mac_iv_ok 8 iv ->
  des_final_triple_des fresh new_des iv (option_map scheme_of p) key = Ret o -> Forall hop_valid ops1 -> Forall hop_valid ops2 ->
  added ops1 = a ++ x ++ b -> added ops2 = a ++ y ++ b -> zlen a mod 8 = 0 -> zlen x = zlen y -> zlen x <= 8 -> x <> y -> result_of o ops1 = Ret t -> result_of o ops2 <> Ret t.
Proof.
  intros Hf Bk Lk Hiv Ho V1 V2 E1 E2 Ha Lxy Lx N Ht Ht2.
  destruct (des_final_ok fresh new_des des_E des_D key iv p Hf des_family Bk Lk Hiv) as (o' & Ho' & _ & C). rewrite Ho in Ho'. apply ret_inj in Ho'. subst o'.
  destruct (C ops1 V1 Logic.I) as (_ & R1 & _). destruct (C ops2 V2 Logic.I) as (_ & R2 & _). unfold result_of in *. rewrite R1 in Ht. rewrite R2 in Ht2. clear R1 R2 C Ho.
  apply added_bytes in V1, V2. rewrite E1 in V1, Ht. rewrite E2 in V2, Ht2. destruct (bytes_ok_parts _ _ _ V1) as (Ba & Bx & Bb), (bytes_ok_parts _ _ _ V2) as (_ & By & _).
  destruct (mac_message 8 p (a ++ x ++ b)) as [X|] eqn:EX; [|discriminate].
  apply message_one with (y := y) in EX; try assumption; [|lia]. destruct EX as (A & u & v & R & -> & EY & Nu & Lu & Lv & Bu & Bv & FA & FR). rewrite EY in Ht2. cbn [option_map mac_out] in *.
  apply ret_inj in Ht, Ht2. destruct (mac_iv 8 iv ltac:(lia) Hiv) as (_ & Li & Bi).
  set (k0 := key_part key 0) in *. set (k1 := key_part key 1) in *. set (k2 := key_part key (if zlen key =? 24 then 2 else 0)) in *.
  assert (inj : forall d k a b, zlen a = 8 -> zlen b = 8 -> bytes_ok a -> bytes_ok b -> des_dir d k a = des_dir d k b -> a = b).
  { intros d k a' b' L1 L2 O1 O2 Q. rewrite <- (des_dir_inv d k a' L1 O1), <- (des_dir_inv d k b' L2 O2). now rewrite Q. }
  assert (Hk0 : forall b, zlen b = 8 -> bytes_ok b -> zlen (des_E k0 b) = 8 /\ bytes_ok (des_E k0 b)) by (intros; apply (des_dir_blk Encrypt)).
  assert (CO : forall w, zlen w = 8 -> bytes_ok w -> zlen (cbc_mac (des_E k0) (iv_val 8 iv) (A ++ w :: R)) = 8 /\ bytes_ok (cbc_mac (des_E k0) (iv_val 8 iv) (A ++ w :: R))).
  { intros w Lw Bw. apply (cbc_mac_ok (des_E k0) 8); try assumption. apply Forall_app. split; [exact FA|]. constructor; [auto|exact FR]. }
  destruct (CO u Lu Bu) as (L1 & O1), (CO v Lv Bv) as (L2 & O2).
  apply Nu, (cbc_one 8 (des_E k0) Hk0 (inj Encrypt k0) (iv_val 8 iv) A u v R); try assumption; try (split; assumption).
  rewrite <- Ht2 in Ht. apply (inj Encrypt k2) in Ht; try apply (des_dir_blk Decrypt). apply (inj Decrypt k1) in Ht; assumption.
Qed.

(* CMAC *)
Lemma removelast_mid {T} (A : list T) u R : R <> [] -> removelast (A ++ u :: R) = A ++ u :: removelast R.
Proof. intros H. change (A ++ u :: R) with (A ++ [u] ++ R). rewrite app_assoc, removelast_app by exact H. now rewrite <- app_assoc. Qed.
Lemma last_mid {T} (A : list T) u R d : R <> [] -> last (A ++ u :: R) d = last R d.
Proof. intros H. induction A as [|a A IH]; [destruct R; [congruence|reflexivity]|]. cbn [app]. destruct (A ++ u :: R) eqn:Q; [destruct A; discriminate|]. rewrite <- IH. reflexivity. Qed.
Lemma cmac_last_ok E u : zlen (E (zeros 16)) = 16 -> bytes_ok (E (zeros 16)) -> zlen u <= 16 -> bytes_ok u -> zlen (cmac_last E u) = 16 /\ bytes_ok (cmac_last E u).
Proof.
  intros L B Lu Bu. assert (K : forall k, zlen (to_be 16 k) = 16 /\ bytes_ok (to_be 16 k)) by (intros k; split; [unfold zlen; rewrite length_to_be; reflexivity|apply bytes_ok_to_be]).
  unfold cmac_last, cmac_K1, cmac_K2. pose proof (zlen_nonneg u). destruct (zlen u =? 16) eqn:Q.
  - destruct (K (gf_double (be (E (zeros 16))))) as (K1 & K2). split; [rewrite zlen_xorb; lia|apply bytes_ok_xorb; assumption].
  - destruct (K (gf_double (gf_double (be (E (zeros 16)))))) as (K1 & K2). assert (LL : zlen (u ++ [128] ++ zeros (15 - zlen u)) = 16) by (rewrite !zlen_app, zlen_zeros by lia; change (zlen [128]) with 1; lia).
    split; [rewrite zlen_xorb; lia|apply bytes_ok_xorb; [|assumption]]. apply bytes_ok_app. split; [exact Bu|]. apply bytes_ok_app. split; [repeat constructor; unfold byte_ok; lia|apply bytes_ok_zeros].
Qed.
Lemma cmac_last_inj E u v : zlen u = zlen v -> zlen u <= 16 -> cmac_last E u = cmac_last E v -> u = v.
Proof.
  intros L Lu. unfold cmac_last, cmac_K1, cmac_K2. rewrite <- L. pose proof (zlen_nonneg u). assert (K : forall k, length (to_be 16 k) = 16%nat) by (intros k; apply length_to_be). destruct (zlen u =? 16) eqn:Q; intros H0.
  - apply xorb_inj in H0; [exact H0| |]; rewrite K; unfold zlen in *; lia.
  - apply xorb_inj in H0; [apply app_head in H0; [tauto|unfold zlen in L; lia]| |]; rewrite K; unfold zeros; rewrite !app_length, repeat_length; cbn [length]; unfold zlen in *; lia.
Qed.
Theorem one_block_cmac fresh nb key E D iv o ops1 ops2 a x y b : (forall n, 0 <= n -> zlen (fresh n) = n) -> block_family nb key 16 E D -> mac_iv_ok 16 iv ->
  aes_cmac fresh (nb Encrypt) iv key = Ret o -> Forall hop_valid ops1 -> Forall hop_valid ops2 ->
  added ops1 = a ++ x ++ b -> added ops2 = a ++ y ++ b -> zlen a mod 16 = 0 -> zlen x = zlen y -> zlen x <= 16 -> x <> y -> result_of o ops1 <> result_of o ops2.
Proof.
  intros Hf F Hiv Ho V1 V2 E1 E2 Ha Lxy Lx N Ht. destruct (aes_cmac_ok fresh nb key E D iv Hf F Hiv) as (o' & Ho' & _ & C). rewrite Ho in Ho'. apply ret_inj in Ho'. subst o'.
  destruct (C ops1 V1 Logic.I) as (_ & R1 & _). destruct (C ops2 V2 Logic.I) as (_ & R2 & _). unfold result_of in *. rewrite R1, R2 in Ht. clear R1 R2 C Ho. apply ret_inj in Ht.
  apply added_bytes in V1, V2. rewrite E1 in V1, Ht. rewrite E2 in V2, Ht. destruct (bytes_ok_parts _ _ _ V1) as (Ba & Bx & Bb), (bytes_ok_parts _ _ _ V2) as (_ & By & _).
  destruct (one_piece 16 a x y b ltac:(lia) Ha Lxy Lx N) as (A & u & v & R & L1 & L2 & Nu & C1 & C2 & B3 & LR & _ & EA). destruct (B3 Bx By Bb) as (Bu & Bv).
  assert (FA : Forall (fun b : bytes => zlen b = 16 /\ bytes_ok b) A) by (rewrite EA; apply chunks_ok; [lia|exact Ha|exact Ba]).
  unfold cmac_spec in Ht. rewrite C1, C2 in Ht. destruct (mac_iv 16 iv ltac:(lia) Hiv) as (_ & Li & Bi). set (w := iv_val 16 iv) in *.
  destruct (fam_len _ _ _ _ _ F (zeros 16) ltac:(reflexivity) (bytes_ok_zeros _)) as (LE & BE).
  pose proof (cbc_one 16 E (fam_len _ _ _ _ _ F) (fam_inj _ _ _ _ _ F) w) as ONE.
  destruct R as [|r R].
  - rewrite !removelast_last, !last_last in Ht. apply ONE in Ht; try (split; assumption); try assumption; try constructor; try (apply cmac_last_ok; try assumption; lia).
    apply cmac_last_inj in Ht; [congruence|lia|lia].
  - specialize (LR ltac:(discriminate)). rewrite !removelast_mid, !last_mid, <- !app_assoc in Ht by discriminate. cbn [app] in Ht.
    assert (FR : Forall (fun b : bytes => 0 < zlen b <= 16 /\ bytes_ok b) (A ++ u :: r :: R)).
    { rewrite <- C1. destruct (Gcm.chunks_sizes (a ++ x ++ b)) as (S1 & S2 & _). specialize (S2 V1). apply Forall_forall. intros z Hz. rewrite Forall_forall in S1, S2. auto. }
    apply Forall_app in FR. destruct FR as (_ & FR). apply Forall_inv_tail in FR.
    assert (FF : Forall (fun b : bytes => zlen b = 16 /\ bytes_ok b) (removelast (r :: R))).
    { pose proof (chunks_any 16 (a ++ x ++ b) ltac:(lia)) as CC. 
      destruct (split_blocks 16 (a ++ x ++ b) ltac:(lia)) as (blks & tail & EQ & F1 & F2 & F3 & F4). destruct (F4 V1) as (F5 & _). rewrite EQ, chunks_concat in C1 by (assumption || lia).
      assert (FB : Forall (fun b : bytes => zlen b = 16 /\ bytes_ok b) blks) by (apply Forall_forall; intros z Hz; rewrite Forall_forall in F1, F5; auto).
      assert (FX : Forall (fun b : bytes => zlen b = 16 /\ bytes_ok b) (removelast (A ++ u :: r :: R))).
      { rewrite <- C1. destruct tail as [|t0 tail].
        - rewrite chunks_nil, app_nil_r. clear -FB. induction FB as [|z l Hz HF IH]; [constructor|]. cbn [removelast]. destruct l; constructor; assumption.
        - rewrite chunks_short, removelast_last by (rewrite zlen_cons in *; pose proof (zlen_nonneg tail); lia). exact FB. }
      rewrite removelast_mid in FX by discriminate. apply Forall_app in FX. destruct FX as (_ & FX). exact (Forall_inv_tail FX). }
    apply Nu. apply ONE in Ht; try assumption; try (split; assumption || lia).
    apply Forall_app. split; [exact FF|]. constructor; [|constructor]. assert (IL : In (last (r :: R) []) (r :: R)) by (rewrite (app_removelast_last (l := r :: R) []) at 2 by discriminate; apply in_or_app; right; left; reflexivity).
    rewrite Forall_forall in FR. destruct (FR _ IL). apply cmac_last_ok; try assumption; lia.
Qed.

(* ---- messages of the same length ---- *)
Theorem same_length fresh nb key bs E D iv p o ob ops1 ops2 t : (forall n, 0 <= n -> zlen (fresh n) = n) -> block_family nb key bs E D -> mac_iv_ok bs iv ->
  (forall q, p = Some q -> pad_supports q bs) -> block_mac fresh (nb Encrypt) iv (option_map scheme_of p) key = Ret o -> block_mac fresh (nb Encrypt) iv None key = Ret ob ->
  Forall hop_valid ops1 -> Forall hop_valid ops2 -> zlen (added ops1) = zlen (added ops2) -> added ops1 <> added ops2 -> result_of o ops1 = Ret t -> result_of o ops2 = Ret t ->
  exists a b x y l r, added ops1 ++ l = a ++ x ++ r /\ added ops2 ++ l = b ++ y ++ r /\ zlen a = zlen b /\ zlen a mod bs = 0 /\ zlen x = bs /\ zlen y = bs /\ x <> y /\ zlen l <= bs /\
    exists ta tb, ta <> tb /\ xorb ta tb = xorb x y /\ (forall ops, Forall hop_valid ops -> added ops = a -> result_of ob ops = Ret ta) /\ (forall ops, Forall hop_valid ops -> added ops = b -> result_of ob ops = Ret tb).
Proof.
  intros Hf F Hiv Hp Ho Hob V1 V2 EL N Ht Ht2. pose proof (fam_bs _ _ _ _ _ F) as Hb. destruct (mac_iv bs iv ltac:(lia) Hiv) as (_ & Li & Bi).
  destruct (block_mac_ok fresh nb key bs E D iv p Hf F Hiv Hp) as (o' & Ho' & _ & C). rewrite Ho in Ho'. apply ret_inj in Ho'. subst o'.
  destruct (block_mac_ok fresh nb key bs E D iv None Hf F Hiv ltac:(discriminate)) as (ob' & Hob' & _ & CB). cbn [option_map] in Hob'. rewrite Hob in Hob'. apply ret_inj in Hob'. subst ob'.
  destruct (C ops1 V1 Logic.I) as (_ & R1 & _). destruct (C ops2 V2 Logic.I) as (_ & R2 & _). unfold result_of in *. rewrite R1 in Ht. rewrite R2 in Ht2. clear R1 R2 C Ho Hob.
  apply added_bytes in V1, V2. set (m1 := added ops1) in *. set (m2 := added ops2) in *.
  rewrite message_pad in Ht, Ht2. rewrite <- EL in Ht2. pose proof (Z.mod_pos_bound (zlen m1) bs ltac:(lia)) as Hu.
  destruct (pad_len bs p (zlen m1 mod bs)) as [l|] eqn:P; [|discriminate]. apply pad_len_ok in P; [|lia|exact Hu]. destruct P as (Bl & Ml & Ll). cbn [option_map mac_out] in Ht, Ht2. apply ret_inj in Ht, Ht2.
  rewrite Z.add_mod_idemp_l in Ml by lia. assert (M1 : zlen (m1 ++ l) mod bs = 0) by (rewrite zlen_app; exact Ml). assert (M2 : zlen (m2 ++ l) mod bs = 0) by (rewrite zlen_app, <- EL; exact Ml).
  assert (O1 : bytes_ok (m1 ++ l)) by (apply bytes_ok_app; auto). assert (O2 : bytes_ok (m2 ++ l)) by (apply bytes_ok_app; auto).
  destruct (blocks_of bs (m1 ++ l) ltac:(lia) M1) as (Q1 & _), (blocks_of bs (m2 ++ l) ltac:(lia) M2) as (Q2 & _).
  destruct (cbc_same_length bs E (fam_len _ _ _ _ _ F) (fam_inj _ _ _ _ _ F) (iv_val bs iv) (chunks bs (m1 ++ l)) (conj Li Bi) (chunks bs (m2 ++ l))) as (A & B & x & y & R & EX & EY & LAB & Nx & Nc & Hx).
  { apply chunks_ok; assumption || lia. } { apply chunks_ok; assumption || lia. } { apply chunks_count_any; [lia|]. rewrite !zlen_app. lia. }
  { intros Q. apply N. rewrite Q, <- Q2 in Q1. apply app_inv_tail in Q1. exact Q1. } { congruence. }
  assert (F1 : Forall (fun b : bytes => zlen b = bs /\ bytes_ok b) (A ++ x :: R)) by (rewrite <- EX; apply chunks_ok; assumption || lia).
  assert (F2 : Forall (fun b : bytes => zlen b = bs /\ bytes_ok b) (B ++ y :: R)) by (rewrite <- EY; apply chunks_ok; assumption || lia).
  apply Forall_app in F1, F2. destruct F1 as (FA & F1), F2 as (FB & F2). apply Forall_inv in F1, F2. destruct F1 as (Lx & Bx), F2 as (Ly & By).
  assert (LC : forall W, Forall (fun b : bytes => zlen b = bs /\ bytes_ok b) W -> zlen (concat W) = bs * Z.of_nat (length W) /\ bytes_ok (concat W)).
  { clear. intros W. induction 1 as [|w W (Lw & Bw) HW (I1 & I2)]; [split; [cbn; lia|exact (Forall_nil _)]|]. cbn [concat length]. rewrite zlen_app. split; [lia|apply bytes_ok_app; auto]. }
  destruct (LC A FA) as (LA & BA), (LC B FB) as (LB & BB).
  assert (GET : forall W, Forall (fun b : bytes => zlen b = bs /\ bytes_ok b) W -> forall ops, Forall hop_valid ops -> added ops = concat W -> snd (h_result (ho_class ob) (fst (h_run (ho_class ob) (ho_st ob) ops))) = Ret (cbc_mac E (iv_val bs iv) W)).
  { intros W HW ops V Ea. destruct (LC W HW) as (LW & BW). destruct (CB ops V Logic.I) as (_ & -> & _). rewrite Ea. unfold mac_message. rewrite LW, Z.mul_comm, Z.mod_mul, Z.eqb_refl by lia. cbn [option_map mac_out].
    rewrite chunks_concat0; [reflexivity|lia|]. eapply Forall_impl; [|exact HW]. cbn. tauto. }
  exists (concat A), (concat B), x, y, l, (concat R). rewrite Q1, Q2, EX, EY, !concat_app. cbn [concat]. split; [reflexivity|]. split; [reflexivity|]. split; [rewrite LA, LB, LAB; reflexivity|].
  split; [rewrite LA, Z.mul_comm; apply Z.mod_mul; lia|]. split; [exact Lx|]. split; [exact Ly|]. split; [exact Nx|]. split; [lia|].
  exists (cbc_mac E (iv_val bs iv) A), (cbc_mac E (iv_val bs iv) B). split; [exact Nc|]. split; [|split; apply GET; assumption].
  destruct (cbc_mac_ok E bs A (fam_len _ _ _ _ _ F) FA _ Li Bi) as (La & _), (cbc_mac_ok E bs B (fam_len _ _ _ _ _ F) FB _ Li Bi) as (Lb & _).
  set (ta := cbc_mac E (iv_val bs iv) A) in *. set (tb := cbc_mac E (iv_val bs iv) B) in *.
  apply (f_equal (fun z => xorb z (xorb ta y))) in Hx. assert (LE : forall u v : bytes, zlen u = bs -> zlen v = bs -> length u = length v) by (clear; intros; unfold zlen in *; lia).
  rewrite <- (Aes.xorb_assoc (xorb x ta) ta y), (xorb_cancel x ta) in Hx by (apply LE; assumption). rewrite Hx. rewrite (xorb_comm ta y), <- Aes.xorb_assoc, (xorb_comm y tb), xorb_cancel by (apply LE; assumption). apply xorb_comm.
Qed.
