(* MAC objects of the library: construction and what they compute. *)
From Verif Require Import Prelude PreludeFacts BytesNum Word SpecBlock SpecModes SpecPadding SpecMac HashModel HashSpec HashFacts BlockModel BlockTotal
  BlockCipher CipherModel CipherSpec CipherApi MacModel Mac.

(* ---- xor of numbers and of byte strings ---- *)
Lemma lxor_cat n a b c d : 0 <= n -> 0 <= a < 2 ^ n -> 0 <= c < 2 ^ n -> 0 <= b -> 0 <= d ->
  Z.lxor (a + b * 2 ^ n) (c + d * 2 ^ n) = Z.lxor a c + Z.lxor b d * 2 ^ n.
Proof.
  intros Hn Ha Hc Hb Hd. pose proof (lxor_bound n a c Hn Ha Hc) as Hac.
  rewrite <- !lor_shift_add by assumption. apply Z.bits_inj'. intros k Hk. rewrite !Z.lxor_spec, !Z.lor_spec, !Z.lxor_spec.
  destruct (Z.lt_ge_cases k n).
  - rewrite !Z.mul_pow2_bits_low by lia. rewrite !orb_false_r. reflexivity.
  - rewrite !Z.mul_pow2_bits by lia. rewrite (testbit_high n a k), (testbit_high n c k) by (assumption || lia). cbn [orb Datatypes.xorb]. rewrite Z.lxor_spec. reflexivity.
Qed.
Lemma le_xorb a : forall b, length a = length b -> bytes_ok a -> bytes_ok b -> le (xorb a b) = Z.lxor (le a) (le b).
Proof.
  induction a as [|x a IH]; intros [|y b] Hl Ha Hb; try discriminate; [reflexivity|]. apply Forall_cons_iff in Ha as (Hx & Ha), Hb as (Hy & Hb).
  injection Hl as Hl. rewrite xorb_cons. cbn [le]. rewrite IH by assumption. unfold byte_ok in *.
  pose proof (le_bound a Ha). pose proof (le_bound b Hb). pose proof (lxor_cat 8 x (le a) y (le b)) as E. change (2 ^ 8) with 256 in E.
  rewrite (Z.mul_comm 256), (Z.mul_comm 256 (le a)), (Z.mul_comm 256 (le b)), E by lia. reflexivity.
Qed.
Lemma rev_xorb a : forall b, length a = length b -> rev (xorb a b) = xorb (rev a) (rev b).
Proof.
  induction a as [|x a IH]; intros [|y b] Hl; try discriminate; [reflexivity|]. injection Hl as Hl. rewrite xorb_cons. cbn [rev].
  rewrite IH, xorb_app by (rewrite ?rev_length; assumption). reflexivity.
Qed.
Lemma be_xorb a b : length a = length b -> bytes_ok a -> bytes_ok b -> be (xorb a b) = Z.lxor (be a) (be b).
Proof. intros Hl Ha Hb. unfold be. rewrite rev_xorb by assumption. apply le_xorb; [rewrite !rev_length; assumption|apply bytes_ok_rev; assumption|apply bytes_ok_rev; assumption]. Qed.

(* ---- shl1_bytes is multiplication by two ---- *)
Lemma shl1_loop_ok cnt : forall src dst carry, bytes_ok src -> Z.of_nat cnt <= zlen src -> Z.of_nat cnt <= zlen dst -> 0 <= carry <= 1 ->
  shl1_loop cnt src 0 dst 0 carry = Ret (to_be cnt (2 * be (firstn cnt src) + carry) ++ skipn cnt dst).
Proof.
  induction cnt as [|i IH]; intros src dst carry Hb Hs Hd Hc; [reflexivity|]. cbn [shl1_loop]. unfold bytes_get.
  assert ((0 <=? 0 + Z.of_nat i) && (0 + Z.of_nat i <? zlen src) = true) as -> by lia. cbn [obind]. rewrite bytes_set_ok by lia. cbn [obind].
  cbn [Z.add]. unfold nthZ. rewrite Nat2Z.id. set (n := nth i src 0). assert (Hn : 0 <= n < 256).
  { unfold n. destruct (nth_in_or_default i src 0) as [Hin | ->]; [|lia]. eapply Forall_forall in Hb; [exact Hb|exact Hin]. }
  assert (E1 : Z.lor (Z.shiftl n 1) carry = 2 * n + carry).
  { rewrite Z.shiftl_mul_pow2, Z.lor_comm, lor_shift_add by lia. lia. }
  rewrite E1. rewrite IH; [|assumption|lia|rewrite zlen_splice by (rewrite ?zlen_one; lia); lia|rewrite Z.shiftr_div_pow2 by lia; change (2 ^ 7) with 128; lia].
  f_equal. rewrite to_be_S, (firstn_S_nth src 0 i) by (unfold zlen in *; lia). fold n. rewrite be_snoc. set (x := be (firstn i src)).
  rewrite <- app_assoc. f_equal.
  - f_equal. rewrite Z.shiftr_div_pow2 by lia. change (2 ^ 7) with 128. replace (2 * (x * 256 + n) + carry) with (2 * n + carry + (2 * x) * 256) by lia. rewrite Z.div_add by lia. lia.
  - unfold splice. rewrite Nat2Z.id. cbn [length].
    rewrite skipn_app, skipn_all2 by (rewrite firstn_length; lia). rewrite firstn_length, Nat.min_l by (unfold zlen in *; lia). rewrite Nat.sub_diag. cbn [skipn app].
    replace (i + 1)%nat with (S i) by lia. f_equal. replace (2 * (x * 256 + n) + carry) with (2 * n + carry + (2 * x) * 256) by lia. rewrite Z.mod_add by lia. reflexivity.
Qed.
Lemma shl1_ok src dst : bytes_ok src -> zlen src = 16 -> zlen dst = 16 -> shl1_bytes src 0 dst 0 16 = Ret (to_be 16 (2 * be src)).
Proof.
  intros Hb H1 H2. unfold shl1_bytes. rewrite shl1_loop_ok by (try assumption; lia). change (Z.to_nat 16) with 16%nat.
  rewrite firstn_all2 by (unfold zlen in *; lia). rewrite skipn_all2 by (unfold zlen in *; lia). rewrite app_nil_r, Z.add_0_r. reflexivity.
Qed.

Definition top_table : bool := forallb (fun x => Bool.eqb (Z.land x 128 >? 0) (128 <=? x)) (map Z.of_nat (seq 0 256)).
Lemma top_bit x : byte_ok x -> (Z.land x 128 >? 0) = (128 <=? x).
Proof.
  intros Hx. assert (H : top_table = true) by (vm_compute; reflexivity). unfold top_table in H. rewrite forallb_forall in H.
  apply Bool.eqb_prop. apply H. rewrite <- (Z2Nat.id x) by apply Hx. apply in_map, in_seq. unfold byte_ok in Hx. lia.
Qed.
Lemma subkey_ok fresh b src : (forall n, 0 <= n -> zlen (fresh n) = n) -> bytes_ok src -> zlen src = 16 -> b = zeros 15 ++ [135] ->
  subkey fresh b src = Ret (to_be 16 (gf_double (be src))).
Proof.
  intros Hf Hb Hl ->. unfold subkey. rewrite shl1_ok by (try assumption; apply Hf; lia). cbn [obind]. unfold bytes_get. rewrite Hl. cbn [Z.leb Z.ltb Z.compare andb obind].
  destruct src as [|t src]; [discriminate|]. apply Forall_cons_iff in Hb as (Ht & Hb). change (nthZ (t :: src) 0) with t. rewrite top_bit by assumption.
  assert (Hs : zlen src = 15) by (rewrite zlen_cons in Hl; lia). rewrite be_cons, Hs. pose proof (be_bound src Hb) as Hr. rewrite Hs in Hr.
  change (256 ^ 15) with (2 ^ 120) in *. change (2 ^ 127) with (128 * 2 ^ 120). unfold byte_ok in Ht. unfold gf_double.
  destruct (128 <=? t) eqn:E.
  - assert (t * 2 ^ 120 + be src <? 2 ^ 127 = false) as -> by (change (2 ^ 127) with (128 * 2 ^ 120); nia).
    set (x := t * 2 ^ 120 + be src). assert (Hx : 2 ^ 127 <= x < 2 ^ 128) by (unfold x; change (2 ^ 127) with (128 * 2 ^ 120); change (2 ^ 128) with (256 * 2 ^ 120); nia).
    unfold xor_bytes. assert (in_range (zeros 15 ++ [135]) 0 16 && in_range (to_be 16 (2 * x)) 0 16 = true) as ->
      by (apply andb_true_iff; rewrite !in_range_true, zlen_to_be; change (zlen (zeros 15 ++ [135])) with 16; lia).
    rewrite !sub_0_all by (rewrite ?zlen_to_be; reflexivity). rewrite splice_all by (rewrite zlen_xorb; rewrite ?zlen_to_be; reflexivity).
    f_equal. assert (Hbb : bytes_ok (zeros 15 ++ [135])) by (repeat constructor; unfold byte_ok; lia).
    assert (Hxx : bytes_ok (xorb (zeros 15 ++ [135]) (to_be 16 (2 * x)))) by (apply bytes_ok_xorb; [assumption|apply bytes_ok_to_be]).
    apply be_inj; [rewrite xorb_length, length_to_be by (rewrite length_to_be; reflexivity); reflexivity|assumption|apply bytes_ok_to_be|].
    rewrite be_xorb by (try assumption; try apply bytes_ok_to_be; rewrite length_to_be; reflexivity). rewrite !be_to_be. change (256 ^ Z.of_nat 16) with (2 ^ 128).
    change (be (zeros 15 ++ [135])) with 135. set (y := 2 * x - 2 ^ 128). assert (Hy : 0 <= y < 2 ^ 128) by (unfold y; change (2 ^ 128) with (2 * 2 ^ 127) in *; lia).
    replace (2 * x) with (y + 1 * 2 ^ 128) by (unfold y; lia). rewrite Z.mod_add, (Z.mod_small y) by lia.
    replace (2 ^ 128 + 135) with (135 + 1 * 2 ^ 128) by lia. rewrite lxor_cat by lia. change (Z.lxor 1 1) with 0. rewrite Z.mul_0_l, Z.add_0_r, Z.mod_small; [apply Z.lxor_comm|].
    apply lxor_bound; lia.
  - assert (t * 2 ^ 120 + be src <? 2 ^ 127 = true) as -> by (change (2 ^ 127) with (128 * 2 ^ 120); nia). reflexivity.
Qed.

(* ---- objects ---- *)
(* c is an object computing the block function E *)
Definition block_object (c : bobj) (bs : Z) (E : bytes -> bytes) : Prop :=
  0 < bs < 2 ^ 50 /\ bc_blocksize (b_bc c) = bs /\
  exists gd, bc_implements (b_bc c) (ecb_fn E) (fun s _ => gd s) /\ gd (b_st c).
Lemma family_object nb key bs E D d : block_family nb key bs E D -> exists c, nb d key = Ret c /\ block_object c bs (match d with Encrypt => E | Decrypt => D end).
Proof. intros F. destruct (fam_new _ _ _ _ _ F d) as (c & gd & Hc & Hb & HC & Hg). exists c. split; [exact Hc|]. split; [apply (fam_bs _ _ _ _ _ F)|]. split; [exact Hb|]. exists gd. auto. Qed.
Lemma object_step C E gd s src dst : bc_implements C (ecb_fn E) (fun s _ => gd s) -> gd s -> 0 < bc_blocksize C -> zlen src = bc_blocksize C -> bytes_ok src -> zlen dst = bc_blocksize C ->
  exists s', bc_transform C s src 0 dst 0 = ((s', E src), Ret tt) /\ gd s' /\ zlen (E src) = bc_blocksize C /\ bytes_ok (E src).
Proof.
  intros HC Hg Hbs H1 H2 H3. pose proof (HC s tt src 0 dst 0 Hg) as H. rewrite (sub_0_all src) in H by lia.
  specialize (H ltac:(apply in_range_true; lia) ltac:(apply in_range_true; lia) H2). cbn [bf_step ecb_fn fst snd] in H.
  destruct H as (c' & dst' & Ht & Hg' & _ & Hb). destruct (Hb _ eq_refl) as (-> & Hl & Ho). exists c'. split; [|auto]. rewrite Ht, splice_all by lia. reflexivity.
Qed.
Lemma object_E_ok c bs E : block_object c bs E -> forall b, zlen b = bs -> bytes_ok b -> zlen (E b) = bs /\ bytes_ok (E b).
Proof.
  intros (Hbs & Hb & gd & HC & Hg) b H1 H2. destruct (object_step _ _ _ (b_st c) b b HC Hg) as (_ & _ & _ & H3 & H4); rewrite ?Hb; try assumption; [lia|]. rewrite Hb in H3. auto.
Qed.

Definition mac_iv_ok (bs : Z) (iv : option bytes) : Prop := match iv with None => True | Some v => zlen v = bs /\ bytes_ok v end.
Lemma mac_iv bs iv : 0 <= bs -> mac_iv_ok bs iv -> make_initial_iv bs iv = Ret (iv_val bs iv) /\ zlen (iv_val bs iv) = bs /\ bytes_ok (iv_val bs iv).
Proof.
  intros Hb H. destruct iv as [v|]; cbn [make_initial_iv iv_val mac_iv_ok] in *.
  - destruct H as (H1 & H2). rewrite H1, Z.eqb_refl. auto.
  - split; [reflexivity|]. split; [apply zlen_zeros; assumption|apply bytes_ok_zeros].
Qed.
Lemma mac_iv_bad bs iv : (exists v, iv = Some v /\ zlen v <> bs) -> make_initial_iv bs iv = Raise (Error Wrong_IV_size).
Proof. intros (v & -> & H). cbn [make_initial_iv]. destruct (zlen v =? bs) eqn:E; [lia|reflexivity]. Qed.

(* the blocks that are chained: None if the message cannot be authenticated *)
Definition mac_message (bs : Z) (p : option padding) (m : bytes) : option (list bytes) :=
  match p with
  | None => if zlen m mod bs =? 0 then Some (chunks bs m) else None
  | Some p => option_map (fun l => chunks bs (m ++ l)) (pad_fn p bs (zlen m mod bs))
  end.
Lemma pad_fn_some p bs u : pad_supports p bs -> 0 <= u < bs -> exists l, pad_fn p bs u = Some l.
Proof.
  intros H Hu. destruct p; cbn [pad_fn pad_supports] in *; unfold length_pad, zeros_pad; [|eauto].
  assert ((0 <? bs - u) && (bs - u <? 256) = true) as -> by lia. eauto.
Qed.
Definition mac_out (o : option bytes) : out bytes := match o with Some r => Ret r | None => Raise (Error Wrong_data_length) end.
Lemma mac_digest_message (C : block_cipher) (E : bytes -> bytes) p iv m : 0 < bc_blocksize C -> (forall q, p = Some q -> pad_supports q (bc_blocksize C)) ->
  mac_digest C E p iv m = mac_out (option_map (cbc_mac E iv) (mac_message (bc_blocksize C) p m)).
Proof.
  intros Hb Hp. unfold mac_digest, mac_message. set (bs := bc_blocksize C) in *. destruct p as [p|].
  - destruct (pad_fn_some p bs (zlen m mod bs) (Hp p eq_refl)) as (l & ->); [apply Z.mod_pos_bound; assumption|]. reflexivity.
  - destruct (zlen m mod bs =? 0); reflexivity.
Qed.

Lemma mac_new_ok fresh c bs E iv p : (forall n, 0 <= n -> zlen (fresh n) = n) -> block_object c bs E -> mac_iv_ok bs iv ->
  (forall q, p = Some q -> pad_supports q bs) ->
  exists o, mac_new fresh iv (option_map scheme_of p) c = Ret o /\ h_size (ho_class o) = bs /\
    computes_on (fun _ => True) o (fun m => mac_out (option_map (cbc_mac E (iv_val bs iv)) (mac_message bs p m))).
Proof.
  intros Hf HO Hiv Hp. pose proof (object_E_ok _ _ _ HO) as HE. destruct HO as (Hbs & Hb & gd & HC & Hg). subst bs.
  destruct (mac_iv (bc_blocksize (b_bc c)) iv ltac:(lia) Hiv) as (E1 & E2 & E3). unfold mac_new, mac_init. rewrite E1. cbn [obind].
  eexists. split; [reflexivity|]. split; [reflexivity|].
  intros ops Hv _. pose proof (himpl_computes _ _ _ _ _ (mac_himpl fresh (b_bc c) E gd Hf Hbs HC HE p (iv_val _ iv)) (mac_init_R fresh (b_bc c) E gd Hf Hbs HE (iv_val _ iv) (b_st c) E2 E3 Hg) ops Hv Logic.I) as H.
  rewrite mac_digest_message in H by (try assumption; lia). exact H.
Qed.
Lemma block_mac_ok fresh nb key bs E D iv p : (forall n, 0 <= n -> zlen (fresh n) = n) -> block_family nb key bs E D -> mac_iv_ok bs iv ->
  (forall q, p = Some q -> pad_supports q bs) ->
  exists o, block_mac fresh (nb Encrypt) iv (option_map scheme_of p) key = Ret o /\ h_size (ho_class o) = bs /\
    computes_on (fun _ => True) o (fun m => mac_out (option_map (cbc_mac E (iv_val bs iv)) (mac_message bs p m))).
Proof.
  intros Hf F Hiv Hp. destruct (family_object _ _ _ _ _ Encrypt F) as (c & Hc & HO). unfold block_mac. rewrite Hc. cbn [obind]. apply mac_new_ok; assumption.
Qed.
Lemma block_mac_bad_iv fresh nb key bs E D iv p : block_family nb key bs E D -> (exists v, iv = Some v /\ zlen v <> bs) ->
  block_mac fresh (nb Encrypt) iv p key = Raise (Error Wrong_IV_size).
Proof.
  intros F Hiv. destruct (family_object _ _ _ _ _ Encrypt F) as (c & Hc & _ & Hb & _). unfold block_mac, mac_new, mac_init. rewrite Hc. cbn [obind]. rewrite Hb, mac_iv_bad by assumption. reflexivity.
Qed.

(* ---- the chained blocks have the right size ---- *)
Lemma chunks_ok bs x : 0 < bs -> zlen x mod bs = 0 -> bytes_ok x -> Forall (fun b => zlen b = bs /\ bytes_ok b) (chunks bs x).
Proof.
  intros Hb Hm Hx. destruct (split_blocks bs x Hb) as (blks & tail & E & Hl & Ht & Hz & Hok). destruct (Hok Hx) as (Hbk & _).
  assert (tail = []) as -> by (apply zlen_0; lia). rewrite E, app_nil_r, chunks_concat0 by assumption.
  apply Forall_forall. intros b Hin. split; [eapply Forall_forall in Hl; [exact Hl|exact Hin]|eapply Forall_forall in Hbk; [exact Hbk|exact Hin]].
Qed.
Lemma mac_message_ok bs p m X : 0 < bs -> bytes_ok m -> mac_message bs p m = Some X -> Forall (fun b => zlen b = bs /\ bytes_ok b) X.
Proof.
  intros Hb Hm H. unfold mac_message in H. destruct p as [p|].
  - pose proof (Z.mod_pos_bound (zlen m) bs Hb) as Hu. set (u := zlen m mod bs) in *.
    assert (Hp := pad_any (Build_block_cipher unit bs (fun _ _ _ d _ => ((tt, d), Ret tt)) (fun _ => tt)) p (zeros bs) u). cbn [bc_blocksize] in Hp.
    specialize (Hp ltac:(apply zlen_zeros; lia) Hu). destruct (pad_fn p bs u) as [l|]; [|discriminate]. injection H as <-. destruct Hp as (_ & Hl & Hlb).
    apply chunks_ok; [assumption| |apply bytes_ok_app; auto]. rewrite zlen_app, <- Z.add_mod_idemp_l by lia. fold u. rewrite Hl. apply Z.mod_same. lia.
  - destruct (zlen m mod bs =? 0) eqn:E; [|discriminate]. injection H as <-. apply chunks_ok; [assumption|lia|assumption].
Qed.
Lemma cbc_mac_ok E bs X : (forall b, zlen b = bs -> bytes_ok b -> zlen (E b) = bs /\ bytes_ok (E b)) -> Forall (fun b => zlen b = bs /\ bytes_ok b) X ->
  forall iv, zlen iv = bs -> bytes_ok iv -> zlen (cbc_mac E iv X) = bs /\ bytes_ok (cbc_mac E iv X).
Proof.
  intros HE. induction 1 as [|b X (Hb1 & Hb2) HX IH]; intros iv H1 H2; [auto|]. cbn [cbc_mac fold_left]. fold (cbc_mac E (E (xorb b iv)) X).
  assert (Hx : zlen (xorb b iv) = bs) by (rewrite zlen_xorb; lia). destruct (HE _ Hx (bytes_ok_xorb _ _ Hb2 H2)). apply IH; assumption.
Qed.
Lemma hop_bytes_ok o : hop_valid o -> bytes_ok (hop_bytes o).
Proof.
  destruct o; cbn [hop_valid hop_bytes]; try tauto; intros H; repeat constructor; try apply H.
  - apply Z.mod_pos_bound; lia.
  - apply Z.mod_pos_bound; lia.
Qed.

(* ---- final triple ---- *)
Lemma triple_new_ok fresh c1 c2 c3 bs E1 E2 E3 iv p : (forall n, 0 <= n -> zlen (fresh n) = n) ->
  block_object c1 bs E1 -> block_object c2 bs E2 -> block_object c3 bs E3 -> mac_iv_ok bs iv -> (forall q, p = Some q -> pad_supports q bs) ->
  exists o, mac_final_triple_new fresh iv (option_map scheme_of p) c1 c2 c3 = Ret o /\ h_size (ho_class o) = bs /\
    computes_on (fun _ => True) o (fun m => mac_out (option_map (fun X => E3 (E2 (cbc_mac E1 (iv_val bs iv) X))) (mac_message bs p m))).
Proof.
  intros Hf O1 O2 O3 Hiv Hp. pose proof (object_E_ok _ _ _ O1) as HE. pose proof O1 as (Hbs & Hb & gd & HC & Hg).
  destruct O2 as (_ & Hb2 & gd2 & HC2 & Hg2). destruct O3 as (_ & Hb3 & gd3 & HC3 & Hg3).
  destruct (mac_iv bs iv ltac:(lia) Hiv) as (Ei & Ei2 & Ei3). unfold mac_final_triple_new, mac_init. rewrite Hb, Hb2, Hb3, Z.eqb_refl. cbn [negb orb]. rewrite Ei. cbn [obind].
  eexists. split; [reflexivity|]. split; [exact Hb|]. clear O1. rewrite <- Hb in Hbs, HE, Hp, Ei, Ei2, Ei3, Hb2, Hb3 |- *. clear Hb Hiv.
  pose proof (mac_himpl fresh (b_bc c1) E1 gd Hf Hbs HC HE p (iv_val (bc_blocksize (b_bc c1)) iv)) as HI.
  set (R := fun (s : mst (b_bc c1) * bc_st (b_bc c2) * bc_st (b_bc c3)) m => macR (b_bc c1) E1 gd (iv_val (bc_blocksize (b_bc c1)) iv) (fst (fst s)) m /\ gd2 (snd (fst s)) /\ gd3 (snd s) /\ bytes_ok m).
  apply himpl_computes with (R := R).
  2:{ unfold R. cbn [fst snd]. split; [|split; [assumption|split; [assumption|constructor]]]. exact (mac_init_R fresh (b_bc c1) E1 gd Hf Hbs HE (iv_val (bc_blocksize (b_bc c1)) iv) (b_st c1) Ei2 Ei3 Hg). }
  constructor; [auto| | |reflexivity].
  - intros [[sm s2] s3] m o (HR & G2 & G3 & Gm) Hv _. cbn [fst snd] in *. destruct (hi_op _ _ _ _ HI sm m o HR Hv Logic.I) as (s' & Es & HR').
    exists (s', s2, s3). split; [|unfold R; cbn [fst snd]; split; [assumption|split; [assumption|split; [assumption|apply bytes_ok_app; split; [assumption|apply hop_bytes_ok; assumption]]]]]. destruct o; cbn [h_step mac_final_triple h_add_substring h_add_string h_add_char h_add_byte] in *; unfold t_on_mac, lift; cbn [fst snd]; rewrite Es; reflexivity.
  - intros [[sm s2] s3] m (HR & G2 & G3 & Gm) _. cbn [fst snd] in *. cbn [mac_final_triple h_result]. unfold triple_result, t_on_mac, lift. cbn [fst snd].
    pose proof (hi_res _ _ _ _ HI sm m HR Logic.I) as Hr. cbn [h_result mac mac_with] in Hr. rewrite mac_digest_message in Hr by (try assumption; lia). destruct (mac_result (b_bc c1) (option_map scheme_of p) sm) as [sm' r0]. cbn [fst snd] in *. subst r0.
    destruct (mac_message _ p m) as [X|] eqn:EX; cbn [option_map mac_out bind snd]; [|reflexivity].
    pose proof (mac_message_ok _ _ _ _ (proj1 Hbs) Gm EX) as HX. destruct (cbc_mac_ok E1 _ X HE HX _ Ei2 Ei3) as (L1 & L2).
    set (r := cbc_mac E1 _ X) in *. cbn [fst snd].
    destruct (object_step _ _ _ s2 r r HC2 G2) as (s2' & -> & _ & L3 & L4); try congruence; [lia|]. cbn [fst snd obind bind].
    destruct (object_step _ _ _ s3 (E2 r) (E2 r) HC3 G3) as (s3' & -> & _ & _ & _); try congruence; [lia|]. reflexivity.
Qed.

(* key parts of des_final_triple_des *)
Definition key_part (key : bytes) (i : Z) : bytes := sub key (8 * i) 8.
Lemma des_final_ok fresh nb E D key iv p : (forall n, 0 <= n -> zlen (fresh n) = n) ->
  (forall k, zlen k = 8 -> bytes_ok k -> block_family nb k 8 (E k) (D k)) ->
  bytes_ok key -> zlen key = 16 \/ zlen key = 24 -> mac_iv_ok 8 iv ->
  exists o, des_final_triple_des fresh nb iv (option_map scheme_of p) key = Ret o /\ h_size (ho_class o) = 8 /\
    computes_on (fun _ => True) o (fun m => mac_out (option_map (fun X =>
      E (key_part key (if zlen key =? 24 then 2 else 0)) (D (key_part key 1) (cbc_mac (E (key_part key 0)) (iv_val 8 iv) X))) (mac_message 8 p m))).
Proof.
  intros Hf HF Hk Hl Hiv. unfold des_final_triple_des, bytes_sub. assert (negb (zlen key =? 16) && negb (zlen key =? 24) = false) as -> by lia.
  assert (in_range key 0 8 = true) as -> by (apply in_range_true; lia). assert (in_range key 8 8 = true) as -> by (apply in_range_true; lia). cbn [obind].
  assert (E3 : (if zlen key =? 24 then if in_range key 16 8 then Ret (sub key 16 8) else Raise Invalid_argument else Ret (sub key 0 8)) = Ret (key_part key (if zlen key =? 24 then 2 else 0))).
  { destruct (zlen key =? 24) eqn:El; [|reflexivity]. assert (in_range key 16 8 = true) as -> by (apply in_range_true; lia). reflexivity. }
  rewrite E3. cbn [obind]. clear E3. set (i3 := if zlen key =? 24 then 2 else 0). assert (Hi3 : 8 * i3 + 8 <= zlen key /\ 0 <= i3) by (unfold i3; destruct (zlen key =? 24) eqn:El; lia).
  assert (Hp : forall i, 0 <= i -> 8 * i + 8 <= zlen key -> zlen (key_part key i) = 8 /\ bytes_ok (key_part key i)).
  { intros i Hi1 Hi2. unfold key_part. split; [apply zlen_sub; lia|apply bytes_ok_sub; assumption]. }
  destruct (Hp 0 ltac:(lia) ltac:(lia)) as (A1 & A2). destruct (Hp 1 ltac:(lia) ltac:(lia)) as (B1 & B2). destruct (Hp i3 ltac:(lia) ltac:(lia)) as (C1 & C2).
  change (sub key 0 8) with (key_part key 0). change (sub key 8 8) with (key_part key 1).
  destruct (family_object _ _ _ _ _ Encrypt (HF _ A1 A2)) as (c1 & -> & O1). cbn [obind].
  destruct (family_object _ _ _ _ _ Decrypt (HF _ B1 B2)) as (c2 & -> & O2). cbn [obind].
  destruct (family_object _ _ _ _ _ Encrypt (HF _ C1 C2)) as (c3 & -> & O3). cbn [obind].
  apply (triple_new_ok fresh c1 c2 c3 8 _ _ _ iv p Hf O1 O2 O3 Hiv). intros q _. destruct q; cbn; [lia|exact Logic.I].
Qed.
Lemma des_final_key fresh nb iv p key : zlen key <> 16 -> zlen key <> 24 -> des_final_triple_des fresh nb iv p key = Raise (Error Wrong_key_size).
Proof. intros H1 H2. unfold des_final_triple_des. assert (negb (zlen key =? 16) && negb (zlen key =? 24) = true) as -> by lia. reflexivity. Qed.

(* ---- CMAC ---- *)
Lemma aes_cmac_ok fresh nb key E D iv : (forall n, 0 <= n -> zlen (fresh n) = n) -> block_family nb key 16 E D -> mac_iv_ok 16 iv ->
  exists o, aes_cmac fresh (nb Encrypt) iv key = Ret o /\ h_size (ho_class o) = 16 /\ computes o (cmac_spec E (iv_val 16 iv)).
Proof.
  intros Hf F Hiv. destruct (family_object _ _ _ _ _ Encrypt F) as (c & Hc & HO). pose proof (object_E_ok _ _ _ HO) as HE.
  destruct HO as (Hbs & Hb & gd & HC & Hg). unfold aes_cmac. rewrite Hc. cbn [obind].
  destruct (object_step _ _ _ (b_st c) (zeros 16) (fresh 16) HC Hg) as (s' & -> & Hg' & L1 & L2);
    [lia|rewrite Hb; reflexivity|apply bytes_ok_zeros|rewrite Hb; apply Hf; lia|]. cbn [fst snd obind]. rewrite Hb in L1.
  change (bytes_set (zeros 16) 15 135) with (Ret (zeros 15 ++ [135])). cbn [obind].
  rewrite subkey_ok by (assumption || reflexivity). cbn [obind]. fold (cmac_K1 E).
  assert (K1 : zlen (cmac_K1 E) = 16 /\ bytes_ok (cmac_K1 E)) by (unfold cmac_K1; rewrite zlen_to_be; split; [reflexivity|apply bytes_ok_to_be]). destruct K1 as (K1 & K2).
  rewrite subkey_ok by (assumption || reflexivity). cbn [obind].
  assert (Hd : forall x, 0 <= x < 2 ^ 128 -> 0 <= gf_double x < 2 ^ 128).
  { clear. intros x Hx. unfold gf_double. destruct (x <? 2 ^ 127) eqn:Ex; [change (2 ^ 128) with (2 * 2 ^ 127) in *; lia|].
    replace (2 * x) with ((2 * x - 2 ^ 128) + 1 * 2 ^ 128) by lia. replace (2 ^ 128 + 135) with (135 + 1 * 2 ^ 128) by lia. change (2 ^ 128) with (2 * 2 ^ 127) in Hx.
    rewrite lxor_cat; [|lia|change (2 ^ 128) with (2 * 2 ^ 127); lia|lia|lia|lia]. change (Z.lxor 1 1) with 0. rewrite Z.mul_0_l, Z.add_0_r. apply lxor_bound; [lia|change (2 ^ 128) with (2 * 2 ^ 127); lia|lia]. }
  assert (Hl : 0 <= be (E (zeros 16)) < 2 ^ 128) by (pose proof (be_bound _ L2) as Hx; rewrite L1 in Hx; exact Hx).
  assert (EK : to_be 16 (gf_double (be (cmac_K1 E))) = cmac_K2 E).
  { unfold cmac_K1 at 1, cmac_K2. rewrite be_to_be. change (256 ^ Z.of_nat 16) with (2 ^ 128). rewrite Z.mod_small by (apply Hd; exact Hl). reflexivity. }
  rewrite EK. assert (K3 : zlen (cmac_K2 E) = 16 /\ bytes_ok (cmac_K2 E)) by (unfold cmac_K2; rewrite zlen_to_be; split; [reflexivity|apply bytes_ok_to_be]). destruct K3 as (K3 & K4).
  destruct (mac_iv 16 iv ltac:(lia) Hiv) as (Ei & Ei2 & Ei3). unfold cmac_new, mac_init. cbn [b_bc b_st]. rewrite Hb, Ei. cbn [obind].
  eexists. split; [reflexivity|]. split; [exact Hb|]. set (iv0 := iv_val 16 iv) in *. clearbody iv0. rewrite <- Hb in Hbs, HE, K1, K3, Ei2.
  pose proof (himpl_computes _ (cmac (b_bc c)) _ _ (_, (cmac_K1 E, cmac_K2 E)) (cmac_himpl fresh (b_bc c) E gd Hf Hbs HC HE _ _ iv0 K1 K3 K2 K4)
    (conj (mac_init_R fresh (b_bc c) E gd Hf Hbs HE iv0 s' Ei2 Ei3 Hg') eq_refl)) as H.
  intros ops Hv HP. specialize (H ops Hv HP). unfold cmac_digest in H. rewrite Hb in H. unfold cmac_spec, cmac_last.
  replace (16 - zlen (last (chunks 16 (added ops)) []) - 1) with (15 - zlen (last (chunks 16 (added ops)) [])) in H by lia. exact H.
Qed.
