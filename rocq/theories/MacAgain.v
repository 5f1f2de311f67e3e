(* The method result of the MACs over a block cipher called more than once. *)
From Verif Require Import Prelude PreludeFacts BytesNum SpecBlock SpecModes SpecPadding SpecMac SpecAgain SpecMacAgain Padding HashModel HashSpec HashFacts MdHash BlockModel BlockTotal
  BlockCipher CipherModel CipherSpec CipherApi MacModel Mac MacApi Again.

Section Mac.
Variables (fresh : Z -> bytes) (C : block_cipher) (E : bytes -> bytes) (gd : bc_st C -> Prop).
Hypothesis fresh_len : forall n, 0 <= n -> zlen (fresh n) = n.
Local Notation bs := (bc_blocksize C).
Hypothesis bs_range : 0 < bs < 2 ^ 50.
Hypothesis HC : bc_implements C (ecb_fn E) (fun s _ => gd s).
Hypothesis E_ok : forall b, zlen b = bs -> bytes_ok b -> zlen (E b) = bs /\ bytes_ok (E b).

(* the value of the chaining block is an initialization vector for what follows *)
Lemma macR_restart iv0 s blks : macR0 C E gd iv0 s blks [] -> macR C E gd (mc_iv s) s [].
Proof.
  intros (H1 & H2 & H3 & H4 & H5 & H6 & H7 & H8 & H9 & H10). exists [], []. split; [|auto]. unfold macR0. repeat (split; try assumption). constructor.
Qed.

Lemma mac_result_again p iv0 s m : (forall q, p = Some q -> pad_supports q bs) -> macR C E gd iv0 s m ->
  exists s', mac_result C (option_map scheme_of p) s = (s', mac_digest C E p iv0 m) /\
  (forall v, mac_digest C E p iv0 m = Ret v -> macR C E gd v s' []) /\
  ((forall v, mac_digest C E p iv0 m <> Ret v) -> macR C E gd iv0 s' m).
Proof.
  intros Hps HR. unfold mac_result. destruct (mac_result_norm fresh C E gd fresh_len bs_range HC E_ok iv0 s m HR) as (s1 & blks & tail & -> & HR1 & Em & Ht). cbn [bind].
  pose proof HR1 as (H1 & H2 & H3 & H4 & H5 & H6 & H7 & H8 & H9 & H10). unfold mac_digest. rewrite Em.
  rewrite (zlen_tail_mod fresh C E fresh_len bs_range E_ok blks tail H1 Ht). destruct p as [p|]; cbn [option_map].
  - pose proof (zlen_nonneg tail) as Ht0. pose proof (pad_any C p (mc_buf s1) (mc_used s1) H5 ltac:(lia)) as Hp.
    destruct (pad_fn_some p bs (mc_used s1) (Hps p eq_refl) ltac:(lia)) as (l & El). rewrite H2. rewrite El in Hp |- *.
    destruct Hp as (Hp & Hl & Hlb). rewrite Hp, H6. cbn [m_to_buf bind]. set (s2 := MSt _ _ _ _).
    assert (Hfull : zlen (tail ++ l) = bs) by (rewrite zlen_app; lia). assert (Hbf : bytes_ok (tail ++ l)) by (apply bytes_ok_app; auto).
    destruct (m_block_ok fresh C E gd fresh_len bs_range HC E_ok iv0 s2 blks (tail ++ l)) as (s3 & -> & HR3 & _); [|reflexivity|assumption|].
    { cbn [s2 mc_buf mc_used]. rewrite sub_app_l by lia. rewrite sub_0_all by lia. unfold macR0. cbn [s2 mc_iv mc_buf mc_used mc_c].
      repeat (split; try assumption). rewrite sub_app_l by lia. apply sub_0_all; lia. }
    cbn [bind]. exists (m_set_used C s3 0). pose proof (macR_restart _ _ _ HR3) as HR4. destruct HR3 as (_ & _ & _ & _ & _ & _ & Hi & _).
    rewrite <- app_assoc. rewrite (mac_blocks fresh C E fresh_len bs_range E_ok blks (tail ++ l) H1 Hfull). rewrite <- Hi. split; [reflexivity|]. split.
    + intros v Ev. injection Ev as <-. exact HR4.
    + intros Hn. exfalso. exact (Hn _ eq_refl).
  - rewrite H2. destruct (mc_used s1 =? 0) eqn:E0; cbn [negb bind].
    + assert (tail = []) as -> by (apply zlen_0; lia). exists s1. rewrite app_nil_r, chunks_concat0 by (assumption || lia). rewrite <- H7.
      split; [reflexivity|]. split; [intros v Ev; injection Ev as <-; exact (macR_restart _ _ _ HR1)|]. intros Hn. exfalso. exact (Hn _ eq_refl).
    + exists s1. split; [reflexivity|]. split; [discriminate|]. intros _. exists blks, tail. split; [exact HR1|]. split; [reflexivity|].
      intros ->. change (zlen (@nil Z)) with 0 in H2. lia.
Qed.

Lemma cmac_result_again k1 k2 iv0 s m : zlen k1 = bs -> zlen k2 = bs -> bytes_ok k1 -> bytes_ok k2 -> macR C E gd iv0 s m ->
  exists s', cmac_result C k1 k2 s = (s', Ret (cmac_digest C E k1 k2 iv0 m)) /\ macR C E gd (cmac_digest C E k1 k2 iv0 m) s' [].
Proof.
  intros K1 K2 B1 B2 HR0. pose proof (cmac_result_ok fresh C E gd fresh_len bs_range HC E_ok k1 k2 iv0 s m K1 K2 B1 B2 HR0) as Hv. destruct HR0 as (blks & tail & HR & Em & Hz).
  pose proof HR as (H1 & H2 & H3 & H4 & H5 & H6 & H7 & H8 & H9 & H10). pose proof (zlen_nonneg tail) as Ht0.
  revert Hv. unfold cmac_result. set (full := mc_used s =? bs). set (k := if full then k1 else k2).
  assert (Hk : zlen k = bs /\ bytes_ok k) by (unfold k; destruct full; auto).
  set (b := if full then tail else tail ++ [128] ++ zeros (bs - zlen tail - 1)).
  assert (Hb : zlen b = bs /\ bytes_ok b).
  { unfold b. destruct full eqn:Ef; unfold full in Ef; [split; [lia|assumption]|]. rewrite !zlen_app, zlen_one, zlen_zeros by (lia). split; [lia|].
    apply bytes_ok_app. split; [assumption|]. apply bytes_ok_app. split; [|apply bytes_ok_zeros]. repeat constructor; unfold byte_ok; lia. }
  assert (E1 : (if full then (s, Ret tt) else m_to_buf C s (pad padding_8000 (mc_buf s) (mc_used s))) = (MSt (mc_iv s) b (mc_used s) (mc_c s), Ret tt)).
  { unfold b. destruct full eqn:Ef; unfold full in Ef.
    - assert (Et : mc_buf s = tail) by (apply (m_buf_full fresh C E gd fresh_len bs_range E_ok iv0 _ _ _ HR); lia). rewrite <- Et. destruct s; reflexivity.
    - pose proof (zeros_pad_ok bs (mc_buf s) (mc_used s) H5 ltac:(lia)) as Hp. cbn [zeros_pad] in Hp. destruct Hp as (-> & _). rewrite H6, H2. reflexivity. }
  rewrite E1. cbn [bind]. unfold xor_bytes. cbn [mc_iv mc_buf].
  assert (in_range (mc_iv s) 0 bs && in_range b 0 bs = true) as -> by (apply andb_true_iff; rewrite !in_range_true; lia).
  cbn [m_to_buf bind mc_iv mc_buf mc_used mc_c]. rewrite !sub_0_all by lia. rewrite splice_all by (rewrite zlen_xorb; lia).
  assert (Hx : zlen (xorb (mc_iv s) b) = bs) by (rewrite zlen_xorb; lia).
  assert (in_range k 0 bs && in_range (xorb (mc_iv s) b) 0 bs = true) as -> by (apply andb_true_iff; rewrite !in_range_true; lia).
  cbn [m_to_buf bind mc_iv mc_buf mc_used mc_c]. rewrite !sub_0_all by lia. rewrite splice_all by (rewrite zlen_xorb; lia).
  assert (Hy : zlen (xorb k (xorb (mc_iv s) b)) = bs) by (rewrite zlen_xorb; lia).
  assert (Hyb : bytes_ok (xorb k (xorb (mc_iv s) b))) by (apply bytes_ok_xorb; [tauto|]; apply bytes_ok_xorb; tauto).
  set (s2 := MSt _ _ _ _). destruct (m_transform_ok fresh C E gd fresh_len bs_range HC s2) as (c' & -> & Hg'); cbn [s2 mc_iv mc_buf mc_used mc_c]; try assumption.
  destruct (E_ok _ Hy Hyb) as (L1 & L2).
  cbn [bind snd mc_iv]. intros Hv. eexists. split; [f_equal; exact Hv|]. injection Hv as <-.
  exists [], []. split; [|auto]. unfold macR0, s2. cbn [m_set_used mc_iv mc_buf mc_used mc_c].
  repeat (split; try assumption; try reflexivity); try constructor; lia.
Qed.
End Mac.

Lemma mac_values_S E bs p iv m k :
  mac_values E bs p iv m (S k) = match mac_value E bs p iv m with Some t => mac_values E bs p t [] k | None => None end.
Proof.
  unfold mac_values. induction k as [|k IH]; [reflexivity|].
  change (Nat.iter (S (S k)) ?f ?x) with (f (Nat.iter (S k) f x)). rewrite IH. destruct (mac_value E bs p iv m); reflexivity.
Qed.

Lemma mac_new_again fresh c bs E iv p ops k : (forall n, 0 <= n -> zlen (fresh n) = n) -> block_object c bs E -> mac_iv_ok bs iv ->
  (forall q, p = Some q -> pad_supports q bs) -> Forall hop_valid ops ->
  exists o, mac_new fresh iv (option_map scheme_of p) c = Ret o /\ results_from o ops k = mac_out (mac_values E bs p (iv_val bs iv) (added ops) k).
Proof.
  intros Hf HO Hiv Hp Hv. pose proof (object_E_ok _ _ _ HO) as HE. destruct HO as (Hbs & Hb & gd & HC & Hg). subst bs.
  destruct (mac_iv (bc_blocksize (b_bc c)) iv ltac:(lia) Hiv) as (E1 & E2 & E3). unfold mac_new, mac_init. rewrite E1. cbn [obind].
  eexists. split; [reflexivity|]. unfold results_from. cbn [ho_class ho_st].
  pose proof (himpl_state _ _ _ _ (mac_himpl fresh (b_bc c) E gd Hf Hbs HC HE p (iv_val _ iv)) _ ops (mac_init_R fresh (b_bc c) E gd Hf Hbs HE (iv_val _ iv) (b_st c) E2 E3 Hg) Hv Logic.I) as HR.
  set (s := fst (h_run _ _ _)) in *. clearbody s. clear Hv E2 E3 E1 Hiv Hg. cbn in s. revert HR. generalize (added ops) as m. generalize (iv_val (bc_blocksize (b_bc c)) iv) as v0.
  clear iv ops. revert s. induction k as [|k IH]; intros s v0 m HR;
    destruct (mac_result_again fresh (b_bc c) E gd Hf Hbs HC HE p v0 s m Hp HR) as (s' & Er & Hok & Hno);
    pose proof (mac_digest_message (b_bc c) E p v0 m ltac:(lia) Hp) as EQ; rewrite EQ in Er, Hok, Hno; cbn [nth_result mac h_result mac_with]; rewrite Er; cbn [fst snd]; [reflexivity|].
  rewrite mac_values_S. fold (mac_value E (bc_blocksize (b_bc c)) p v0 m) in Hok, Hno. destruct (mac_value E (bc_blocksize (b_bc c)) p v0 m) as [t|] eqn:Ev; cbn [mac_out] in *.
  - apply IH. apply Hok. reflexivity.
  - assert (HN : macR (b_bc c) E gd v0 s' m) by (apply Hno; discriminate). rewrite (IH s' v0 m HN). unfold mac_values. rewrite Ev. clear. induction k as [|k IH]; [reflexivity|].
    cbn [mac_out]. change (Nat.iter (S k) ?f ?x) with (f (Nat.iter k f x)). destruct (Nat.iter k _ _); [discriminate|reflexivity].
Qed.
Lemma block_mac_again fresh nb key bs E D iv p ops k : (forall n, 0 <= n -> zlen (fresh n) = n) -> block_family nb key bs E D -> mac_iv_ok bs iv ->
  (forall q, p = Some q -> pad_supports q bs) -> Forall hop_valid ops ->
  exists o, block_mac fresh (nb Encrypt) iv (option_map scheme_of p) key = Ret o /\ results_from o ops k = mac_out (mac_values E bs p (iv_val bs iv) (added ops) k).
Proof.
  intros Hf F Hiv Hp. destruct (family_object _ _ _ _ _ Encrypt F) as (c & Hc & HO). unfold block_mac. rewrite Hc. cbn [obind]. apply mac_new_again; assumption.
Qed.
(* without padding: every call the same *)
Lemma mac_values_none E bs iv m k : mac_values E bs None iv m k = mac_value E bs None iv m.
Proof.
  unfold mac_values. induction k as [|k IH]; [reflexivity|]. change (Nat.iter (S k) ?f ?x) with (f (Nat.iter k f x)). rewrite IH.
  destruct (mac_value E bs None iv m) as [t|]; [|reflexivity]. unfold mac_value, mac_message. change (zlen (@nil Z)) with 0. rewrite Zmod_0_l. cbn [Z.eqb option_map].
  rewrite chunks_nil. reflexivity.
Qed.

(* ---- CMAC ---- *)
Lemma aes_cmac_again fresh nb key E D iv ops k : Forall hop_valid ops -> (forall n, 0 <= n -> zlen (fresh n) = n) -> block_family nb key 16 E D -> mac_iv_ok 16 iv ->
  exists o, aes_cmac fresh (nb Encrypt) iv key = Ret o /\ results_from o ops k = Ret (cmac_values E (iv_val 16 iv) (added ops) k).
Proof.
  intros Hv Hf F Hiv. destruct (family_object _ _ _ _ _ Encrypt F) as (c & Hc & HO). pose proof (object_E_ok _ _ _ HO) as HE.
  destruct HO as (Hbs & Hb & gd & HC & Hg). unfold aes_cmac. rewrite Hc. cbn [obind].
  destruct (object_step _ _ _ (b_st c) (zeros 16) (fresh 16) HC Hg) as (s' & -> & Hg' & L1 & L2);
    [lia|rewrite Hb; reflexivity|apply bytes_ok_zeros|rewrite Hb; apply Hf; lia|]. cbn [fst snd obind]. rewrite Hb in L1.
  change (bytes_set (zeros 16) 15 135) with (Ret (zeros 15 ++ [135])). cbn [obind].
  rewrite subkey_ok by (assumption || reflexivity). cbn [obind]. fold (cmac_K1 E).
  assert (K1 : zlen (cmac_K1 E) = 16 /\ bytes_ok (cmac_K1 E)) by (unfold cmac_K1; rewrite zlen_to_be; split; [reflexivity|apply bytes_ok_to_be]). destruct K1 as (K1 & K2).
  rewrite subkey_ok by (assumption || reflexivity). cbn [obind].
  assert (Hd : forall x, 0 <= x < 2 ^ 128 -> 0 <= gf_double x < 2 ^ 128).
  { clear. intros x Hx. unfold gf_double. destruct (x <? 2 ^ 127) eqn:Ex; [change (2 ^ 128) with (2 * 2 ^ 127) in *; lia|].
    replace (2 * x) with ((2 * x - 2 ^ 128) + 1 * 2 ^ 128) by lia. replace (2 ^ 128 + 135) with (135 + 1 * 2 ^ 128) by lia. change (2 ^ 128) with (2 * 2 ^ 127) in Hx.
    rewrite lxor_cat; [|lia|change (2 ^ 128) with (2 * 2 ^ 127); lia|lia|lia|lia]. change (Z.lxor 1 1) with 0. rewrite Z.mul_0_l, Z.add_0_r. apply lxor_bound; [lia|change (2 ^ 128) with (2 * 2 ^ 127); lia|lia]. }
  assert (Hl : 0 <= be (E (zeros 16)) < 2 ^ 128) by (pose proof (be_bound _ L2) as Hx; rewrite L1 in Hx; exact Hx).
  assert (EK : to_be 16 (gf_double (be (cmac_K1 E))) = cmac_K2 E).
  { unfold cmac_K1 at 1, cmac_K2. rewrite be_to_be. change (256 ^ Z.of_nat 16) with (2 ^ 128). rewrite Z.mod_small by (apply Hd; exact Hl). reflexivity. }
  rewrite EK. assert (K3 : zlen (cmac_K2 E) = 16 /\ bytes_ok (cmac_K2 E)) by (unfold cmac_K2; rewrite zlen_to_be; split; [reflexivity|apply bytes_ok_to_be]). destruct K3 as (K3 & K4).
  destruct (mac_iv 16 iv ltac:(lia) Hiv) as (Ei & Ei2 & Ei3). unfold cmac_new, mac_init. cbn [b_bc b_st]. rewrite Hb, Ei. cbn [obind].
  eexists. split; [reflexivity|]. set (iv0 := iv_val 16 iv) in *. clearbody iv0. rewrite <- Hb in Hbs, HE, K1, K3, Ei2. unfold results_from. cbn [ho_class ho_st].
  pose proof (himpl_state _ (cmac (b_bc c)) _ _ (cmac_himpl fresh (b_bc c) E gd Hf Hbs HC HE _ _ iv0 K1 K3 K2 K4) (_, (cmac_K1 E, cmac_K2 E)) ops
    (conj (mac_init_R fresh (b_bc c) E gd Hf Hbs HE iv0 s' Ei2 Ei3 Hg') eq_refl) Hv Logic.I) as HR. rewrite <- Hb.
  set (s := fst (h_run _ _ _)) in *. clearbody s. cbn in s. clear Hv Ei2 Ei3 Ei. revert HR. generalize (added ops) as m. revert s iv0.
  assert (Ed : forall v m, cmac_digest (b_bc c) E (cmac_K1 E) (cmac_K2 E) v m = cmac_spec E v m).
  { intros v m. unfold cmac_digest. rewrite Hb. unfold cmac_spec, cmac_last.
    replace (16 - zlen (last (chunks 16 m) []) - 1) with (15 - zlen (last (chunks 16 m) [])) by lia. reflexivity. }
  induction k as [|k IH]; intros s v0 m (HR & Hk);
    destruct (cmac_result_again fresh (b_bc c) E gd Hf Hbs HC HE _ _ v0 (fst s) m K1 K3 K2 K4 HR) as (s2 & Er & HR2); rewrite Ed in Er, HR2;
    cbn [nth_result cmac h_result]; rewrite Hk; cbn [fst snd]; rewrite Er; unfold c_on, lift; cbn [fst snd]; [reflexivity|].
  rewrite (IH (s2, snd s) (cmac_spec E v0 m) [] (conj HR2 Hk)). f_equal. unfold cmac_values. exact (Nat_iter_comm (fun t => cmac_spec E t []) k (cmac_spec E v0 m)).
Qed.
Lemma block_mac_same fresh : (forall n, 0 <= n -> zlen (fresh n) = n) ->
  forall nb key bs E D iv ops k, block_family nb key bs E D -> mac_iv_ok bs iv -> Forall hop_valid ops ->
  exists o, block_mac fresh (nb Encrypt) iv None key = Ret o /\ results_from o ops k = results_from o ops 0.
Proof.
  intros Hf nb key bs E D iv ops k F Hiv Hv.
  destruct (block_mac_again fresh nb key bs E D iv None ops k Hf F Hiv ltac:(discriminate) Hv) as (o & Eo & Er).
  destruct (block_mac_again fresh nb key bs E D iv None ops 0 Hf F Hiv ltac:(discriminate) Hv) as (o' & Eo' & Er').
  exists o. split; [exact Eo|]. assert (o' = o) as -> by congruence. rewrite Er, Er', !mac_values_none. reflexivity.
Qed.
