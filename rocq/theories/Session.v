(* Hash and MAC objects that are given more data after result. *)
From Verif Require Import Prelude PreludeFacts BytesNum SpecBlock SpecModes SpecPadding SpecHash SpecKeccak SpecBlake3 SpecMac SpecAgain SpecMacAgain SpecSession Padding HashModel HashSpec HashFacts MdModel MdHash
  ShaModel Sha KeccakModel Keccak KeccakHash Blake3Model Blake3Hash BlockModel BlockTotal BlockCipher CipherModel CipherSpec CipherApi MacModel Mac MacApi Toy Again MacAgain.

(* ---- BLAKE3: result leaves the context as it is ---- *)
Lemma b3_session key sz o l : blake3_obj key sz = Ret o -> bytes_ok key -> Forall (Forall hop_valid) l -> zlen (concat (map added l)) < 2 ^ 64 ->
  session_of o l = map Ret (digests (blake3_spec key (sz / 8)) [] (map added l)).
Proof.
  intros Ho Hk Hv Hlen. assert (Hc : exists o', blake3_obj key sz = Ret o' /\ h_size (ho_class o') = sz / 8 /\ computes_on b3_dom o' (fun m => Ret (blake3_spec key (sz / 8) m))).
  { unfold blake3_obj in Ho. destruct ((sz >? 0) && (sz mod 8 =? 0) && ((zlen key =? 0) || (zlen key =? 32))) eqn:E; [|discriminate].
    apply blake3_ok; [lia|lia|lia|assumption]. }
  destruct Hc as (o' & Ho' & _ & Hc). assert (o' = o) as -> by congruence. clear Ho'.
  assert (Hdom : forall a b, b3_dom (a ++ b) -> b3_dom a) by (unfold b3_dom; intros a b; rewrite zlen_app; pose proof (zlen_nonneg b); lia).
  destruct (computes_himpl b3_dom o _ Hdom Hc) as (HI & HR). unfold session_of.
  assert (Hs : forall s, fst (h_result (ho_class o) s) = s).
  { unfold blake3_obj in Ho. destruct (_ && _ && _); [|discriminate]. injection Ho as <-. cbn [ho_class]. intros s. cbn [blake3_class c_hash h_result b3_fin]. cbn in s. destruct s; reflexivity. }
  clear Ho. change (zlen ([] ++ concat (map added l)) < 2 ^ 64) in Hlen. revert HR Hlen. generalize (ho_st o) as s. generalize (@nil Z) as m.
  induction l as [|ops l IH]; intros m s HR Hlen; [reflexivity|]. apply Forall_cons_iff in Hv as (Hv1 & Hv2). cbn [session map digests concat] in *. rewrite app_assoc in Hlen.
  assert (Hd : b3_dom (m ++ added ops)) by (apply (Hdom _ (concat (map added l))); exact Hlen).
  destruct (h_run_ok _ _ _ _ HI ops s m HR Hv1 Hd) as (s1 & -> & HR1). cbn [fst]. rewrite Hs, (hi_res _ _ _ _ HI s1 _ HR1 Hd). f_equal. exact (IH Hv2 _ _ HR1 Hlen).
Qed.

(* ---- SHA-3 and Keccak ---- *)
Lemma sha3_session fresh sz official o l : (forall n, 0 <= n -> zlen (fresh n) = n) -> sha3_new fresh sz official = Ret o -> Forall (Forall hop_valid) l ->
  let suffix := if official then [false; true] else [] in
  session_of o l = map Ret (sponge_digests (keccak_digest suffix sz) (sponge_again (1600 - 2 * sz) suffix) [] (map added l)).
Proof.
  intros Hf Ho Hv. cbn zeta. unfold sha3_new in Ho. destruct ((sz =? 224) || (sz =? 256) || (sz =? 384) || (sz =? 512)) eqn:Es; [|discriminate].
  injection Ho as <-. assert (Hsz : sz = 224 \/ sz = 256 \/ sz = 384 \/ sz = 512) by lia. clear Es.
  assert (Hr : 0 < 200 - 2 * (sz / 8) <= 144 /\ (200 - 2 * (sz / 8)) mod 8 = 0 /\ 0 <= sz / 8 <= 100 /\ (sz / 8) mod 4 = 0 /\ 8 * (200 - 2 * (sz / 8)) = 1600 - 2 * sz).
  { destruct Hsz as [-> | [-> | [-> | ->]]]; vm_compute; intuition congruence. }
  destruct Hr as (Hr1 & Hr2 & Hh & Hh4 & Hrr).
  set (suffix := if official then [false; true] else [] : list bool).
  assert (Hs : suffix = [] \/ suffix = [false; true]) by (unfold suffix; destruct official; auto).
  assert (Ef : forall s m, sha3_R sz s m -> exists s', h_result (sha3_class sz official) s = (s', Ret (keccak_digest suffix sz m)) /\ sha3_R sz s' (sponge_again (1600 - 2 * sz) suffix m)).
  { intros s m (c & -> & Hc). cbn [sha3_class c_hash h_result]. unfold sha3_fin.
    replace (if official then 6 else 1) with (suffix_byte suffix) by (unfold suffix; destruct official; reflexivity).
    destruct (k_extract_again _ _ Hr1 Hr2 suffix c m Hs Hc) as (c' & st & Hinv & Hst & Est & ->). cbv zeta.
    destruct (k_output_ok st (sz / 8) (proj1 Hst) Hh Hh4) as (E1 & E2). rewrite E2.
    assert (sz / 8 >? sz / 8 = false) as -> by lia. exists (Some c'). rewrite Hrr in *. split; [rewrite E1, Est; reflexivity|]. exists c'. split; [reflexivity|exact Hinv]. }
  unfold session_of. cbn [ho_class ho_st]. pose proof (sha3_init_R fresh sz Hf Hsz) as HR. revert HR. generalize (Some (SHA3_init sz (fresh 144))) as s. generalize (@nil Z) as m.
  induction l as [|ops l IH]; intros m s HR; [reflexivity|]. apply Forall_cons_iff in Hv as (Hv1 & Hv2). cbn [session map sponge_digests].
  destruct (h_run_ok _ _ _ _ (sha3_himpl sz official Hsz) ops s m HR Hv1 Logic.I) as (s1 & -> & HR1). cbn [fst].
  destruct (Ef s1 _ HR1) as (s2 & E & HR2). rewrite E. cbn [fst snd]. f_equal. exact (IH Hv2 _ _ HR2).
Qed.

(* ---- CBC-MAC ---- *)
Lemma mac_new_session fresh c bs E iv p l : (forall n, 0 <= n -> zlen (fresh n) = n) -> block_object c bs E -> mac_iv_ok bs iv ->
  (forall q, p = Some q -> pad_supports q bs) -> Forall (Forall hop_valid) l ->
  exists o, mac_new fresh iv (option_map scheme_of p) c = Ret o /\ session_of o l = mac_session E bs p (iv_val bs iv) [] (map added l).
Proof.
  intros Hf HO Hiv Hp Hv. pose proof (object_E_ok _ _ _ HO) as HE. destruct HO as (Hbs & Hb & gd & HC & Hg). subst bs.
  destruct (mac_iv (bc_blocksize (b_bc c)) iv ltac:(lia) Hiv) as (E1 & E2 & E3). unfold mac_new, mac_init. rewrite E1. cbn [obind].
  eexists. split; [reflexivity|]. unfold session_of. cbn [ho_class ho_st]. set (H := mac (b_bc c) (option_map scheme_of p)).
  pose proof (mac_init_R fresh (b_bc c) E gd Hf Hbs HE (iv_val _ iv) (b_st c) E2 E3 Hg) as HR. set (s := MSt _ _ _ _) at 1. change (macR (b_bc c) E gd (iv_val (bc_blocksize (b_bc c)) iv) s []) in HR.
  clearbody s. clear E1 E2 E3 Hiv Hg. revert HR. generalize (@nil Z) as m. generalize (iv_val (bc_blocksize (b_bc c)) iv) as v0. revert s. clear iv.
  induction l as [|ops l IH]; intros s v0 m HR; [reflexivity|]. apply Forall_cons_iff in Hv as (Hv1 & Hv2). cbn [session map mac_session].
  destruct (h_run_ok _ _ _ _ (mac_himpl fresh (b_bc c) E gd Hf Hbs HC HE p v0) ops s m HR Hv1 Logic.I) as (s1 & Es1 & HR1). fold H in Es1. rewrite Es1. cbn [fst].
  destruct (mac_result_again fresh (b_bc c) E gd Hf Hbs HC HE p v0 s1 _ Hp HR1) as (s' & Er & Hok & Hno).
  pose proof (mac_digest_message (b_bc c) E p v0 (m ++ added ops) ltac:(lia) Hp) as EQ. rewrite EQ in Er, Hok, Hno. fold (mac_value E (bc_blocksize (b_bc c)) p v0 (m ++ added ops)) in Er, Hok, Hno.
  assert (E' : h_result H s1 = (s', mac_out (mac_value E (bc_blocksize (b_bc c)) p v0 (m ++ added ops)))) by exact Er. rewrite E'. cbn [fst snd].
  destruct (mac_value E (bc_blocksize (b_bc c)) p v0 (m ++ added ops)) as [t|]; cbn [mac_out] in *; f_equal.
  - apply (IH Hv2). apply Hok. reflexivity.
  - apply (IH Hv2). apply Hno. discriminate.
Qed.
Lemma block_mac_session fresh nb key bs E D iv p l : (forall n, 0 <= n -> zlen (fresh n) = n) -> block_family nb key bs E D -> mac_iv_ok bs iv ->
  (forall q, p = Some q -> pad_supports q bs) -> Forall (Forall hop_valid) l ->
  exists o, block_mac fresh (nb Encrypt) iv (option_map scheme_of p) key = Ret o /\ session_of o l = mac_session E bs p (iv_val bs iv) [] (map added l).
Proof.
  intros Hf F Hiv Hp. destruct (family_object _ _ _ _ _ Encrypt F) as (c & Hc & HO). unfold block_mac. rewrite Hc. cbn [obind]. apply mac_new_session; assumption.
Qed.

(* ---- CMAC ---- *)
Lemma aes_cmac_session fresh nb key E D iv l : Forall (Forall hop_valid) l -> (forall n, 0 <= n -> zlen (fresh n) = n) -> block_family nb key 16 E D -> mac_iv_ok 16 iv ->
  exists o, aes_cmac fresh (nb Encrypt) iv key = Ret o /\ session_of o l = map Ret (cmac_session E (iv_val 16 iv) (map added l)).
Proof.
  intros Hv Hf F Hiv. destruct (family_object _ _ _ _ _ Encrypt F) as (c & Hc & HO). pose proof (object_E_ok _ _ _ HO) as HE.
  destruct HO as (Hbs & Hb & gd & HC & Hg). unfold aes_cmac. rewrite Hc. cbn [obind].
  destruct (object_step _ _ _ (b_st c) (zeros 16) (fresh 16) HC Hg) as (s' & -> & Hg' & L1 & L2);
    [lia|rewrite Hb; reflexivity|apply bytes_ok_zeros|rewrite Hb; apply Hf; lia|]. cbn [fst snd obind]. rewrite Hb in L1.
  change (bytes_set (zeros 16) 15 135) with (Ret (zeros 15 ++ [135])). cbn [obind].
  rewrite subkey_ok by (assumption || reflexivity). cbn [obind]. fold (cmac_K1 E).
  assert (K1 : zlen (cmac_K1 E) = 16 /\ bytes_ok (cmac_K1 E)) by (unfold cmac_K1; rewrite zlen_to_be; split; [reflexivity|apply bytes_ok_to_be]). destruct K1 as (K1 & K2).
  rewrite subkey_ok by (assumption || reflexivity). cbn [obind].
  assert (Hd : forall x, 0 <= x < 2 ^ 128 -> 0 <= gf_double x < 2 ^ 128).
  { clear. intros x Hx. unfold gf_double. destruct (x <? 2 ^ 127) eqn:Ex; [change (2 ^ 128) with (2 * 2 ^ 127) in *; lia|].
    replace (2 * x) with ((2 * x - 2 ^ 128) + 1 * 2 ^ 128) by lia. replace (2 ^ 128 + 135) with (135 + 1 * 2 ^ 128) by lia. change (2 ^ 128) with (2 * 2 ^ 127) in Hx.
    rewrite lxor_cat; [|lia|change (2 ^ 128) with (2 * 2 ^ 127); lia|lia|lia|lia]. change (Z.lxor 1 1) with 0. rewrite Z.mul_0_l, Z.add_0_r. apply lxor_bound; [lia|change (2 ^ 128) with (2 * 2 ^ 127); lia|lia]. }
  assert (Hl : 0 <= be (E (zeros 16)) < 2 ^ 128) by (pose proof (be_bound _ L2) as Hx; rewrite L1 in Hx; exact Hx).
  assert (EK : to_be 16 (gf_double (be (cmac_K1 E))) = cmac_K2 E).
  { unfold cmac_K1 at 1, cmac_K2. rewrite be_to_be. change (256 ^ Z.of_nat 16) with (2 ^ 128). rewrite Z.mod_small by (apply Hd; exact Hl). reflexivity. }
  rewrite EK. assert (K3 : zlen (cmac_K2 E) = 16 /\ bytes_ok (cmac_K2 E)) by (unfold cmac_K2; rewrite zlen_to_be; split; [reflexivity|apply bytes_ok_to_be]). destruct K3 as (K3 & K4).
  destruct (mac_iv 16 iv ltac:(lia) Hiv) as (Ei & Ei2 & Ei3). unfold cmac_new, mac_init. cbn [b_bc b_st]. rewrite Hb, Ei. cbn [obind].
  eexists. split; [reflexivity|]. set (iv0 := iv_val 16 iv) in *. clearbody iv0. rewrite <- Hb in Hbs, HE, K1, K3, Ei2. unfold session_of. cbn [ho_class ho_st]. rewrite <- Hb.
  assert (Ed : forall v m, cmac_digest (b_bc c) E (cmac_K1 E) (cmac_K2 E) v m = cmac_spec E v m).
  { intros v m. unfold cmac_digest. rewrite Hb. unfold cmac_spec, cmac_last.
    replace (16 - zlen (last (chunks 16 m) []) - 1) with (15 - zlen (last (chunks 16 m) [])) by lia. reflexivity. }
  pose proof (mac_init_R fresh (b_bc c) E gd Hf Hbs HE iv0 s' Ei2 Ei3 Hg') as HR0. set (sm := MSt _ _ _ _). change (macR (b_bc c) E gd iv0 sm []) in HR0. clearbody sm. clear Ei2 Ei3 Ei.
  revert sm iv0 HR0. induction l as [|ops l IH]; intros sm v0 HR0; [reflexivity|]. apply Forall_cons_iff in Hv as (Hv1 & Hv2). cbn [session map cmac_session].
  pose proof (himpl_state _ (cmac (b_bc c)) _ _ (cmac_himpl fresh (b_bc c) E gd Hf Hbs HC HE _ _ v0 K1 K3 K2 K4) (sm, (cmac_K1 E, cmac_K2 E)) ops (conj HR0 eq_refl) Hv1 Logic.I) as (HR & Hk).
  set (s1 := fst (h_run _ _ ops)) in *. clearbody s1. cbn in s1. destruct s1 as [sm1 ks]. cbn [fst snd] in HR, Hk. subst ks.
  destruct (cmac_result_again fresh (b_bc c) E gd Hf Hbs HC HE _ _ v0 sm1 (added ops) K1 K3 K2 K4 HR) as (s2 & Er & HR2); rewrite Ed in Er, HR2.
  assert (E' : h_result (cmac (b_bc c)) (sm1, (cmac_K1 E, cmac_K2 E)) = ((s2, (cmac_K1 E, cmac_K2 E)), Ret (cmac_spec E v0 (added ops)))).
  { cbn [cmac h_result fst snd]. rewrite Er. reflexivity. }
  rewrite E'. cbn [fst snd]. f_equal. exact (IH Hv2 s2 _ HR2).
Qed.

(* SHA-1: an empty message, then one byte *)
Lemma session_differs : exists fresh o l, (forall n, 0 <= n -> zlen (fresh n) = n) /\ o = sha1_obj fresh /\ Forall (Forall hop_valid) l /\
  session_of o l <> map Ret (digests sha1 [] (map added l)).
Proof.
  exists toy_fresh, (sha1_obj toy_fresh), [[]; [HChar 97]]. split; [exact toy_fresh_len|]. split; [reflexivity|]. split.
  - apply Forall_cons; [constructor|]. apply Forall_cons; [|constructor]. apply Forall_cons; [|constructor]. cbn. unfold byte_ok. lia.
  - intros H. assert (E : nth 1 (session_of (sha1_obj toy_fresh) [[]; [HChar 97]]) Undef = nth 1 (map Ret (digests sha1 [] (map added [[]; [HChar 97]]))) Undef) by (rewrite H; reflexivity).
    vm_compute in E. discriminate E.
Qed.
