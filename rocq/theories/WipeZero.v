(* wipe overwrites every buffer, key schedule and C context with zeros, in every object of the library and every combination. *)
From Verif Require Import Prelude BufOutModel TransformModel BlockModel CipherModel CipherSpec EncModel StreamModel HashModel MdModel ShaModel RipemdModel Blake2Model Blake3Model SipModel KeccakModel
  MacModel AuthModel PolyModel AeadModel AeadApi RngModel DesModel BlowfishModel AesModel AesniModel SpecTransducer SpecWipe SpecWipe2 WipeApi WipeErase2 SpecZero WipeErase WipeErase3 WipeHash.

Lemma all0_map {A} (l : list A) : all0 (map (fun _ => 0) l).
Proof. induction l; constructor; auto. Qed.
Lemma all0_repeat n : all0 (repeat 0 n).
Proof. induction n; constructor; auto. Qed.
Lemma all0_zeros n : all0 (zeros n).
Proof. apply all0_repeat. Qed.
Lemma all0_blocks n : Forall all0 (repeat (zeros 16) n).
Proof. induction n; constructor; auto. apply all0_zeros. Qed.
Lemma all0_bo b : all0 (obuf (bo_wipe b)).
Proof. apply all0_zeros. Qed.

Definition wipes_block (c : bobj) : Prop := forall s, zero_block (BObj (b_bc c) (bc_wipe (b_bc c) s)).
Definition wipes_tr fresh (o : tobj) : Prop := forall s, snd (t_wipe (o_tr o) s) = Ret tt /\ zero_transform fresh (TObj (o_tr o) (fst (t_wipe (o_tr o) s))).
Definition wipes_h (o : hobj) : Prop := forall s, snd (h_wipe (ho_class o) s) = Ret tt /\ zero_hash (HObj (ho_class o) (fst (h_wipe (ho_class o) s))).

Lemma des_wipes d k c : new_des d k = Ret c -> wipes_block c.
Proof. unfold new_des. destruct (_ =? _); [|discriminate]. intros E. apply ret_inj in E. subst c. intros s. apply ZB_des, all0_map. Qed.
Lemma feistel_wipes nb d k c : feistel_class nb -> nb d k = Ret c -> wipes_block c.
Proof.
  intros [->|[->| ->]]; [apply des_wipes| |].
  - unfold new_triple_des. destruct (_ && _); [discriminate|]. destruct d; intros E; apply ret_inj in E; subst c; intros [[x y] z]; apply ZB_triple_des; apply all0_map.
  - unfold new_blowfish. destruct (_ && _); [|discriminate]. destruct d; intros E; apply ret_inj in E; subst c; intros [x y]; [apply ZB_blowfish_e|apply ZB_blowfish_d]; apply all0_map.
Qed.
Lemma rijndael_wipes fresh nb d k c : rijndael_class fresh nb -> nb d k = Ret c -> wipes_block c.
Proof.
  intros [->| ->].
  - unfold new_aes. destruct (aes_key_ok k); [|discriminate]. destruct d; intros E; apply ret_inj in E; subst c; intros s; [apply ZB_aes_e|apply ZB_aes_d]; apply all0_repeat.
  - unfold new_aesni. destruct (aes_key_ok k); [|discriminate].
    destruct d; repeat match goal with |- context [match ?x with Some _ => _ | None => _ end] => destruct x end; try discriminate; intros E; apply ret_inj in E; subst c; intros s; (apply ZB_aesni_e || apply ZB_aesni_d); apply all0_blocks.
Qed.
Lemma chain_wipes fresh m d iv c cc : wipes_block c -> chain fresh m d iv c = Ret cc -> wipes_block cc.
Proof.
  intros Hc. unfold chain. destruct m, d; try (intros E; apply ret_inj in E; subst cc; exact Hc);
    try (destruct (mode_init _ _ _ _ _) as [s0|e| |]); try (destruct (chunked_init _ _ _ _ _ _) as [s0|e| |]); cbn [obind]; try discriminate;
    intros E; apply ret_inj in E; subst cc; intros s;
    (apply ZB_cbc_e || apply ZB_cbc_d || apply ZB_cfb_e || apply ZB_cfb_d || apply ZB_ofb || apply ZB_ctr); try apply all0_zeros; apply (Hc (ms_c s)).
Qed.
Lemma make_wipes fresh nb m p iv key d o : (forall d c, nb d key = Ret c -> wipes_block c) -> make_cipher fresh nb m p iv key d = Ret o -> wipes_tr fresh o.
Proof.
  intros Hb. unfold make_cipher. destruct (nb _ key) as [c|e| |] eqn:Ec; cbn [obind]; try discriminate. apply Hb in Ec.
  unfold make_block_cipher. destruct (chain _ _ _ _ _) as [cc|e| |] eqn:Ecc; cbn [obind]; try discriminate. apply (chain_wipes _ _ _ _ _ _ Ec) in Ecc.
  intros E. apply ret_inj in E. subst o. destruct p as [p|]; [destruct d|]; intros s; (split; [reflexivity|]); apply ZT_block; try apply all0_zeros; apply Ecc.
Qed.
Lemma lib_tr_wipes fresh w o : lib_tr fresh w o -> wipes_tr fresh o.
Proof.
  induction 1 as [nb m p iv key d o Hn E|nb m p iv key d o _ Hn _ E|key d o E|iv ctr key d o E|ml pad| | | |o1 o2 _ IH1 _ IH2].
  - apply (make_wipes fresh nb m (option_map scheme_of p) iv key d o); [|exact E]. intros d' c. now apply feistel_wipes.
  - apply (make_wipes fresh nb m (option_map scheme_of p) iv key d o); [|exact E]. intros d' c. now apply (rijndael_wipes fresh).
  - revert E. unfold Cipher_arcfour, new_arcfour. destruct (_ && _); cbn [obind]; [|discriminate]. intros E. apply ret_inj in E. subst o. intros s. split; [reflexivity|].
    apply ZT_arcfour; try apply all0_zeros. repeat split. apply all0_map.
  - revert E. unfold Cipher_chacha20, new_chacha20. destruct (negb _); cbn [obind]; [discriminate|]. destruct (match iv with None => _ | Some _ => _ end) as [v|e| |]; cbn [obind]; try discriminate.
    intros E. apply ret_inj in E. subst o. intros s. split; [reflexivity|]. apply ZT_chacha; try apply all0_zeros. repeat split; apply all0_map.
  - intros s. split; [reflexivity|]. apply ZT_b64e; apply all0_zeros.
  - intros s. split; [reflexivity|]. apply ZT_b64d; apply all0_zeros.
  - intros [[] b]. split; [reflexivity|]. apply ZT_hexe. apply all0_zeros.
  - intros s. split; [reflexivity|]. apply ZT_hexd; apply all0_zeros.
  - intros [s1 s2]. cbn [o_tr compose t_wipe]. unfold on1, on2, lift, bind. cbn [fst snd].
    destruct (IH1 s1) as (E1 & Z1), (IH2 s2) as (E2 & Z2). cbn [o_tr t_wipe compose fst snd].
    destruct (t_wipe (o_tr o1) s1) as [s1' r1]. cbn [fst snd] in *. subst r1. destruct (t_wipe (o_tr o2) s2) as [s2' r2]. cbn [fst snd] in *. subst r2.
    split; [reflexivity|]. exact (ZT_compose fresh _ _ Z1 Z2).
Qed.

Lemma md_object_wipes fresh o B : md_object fresh o B -> exists size add fin c, o = HObj (c_hash md_ctx size add fin md_wipe) c.
Proof. intros [(-> & _)|[(-> & _)|[(-> & _)|[(-> & _)|[(-> & _)|(-> & _)]]]]]; do 4 eexists; reflexivity. Qed.
Lemma mac_wipe_zero C (s : mst C) : wipes_block (BObj C (mc_c s)) -> zero_mac (fst (mac_wipe C s)).
Proof. intros H. split; [apply all0_zeros|split; [apply all0_zeros|]]. apply H. Qed.
Lemma mac_new_wipes fresh iv p c o : wipes_block c -> mac_new fresh iv p c = Ret o -> wipes_h o.
Proof.
  intros Hc. unfold mac_new. destruct (mac_init _ _ _ _); cbn [obind]; try discriminate. intros E. apply ret_inj in E. subst o. intros s. split; [reflexivity|].
  apply ZH_mac. apply mac_wipe_zero. exact Hc.
Qed.
Lemma cmac_new_wipes fresh iv c k1 k2 o : wipes_block c -> cmac_new fresh iv c k1 k2 = Ret o -> wipes_h o.
Proof.
  intros Hc. unfold cmac_new. destruct (mac_init _ _ _ _); cbn [obind]; try discriminate. intros E. apply ret_inj in E. subst o. intros [s [x y]]. split; [reflexivity|].
  apply ZH_cmac; try apply all0_zeros. apply mac_wipe_zero. exact Hc.
Qed.
Lemma lib_h_wipes fresh w o : lib_h fresh w o -> wipes_h o.
Proof.
  intros [o' B Ho|o' B key m Ho _ E|sz key o' E|sz key o' E|nb iv p key o' Hn E|iv p key o' E|nb iv p key o' _ Hn _ E|sz b o' _ E].
  - destruct (md_object_wipes fresh o' B Ho) as (size & add & fin & c & ->). intros s. split; [reflexivity|]. apply ZH_md; try reflexivity; [apply all0_map|apply all0_zeros].
  - destruct (md_object_wipes fresh o' B Ho) as (size & add & fin & c & ->). revert E. unfold hmac_of, hmac_new. cbn [ho_class ho_st].
    intros E. assert (exists new B key c, m = HObj (hmac_class (c_hash md_ctx size add fin md_wipe) new B key) c) as (new & B' & key' & c' & ->).
    { revert E. cbv zeta. repeat match goal with |- obind ?x _ = _ -> _ => destruct x; cbn [obind]; try discriminate end. intros E. apply ret_inj in E. subst m. do 4 eexists. reflexivity. }
    intros s. split; [reflexivity|]. apply ZH_hmac; try reflexivity; [apply all0_map|apply all0_zeros].
  - assert (exists size add fin c, o' = HObj (c_hash b2_ctx size add fin b2_wipe) c) as (size & add & fin & c & ->).
    { destruct E as [E|E]; revert E; unfold blake2b_obj, blake2s_obj, blake2_new; (destruct (_ && _); [|discriminate]); (destruct (b2_init _ _ _ _ _); cbn [obind]; try discriminate);
      intros E; apply ret_inj in E; subst o'; do 4 eexists; reflexivity. }
    intros s. split; [reflexivity|]. apply ZH_blake2; try reflexivity; [apply all0_map|apply all0_zeros].
  - revert E. unfold siphash_new. destruct (_ && _); [|discriminate]. intros E. apply ret_inj in E. subst o'. intros s. split; [reflexivity|]. apply ZH_sip; try reflexivity. apply all0_zeros.
  - revert E. unfold block_mac. destruct (nb Encrypt key) as [c|e| |] eqn:Ec; cbn [obind]; try discriminate. apply mac_new_wipes. now apply (feistel_wipes nb Encrypt key).
  - revert E. unfold des_final_triple_des. cbv zeta. destruct (_ && _); [discriminate|].
    do 3 (match goal with |- obind ?x _ = _ -> _ => destruct x; cbn [obind]; try discriminate end).
    do 3 (match goal with |- obind ?x _ = _ -> _ => let E := fresh "E" in destruct x eqn:E; cbn [obind]; try discriminate; apply des_wipes in E end).
    unfold mac_final_triple_new. destruct (_ || _); [discriminate|]. destruct (mac_init _ _ _ _); cbn [obind]; try discriminate. intros E'. apply ret_inj in E'. subst o'.
    intros [[s x] y]. split; [reflexivity|]. apply ZH_des3; auto. apply mac_wipe_zero. assumption.
  - destruct E as [E|E]; revert E.
    + unfold block_mac. destruct (nb Encrypt key) as [c|e| |] eqn:Ec; cbn [obind]; try discriminate. apply mac_new_wipes. now apply (rijndael_wipes fresh nb Encrypt key).
    + unfold aes_cmac. destruct (nb Encrypt key) as [c|e| |] eqn:Ec; cbn [obind]; try discriminate. apply (rijndael_wipes fresh nb Encrypt key c Hn) in Ec. cbv zeta.
      repeat match goal with |- obind ?x _ = _ -> _ => destruct x; cbn [obind]; try discriminate end. apply cmac_new_wipes. exact Ec.
  - revert E. unfold sha3_new. destruct (_ || _); [|discriminate]. intros E. apply ret_inj in E. subst o'. intros s. split; [reflexivity|]. apply ZH_sha3.
Qed.
Lemma blake3_wipes key sz o : blake3_obj key sz = Ret o -> wipes_h o.
Proof. unfold blake3_obj. destruct (_ && _); [|discriminate]. intros E. apply ret_inj in E. subst o. intros s. split; [reflexivity|]. apply ZH_blake3. Qed.

Lemma a_run_snoc a s l : fst (a_run a s (l ++ [AWipe])) = fst (a_wipe a (fst (a_run a s l))).
Proof.
  revert s. induction l as [|o l IH]; intros s; cbn [app a_run].
  - cbn [a_step fst]. unfold unit_obs. reflexivity.
  - destruct (a_step a s o) as [s1 ob]. specialize (IH s1). destruct (a_run a s1 (l ++ [AWipe])), (a_run a s1 l). exact IH.
Qed.
Lemma poly_wipe_zero P c : poly_class P -> zero_poly P (poly1305_wipe P c).
Proof. intros (w & _ & [->| ->]); [apply ZP_64|apply ZP_32]; try apply all0_zeros; unfold zero_p64, zero_p32, all0; cbn; repeat constructor. Qed.

Lemma transform_zero fresh w o l : lib_tr fresh w o -> zero_transform fresh (after o (l ++ [Wipe])).
Proof. intros L. unfold after. rewrite w_run_snoc. apply (lib_tr_wipes fresh w o L). Qed.
Lemma hash_zero fresh w o l : lib_h fresh w o -> zero_hash (h_after o (l ++ [HWipe])).
Proof. intros L. unfold h_after. rewrite h_run_snoc. apply (lib_h_wipes fresh w o L). Qed.
Lemma blake3_zero key sz o l : blake3_obj key sz = Ret o -> zero_hash (h_after o (l ++ [HWipe])).
Proof. intros L. unfold h_after. rewrite h_run_snoc. apply (blake3_wipes key sz o L). Qed.
Lemma then_zero fresh w tr h l : lib_tr fresh w tr -> lib_h fresh w h -> zero_auth fresh (a_after (new_transform_then_hash fresh tr h) (l ++ [AWipe])).
Proof.
  intros LT LH. unfold a_after. rewrite a_run_snoc. unfold new_transform_then_hash. cbn [ao_class ao_st]. set (s := fst (a_run _ _ l)). clearbody s. cbn [a_wipe transform_then_hash].
  unfold th_on_tr, th_on_h, lift, bind. cbn [th_tr th_h th_bo].
  destruct (lib_tr_wipes fresh w tr LT (th_tr s)) as (E1 & Z1). destruct (t_wipe (o_tr tr) (th_tr s)) as [s1 r1]. cbn [fst snd] in *. subst r1. cbn [th_tr th_h th_bo].
  destruct (lib_h_wipes fresh w h LH (th_h s)) as (E2 & Z2). destruct (h_wipe (ho_class h) (th_h s)) as [s2 r2]. cbn [fst snd] in *. subst r2. cbn [fst].
  apply ZA_then; [exact Z1|exact Z2|apply all0_bo].
Qed.
Lemma and_zero fresh w tr h l : lib_tr fresh w tr -> lib_h fresh w h -> zero_auth fresh (a_after (new_transform_and_hash tr h) (l ++ [AWipe])).
Proof.
  intros LT LH. unfold a_after. rewrite a_run_snoc. unfold new_transform_and_hash. cbn [ao_class ao_st]. set (s := fst (a_run _ _ l)). clearbody s. cbn [a_wipe transform_and_hash].
  unfold ah_on_tr, ah_on_h, lift, bind. destruct s as [s h0]. cbn [fst snd].
  destruct (lib_tr_wipes fresh w tr LT s) as (E1 & Z1). destruct (t_wipe (o_tr tr) s) as [s1 r1]. cbn [fst snd] in *. subst r1.
  destruct (lib_h_wipes fresh w h LH h0) as (E2 & Z2). destruct (h_wipe (ho_class h) h0) as [s2 r2]. cbn [fst snd] in *. subst r2.
  apply ZA_and; [exact Z1|exact Z2].
Qed.
Lemma chapoly_zero fresh P header iv key d o l : poly_class P -> chacha20_poly1305 fresh P header iv key d = Ret o -> zero_auth fresh (a_after o (l ++ [AWipe])).
Proof.
  intros HP. unfold chacha20_poly1305, new_chacha20. destruct (negb _); cbn [obind]; [discriminate|]. destruct (_ || _); cbn [obind so_sc so_st]; [|discriminate]. cbv zeta.
  destruct (snd (poly1305_init_hash _ _ _ _ _)) as [h|e| |]; cbn [obind]; try discriminate. intros E. apply ret_inj in E. subst o. unfold a_after. rewrite a_run_snoc.
  destruct d; cbn [ao_class ao_st]; set (s := fst (a_run _ _ l)); clearbody s; cbn [auth_of a_wipe stream_transform t_wipe fst]; [apply ZA_chapoly_e|apply ZA_chapoly_d];
    try apply all0_zeros; try apply (poly_wipe_zero P _ HP); repeat split; apply all0_map.
Qed.
Lemma gcm_half fresh accel nb header iv key d o l : aes_class fresh nb -> aes_gcm fresh accel nb header iv key d = Ret o -> gcm_half_wiped fresh (a_after o l) (a_after o (l ++ [AWipe])).
Proof.
  intros HN. unfold aes_gcm. destruct (nb key) as [c|e| |] eqn:Ec; cbn [obind]; try discriminate.
  assert (W : wipes_block c) by (destruct HN as [->| ->]; [apply (rijndael_wipes fresh (new_aes fresh) Encrypt key); [left|]|apply (rijndael_wipes fresh (new_aesni fresh) Encrypt key); [right|]]; auto). clear HN Ec nb.
  cbv zeta. destruct (gcm_setup _ _ _ _ _ _) as [[[h e0] g]|e| |]; cbn [obind]; try discriminate. intros E. apply ret_inj in E. subst o. unfold a_after. rewrite a_run_snoc.
  destruct d; cbn [ao_class ao_st]; set (s := fst (a_run _ _ l)); clearbody s; destruct s as [ibuf used b g1];
    [apply GW_enc|apply GW_dec]; try apply all0_zeros; try (apply (W (g_aes g1))); repeat split.
Qed.
