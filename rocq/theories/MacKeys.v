(* Key and IV sizes of the constructors of module MAC. *)
From Verif Require Import Prelude SpecBlake3 PreludeFacts BytesNum SpecBlock SpecPadding SpecAes SpecDes SpecMac HashModel HashSpec HashFacts BlockModel CipherModel CipherSpec CipherApi
  AesModel Aes AesniModel Aesni DesModel DesApi MacModel Mac MacApi Hmac SipModel Sip Blake2Model Blake2 Blake3Model Blake3Hash HashLib AesApi MacCons.

Lemma block_mac_key fresh nb iv p key : nb key = Raise (Error Wrong_key_size) -> block_mac fresh nb iv p key = Raise (Error Wrong_key_size).
Proof. intros E. unfold block_mac. rewrite E. reflexivity. Qed.
Lemma cmac_key fresh nb iv key : nb key = Raise (Error Wrong_key_size) -> aes_cmac fresh nb iv key = Raise (Error Wrong_key_size).
Proof. intros E. unfold aes_cmac. rewrite E. reflexivity. Qed.
Lemma triple_bad_iv fresh c1 c2 c3 bs iv p : bc_blocksize (b_bc c1) = bs -> bc_blocksize (b_bc c2) = bs -> bc_blocksize (b_bc c3) = bs ->
  (exists v, iv = Some v /\ zlen v <> bs) -> mac_final_triple_new fresh iv p c1 c2 c3 = Raise (Error Wrong_IV_size).
Proof. intros H1 H2 H3 Hv. unfold mac_final_triple_new, mac_init. rewrite H1, H2, H3, Z.eqb_refl. cbn [negb orb]. rewrite mac_iv_bad by assumption. reflexivity. Qed.
Lemma des_final_bad_iv fresh iv p key : bytes_ok key -> zlen key = 16 \/ zlen key = 24 -> (exists v, iv = Some v /\ zlen v <> 8) ->
  des_final_triple_des fresh new_des iv p key = Raise (Error Wrong_IV_size).
Proof.
  intros Hb Hl Hv. unfold des_final_triple_des. assert (negb (zlen key =? 16) && negb (zlen key =? 24) = false) as -> by lia.
  unfold bytes_sub. assert (forall o, 0 <= o -> o + 8 <= zlen key -> in_range key o 8 = true) as R by (intros; apply in_range_true; lia).
  rewrite (R 0), (R 8) by lia. cbn [obind].
  assert (exists k3, (if zlen key =? 24 then if in_range key 16 8 then Ret (sub key 16 8) else Raise Invalid_argument else Ret (sub key 0 8)) = Ret k3 /\ zlen k3 = 8 /\ bytes_ok k3) as (k3 & -> & L3 & B3).
  { destruct (Z.eqb_spec (zlen key) 24) as [El|El].
    - rewrite (R 16) by lia. eexists. split; [reflexivity|]. split; [apply zlen_sub; lia|apply bytes_ok_sub; assumption].
    - eexists. split; [reflexivity|]. split; [apply zlen_sub; lia|apply bytes_ok_sub; assumption]. }
  cbn [obind].
  destruct (family_object _ _ _ _ _ Encrypt (des_family (sub key 0 8) ltac:(apply zlen_sub; lia) ltac:(apply bytes_ok_sub; assumption))) as (c1 & -> & _ & O1 & _). cbn [obind].
  destruct (family_object _ _ _ _ _ Decrypt (des_family (sub key 8 8) ltac:(apply zlen_sub; lia) ltac:(apply bytes_ok_sub; assumption))) as (c2 & -> & _ & O2 & _). cbn [obind].
  destruct (family_object _ _ _ _ _ Encrypt (des_family k3 L3 B3)) as (c3 & -> & _ & O3 & _). cbn [obind].
  apply (triple_bad_iv fresh c1 c2 c3 8); assumption.
Qed.
Lemma subkey_len fresh b src : (forall n, 0 <= n -> zlen (fresh n) = n) -> b = zeros 15 ++ [135] -> bytes_ok src -> zlen src = 16 ->
  exists k, subkey fresh b src = Ret k /\ bytes_ok k /\ zlen k = 16.
Proof. intros Hf Hb H1 H2. rewrite subkey_ok by assumption. eexists. split; [reflexivity|]. split; [apply bytes_ok_to_be|apply zlen_to_be]. Qed.
Lemma cmac_bad_iv fresh nb key E D iv : (forall n, 0 <= n -> zlen (fresh n) = n) -> block_family nb key 16 E D -> (exists v, iv = Some v /\ zlen v <> 16) ->
  aes_cmac fresh (nb Encrypt) iv key = Raise (Error Wrong_IV_size).
Proof.
  intros Hf F Hv. destruct (family_object _ _ _ _ _ Encrypt F) as (c & Hc & HO). destruct HO as (Hbs & Hb & gd & HC & Hg). unfold aes_cmac. rewrite Hc. cbn [obind].
  destruct (object_step _ _ _ (b_st c) (zeros 16) (fresh 16) HC Hg) as (s' & -> & Hg' & L1 & L2);
    [lia|rewrite Hb; reflexivity|apply bytes_ok_zeros|rewrite Hb; apply Hf; lia|]. cbn [fst snd obind]. rewrite Hb in L1.
  change (bytes_set (zeros 16) 15 135) with (Ret (zeros 15 ++ [135])). cbn [obind].
  destruct (subkey_len fresh _ _ Hf eq_refl L2 L1) as (k1 & -> & B1 & N1). cbn [obind].
  destruct (subkey_len fresh _ _ Hf eq_refl B1 N1) as (k2 & -> & B2 & N2). cbn [obind].
  unfold cmac_new, mac_init. cbn [b_bc b_st]. rewrite Hb, mac_iv_bad by assumption. reflexivity.
Qed.
Lemma iv_cases bs iv : (forall v, iv = Some v -> bytes_ok v) -> mac_iv_ok bs iv \/ (exists v, iv = Some v /\ zlen v <> bs).
Proof. intros Hb. destruct iv as [v|]; [|left; exact Logic.I]. destruct (Z.eq_dec (zlen v) bs); [left; split; [assumption|apply Hb; reflexivity]|right; exists v; auto]. Qed.

Lemma mac_new_any fresh nb key bs E D iv p : 0 <= bs -> block_family nb key bs E D -> mac_iv_ok bs iv -> exists o, block_mac fresh (nb Encrypt) iv p key = Ret o.
Proof.
  intros H0 F Hv. destruct (family_object _ _ _ _ _ Encrypt F) as (c & Hc & _ & Hb & _). unfold block_mac, mac_new, mac_init. rewrite Hc. cbn [obind]. rewrite Hb.
  destruct (mac_iv bs iv H0 Hv) as (-> & _). cbn [obind]. eauto.
Qed.
Lemma final_any fresh iv p q key : (exists o, des_final_triple_des fresh new_des iv p key = Ret o) -> exists o, des_final_triple_des fresh new_des iv q key = Ret o.
Proof.
  unfold des_final_triple_des. intros (o & H).
  destruct (negb (zlen key =? 16) && negb (zlen key =? 24)); [discriminate H|].
  destruct (bytes_sub key 0 8) as [k1| | |]; cbn [obind] in *; try discriminate H.
  destruct (bytes_sub key 8 8) as [k2| | |]; cbn [obind] in *; try discriminate H.
  match goal with |- context [obind ?e _] => destruct e as [k3| | |] end; cbn [obind] in *; try discriminate H.
  destruct (new_des Encrypt k1) as [c1| | |]; cbn [obind] in *; try discriminate H.
  destruct (new_des Decrypt k2) as [c2| | |]; cbn [obind] in *; try discriminate H.
  destruct (new_des Encrypt k3) as [c3| | |]; cbn [obind] in *; try discriminate H.
  unfold mac_final_triple_new in *. destruct (_ || _); [discriminate H|]. destruct (mac_init _ _ _ _); cbn [obind] in *; try discriminate H. eauto.
Qed.

Lemma aes_any fresh (ni : bool) key : (forall n, 0 <= n -> zlen (fresh n) = n) -> aes_key_size key -> bytes_ok key ->
  block_family (if ni then new_aesni fresh else new_aes fresh) key 16 (aes_E key) (aes_D key).
Proof. intros; destruct ni; [apply aesni_family|apply aes_family]; assumption. Qed.
Lemma aes_any_bad fresh (ni : bool) key : (forall n, 0 <= n -> zlen (fresh n) = n) -> ~ aes_key_size key -> bytes_ok key ->
  (if ni then new_aesni fresh else new_aes fresh) Encrypt key = Raise (Error Wrong_key_size).
Proof. intros Hf Hk Hb. destruct (aes_key_sizes fresh Encrypt key Hf Hb) as (_ & H). destruct (H Hk). destruct ni; assumption. Qed.
Lemma not_iv (bs : Z) iv : ~ match iv with Some v => zlen v = bs | None => True end -> exists v : bytes, iv = Some v /\ zlen v <> bs.
Proof. destruct iv as [v|]; intros H; [exists v; auto|destruct H; exact Logic.I]. Qed.
Lemma yes_iv (bs : Z) (iv : option bytes) : (forall v, iv = Some v -> bytes_ok v) -> match iv with Some v => zlen v = bs | None => True end -> mac_iv_ok bs iv.
Proof. destruct iv as [v|]; intros H1 H2; [split; auto|exact Logic.I]. Qed.

Lemma mac_sizes fresh c key : (forall n, 0 <= n -> zlen (fresh n) = n) -> bytes_ok key -> zlen key <= max_string_length -> mac_args_ok fresh c ->
  (forall sz, c = MBlake3 sz -> key <> []) ->
  (mac_key_allowed c key -> mac_iv_allowed c -> exists o, mac_make fresh c key = Ret o) /\
  (~ mac_key_allowed c key -> mac_make fresh c key = Raise (Error Wrong_key_size)) /\
  (mac_key_allowed c key -> ~ mac_iv_allowed c -> mac_make fresh c key = Raise (Error Wrong_IV_size)).
Proof.
  intros Hf Hb Hm Ha Hne. destruct c as [ni iv p|iv p|iv p|iv p|ni iv|sz|sz|sz|sz|h B]; cbn [mac_make mac_key_allowed mac_iv_allowed mac_args_ok] in *.
  - split; [|split]; intros Hk.
    + intros Hv. eapply (mac_new_any fresh _ key 16); [lia|apply (aes_any fresh ni); assumption|apply yes_iv; assumption].
    + apply block_mac_key, aes_any_bad; assumption.
    + intros Hv. eapply block_mac_bad_iv; [apply (aes_any fresh ni); assumption|apply not_iv; assumption].
  - split; [|split]; intros Hk.
    + intros Hv. eapply (mac_new_any fresh _ key 8); [lia|apply des_family; assumption|apply yes_iv; assumption].
    + apply block_mac_key. apply (des_key_sizes Encrypt key Hb); assumption.
    + intros Hv. eapply block_mac_bad_iv; [apply des_family; assumption|apply not_iv; assumption].
  - split; [|split]; intros Hk.
    + intros Hv. eapply (mac_new_any fresh _ key 8); [lia|apply triple_family; assumption|apply yes_iv; assumption].
    + apply block_mac_key. apply (des_key_sizes Encrypt key Hb); assumption.
    + intros Hv. eapply block_mac_bad_iv; [apply triple_family; assumption|apply not_iv; assumption].
  - split; [|split]; intros Hk.
    + intros Hv. apply (final_any fresh iv (option_map scheme_of None)). destruct (des_final_ok fresh new_des des_E des_D key iv None Hf des_family Hb Hk (yes_iv 8 iv Ha Hv)) as (o & E & _). eauto.
    + apply des_final_key; intros ?; apply Hk; auto.
    + intros Hv. apply des_final_bad_iv; [assumption|assumption|apply not_iv; assumption].
  - split; [|split]; intros Hk.
    + intros Hv. destruct (aes_cmac_ok fresh _ key _ _ iv Hf (aes_any fresh ni key Hf Hk Hb) (yes_iv 16 iv Ha Hv)) as (o & E & _). eauto.
    + apply cmac_key, aes_any_bad; assumption.
    + intros Hv. eapply cmac_bad_iv; [assumption|apply (aes_any fresh ni); assumption|apply not_iv; assumption].
  - split; [|split]; [intros (H1 & H2) _|intros H|tauto].
    + destruct (siphash_ok fresh sz key Hf H1 Hb H2) as (o & E & _). eauto.
    + apply siphash_other; assumption.
  - split; [|split]; [intros (H1 & H2 & H3) _|intros H|tauto].
    + destruct (blake2b_ok fresh sz key Hf H2 H3 H1 Hb) as (o & E & _). eauto.
    + apply (blake2_new_other 64 12 32 24 16 63 blake2b_iv fresh sz key). tauto.
  - split; [|split]; [intros (H1 & H2 & H3) _|intros H|tauto].
    + destruct (blake2s_ok fresh sz key Hf H2 H3 H1 Hb) as (o & E & _). eauto.
    + apply (blake2_new_other 32 10 16 12 8 7 blake2s_iv fresh sz key). tauto.
  - split; [|split]; [intros (H1 & H2 & H3) _|intros H|tauto].
    + destruct (blake3_ok key sz H2 H3 ltac:(tauto) Hb) as (o & E & _). eauto.
    + apply blake3_other. intros (H1 & H2 & [H3|H3]); [|apply H; auto]. apply zlen_0 in H3. exact (Hne sz eq_refl H3).
  - split; [|split]; [intros _ _|tauto|tauto].
    destruct Ha as (d & Hd). destruct (hmac_ok fresh h d B key Hf Hd Hb Hm) as (o & E & _). eauto.
Qed.

Lemma blake3_empty_key fresh sz : 0 < sz -> sz mod 8 = 0 ->
  ~ mac_key_allowed (MBlake3 sz) [] /\ exists o, mac_make fresh (MBlake3 sz) [] = Ret o /\ computes_on (fun m => zlen m < 2 ^ 64) o (fun m => Ret (blake3_spec [] (sz / 8) m)).
Proof.
  intros H1 H2. split; [cbn; intros (H & _); discriminate H|]. destruct (blake3_ok [] sz H1 H2 (or_introl eq_refl) (Forall_nil _)) as (o & E & _ & C). exists o. split; assumption.
Qed.
