(* add_substring of hashes and MACs with an invalid range. *)
From Verif Require Import Prelude PreludeFacts BytesNum SpecBlock SpecModes SpecPadding SpecMac MiscModel HashModel HashSpec HashFacts MdModel MdHash ShaModel RipemdModel KeccakModel Blake2Model Blake3Model Md5Model
  BlockModel BlockTotal BlockCipher CipherModel CipherSpec CipherApi MacModel Mac MacApi SipModel HashLib.

Section Bad.
Variables (fresh : Z -> bytes) (C : block_cipher) (E : bytes -> bytes) (gd : bc_st C -> Prop).
Hypothesis fresh_len : forall n, 0 <= n -> zlen (fresh n) = n.
Let bs := bc_blocksize C.
Hypothesis bs_range : 0 < bs < 2 ^ 50.
Hypothesis HC : bc_implements C (ecb_fn E) (fun s _ => gd s).
Hypothesis E_ok : forall b, zlen b = bs -> bytes_ok b -> zlen (E b) = bs /\ bytes_ok (E b).

Lemma m_add_bad iv0 fuel : forall s blks tail src ofs len, macR0 C E gd iv0 s blks tail -> bytes_ok src -> zlen src <= max_string_length ->
  in_range src ofs len = false -> 0 < len -> is_int ofs -> is_int len ->
  Z.max 0 (zlen src - ofs) + (if mc_used s =? bs then 1 else 0) < Z.of_nat fuel \/ (ofs < 0 /\ (0 < fuel)%nat) ->
  exists s', m_add C fuel s src ofs len = (s', Raise Invalid_argument).
Proof.
  induction fuel as [|fuel IH]; intros s blks tail src ofs len HR Hs Hsz Hr Hl Io Il Hf; [destruct (mc_used s =? bs); lia|].
  pose proof HR as (H1 & H2 & H3 & H4 & H5 & H6 & H7 & H8 & H9 & H10). pose proof (zlen_nonneg tail) as Ht. pose proof (zlen_nonneg src) as Hsrc.
  assert (Hbad : in_range src ofs len = true -> False) by (rewrite Hr; discriminate). rewrite in_range_true in Hbad.
  cbn [m_add]. fold bs. destruct (len <=? 0) eqn:E0; [lia|]. unfold is_int, max_string_length in *.
  destruct (wrap63 (mc_used s + len) <=? bs) eqn:E1.
  - unfold blit. rewrite Hr. cbn [andb m_to_buf bind]. eexists. reflexivity.
  - assert (Hnw : mc_used s + len < 2 ^ 62).
    { destruct (Z_lt_ge_dec (mc_used s + len) (2 ^ 62)) as [|Hge]; [assumption|exfalso].
      assert (Ew : wrap63 (mc_used s + len) = mc_used s + len - 2 ^ 63).
      { unfold wrap63. rewrite <- (Z.mod_unique (mc_used s + len + 2 ^ 62) (2 ^ 63) 1 (mc_used s + len - 2 ^ 62)); lia. }
      rewrite Ew in E1. lia. }
    rewrite wrap63_id in E1 by (unfold is_int; lia). set (n := bs - mc_used s). assert (Hn : 0 <= n < len) by lia.
    destruct (in_range src ofs n) eqn:En.
    2:{ unfold blit. rewrite En. cbn [andb m_to_buf bind]. eexists. reflexivity. }
    pose proof (proj1 (in_range_true _ _ _) En) as En'.
    assert (Hb1 : bytes_ok (sub src ofs n)) by (apply bytes_ok_sub; assumption).
    destruct (m_fill_ok fresh C E gd fresh_len E_ok iv0 s blks tail src ofs n HR En Hb1 ltac:(fold bs; unfold n; lia)) as (s' & -> & Hu & HR'). cbn [bind].
    assert (Hfull : mc_buf s' = tail ++ sub src ofs n).
    { apply (m_buf_full fresh C E gd fresh_len bs_range E_ok iv0 _ _ _ HR'). cbn [m_set_used mc_used]. fold bs. unfold n. lia. }
    pose proof HR' as (_ & _ & _ & Hbt & Hlb & _ & Hi1 & Hi2 & Hi3 & Hi4). cbn [m_set_used mc_iv mc_buf mc_used mc_c] in *.
    destruct (m_block_ok fresh C E gd fresh_len bs_range HC E_ok iv0 s' blks (tail ++ sub src ofs n)) as (s2 & -> & HR2 & Hu2).
    { rewrite Hu. assert (Et : sub (mc_buf s') 0 (mc_used s) = tail). { rewrite Hfull. rewrite sub_app_l by lia. apply sub_0_all. lia. }
      rewrite Et. unfold macR0. rewrite Hu. repeat split; auto. }
    { exact Hfull. } { exact Hbt. }
    cbn [bind]. rewrite !wrap63_id by (unfold is_int; lia).
    apply (IH _ _ _ _ _ _ HR2); unfold is_int, max_string_length; try assumption; try lia.
    + destruct (in_range src (ofs + n) (len - n)) eqn:Ex; [|reflexivity]. apply in_range_true in Ex. lia.
    + left. cbn [m_set_used mc_used]. destruct (0 =? bs) eqn:Ez; [lia|]. destruct (mc_used s =? bs) eqn:Eu; unfold n in *; lia.
Qed.
Lemma mac_sub_bad iv0 s m src ofs len : macR C E gd iv0 s m -> bytes_ok src -> zlen src <= max_string_length ->
  in_range src ofs len = false -> 0 < len -> is_int ofs -> is_int len ->
  exists s', mac_add_substring C s src ofs len = (s', Raise Invalid_argument).
Proof.
  intros (blks & tail & HR & _ & _) Hs Hsz Hr Hl Io Il. unfold mac_add_substring. apply (m_add_bad iv0 _ _ _ _ _ _ _ HR); try assumption.
  unfold zlen in *. destruct (Z_lt_ge_dec ofs 0); [right; lia|left]. destruct (mc_used s =? bs); lia.
Qed.
End Bad.
Lemma mac_sub_empty C s src ofs len : len <= 0 -> mac_add_substring C s src ofs len = (s, Ret tt).
Proof. intros H. unfold mac_add_substring. cbn [m_add]. destruct (len <=? 0) eqn:E; [reflexivity|lia]. Qed.

Lemma block_mac_ranges fresh nb key bs E D iv p : (forall n, 0 <= n -> zlen (fresh n) = n) -> block_family nb key bs E D -> mac_iv_ok bs iv ->
  (forall q, p = Some q -> pad_supports q bs) ->
  exists o, block_mac fresh (nb Encrypt) iv (option_map scheme_of p) key = Ret o /\
  forall ops src ofs len, Forall hop_valid ops -> bytes_ok src -> zlen src <= max_string_length -> is_int ofs -> is_int len -> 0 < len ->
    ofs < 0 \/ ofs + len > zlen src ->
    snd (h_add_substring (ho_class o) (fst (h_run (ho_class o) (ho_st o) ops)) src ofs len) = Raise Invalid_argument.
Proof.
  intros Hf F Hiv Hp. destruct (family_object _ _ _ _ _ Encrypt F) as (c & Hc & HO). unfold block_mac. rewrite Hc. cbn [obind].
  pose proof (object_E_ok _ _ _ HO) as HE. destruct HO as (Hbs & Hb & gd & HC & Hg). subst bs.
  destruct (mac_iv (bc_blocksize (b_bc c)) iv ltac:(lia) Hiv) as (E1 & E2 & E3). unfold mac_new, mac_init. rewrite E1. cbn [obind].
  eexists. split; [reflexivity|]. intros ops src ofs len Hv Hs Hsz Io Il Hl Hr. cbn [ho_class ho_st].
  destruct (h_run_ok _ _ _ _ (mac_himpl fresh (b_bc c) E gd Hf Hbs HC HE p (iv_val _ iv)) ops _ [] (mac_init_R fresh (b_bc c) E gd Hf Hbs HE (iv_val _ iv) (b_st c) E2 E3 Hg) Hv Logic.I) as (s' & -> & HR).
  cbn [fst mac mac_with h_add_substring].
  destruct (mac_sub_bad fresh (b_bc c) E gd Hf Hbs HC HE _ s' _ src ofs len HR Hs Hsz) as (s2 & ->); try assumption; [|reflexivity].
  destruct (in_range src ofs len) eqn:Ex; [apply in_range_true in Ex; lia|reflexivity].
Qed.

(* the classes of module Hash, HMAC over them, BLAKE2, BLAKE3 and SipHash as MACs *)
Inductive checked_hash (fresh : Z -> bytes) : hobj -> Prop :=
  | R_sha1 : checked_hash fresh (sha1_obj fresh)
  | R_sha2 sz o : sha2_obj fresh sz = Ret o -> checked_hash fresh o
  | R_ripemd160 : checked_hash fresh (ripemd160_obj fresh)
  | R_md5 rt : checked_hash fresh (md5_obj rt)
  | R_sha3 sz o : sha3_obj fresh sz = Ret o -> checked_hash fresh o
  | R_keccak sz o : keccak_obj fresh sz = Ret o -> checked_hash fresh o
  | R_blake2b sz key o : blake2b_obj fresh sz key = Ret o -> checked_hash fresh o
  | R_blake2s sz key o : blake2s_obj fresh sz key = Ret o -> checked_hash fresh o
  | R_blake3 sz key o : blake3_obj key sz = Ret o -> checked_hash fresh o
  | R_siphash sz key o : siphash_new fresh sz key = Ret o -> checked_hash fresh o
  | R_hmac o B key h : checked_hash fresh o -> hmac_of o B key = Ret h -> checked_hash fresh h.

Lemma c_hash_checked K size upd fin wipe (s : K) src ofs len : ofs < 0 \/ len < 0 \/ ofs + len > zlen src ->
  h_add_substring (c_hash K size upd fin wipe) s src ofs len = (s, Raise Invalid_argument).
Proof. intros H. cbn [c_hash h_add_substring]. assert ((ofs <? 0) || (len <? 0) || (ofs >? zlen src - len) = true) as -> by lia. reflexivity. Qed.
Lemma checked_ranges fresh o : checked_hash fresh o -> forall s src ofs len, ofs < 0 \/ len < 0 \/ ofs + len > zlen src ->
  h_add_substring (ho_class o) s src ofs len = (s, Raise Invalid_argument).
Proof.
  intros Ho. induction Ho as [|sz o H| |rt|sz o H|sz o H|sz key o H|sz key o H|sz key o H|sz key o H|o B key h Ho IH H]; intros s src ofs len Hr.
  - apply c_hash_checked; assumption.
  - unfold sha2_obj in H. repeat match type of H with (if ?b then _ else _) = _ => destruct b end; try discriminate; injection H as <-; apply c_hash_checked; assumption.
  - apply c_hash_checked; assumption.
  - apply c_hash_checked; assumption.
  - unfold sha3_obj, sha3_new in H. destruct (_ || _) in H; [|discriminate]. injection H as <-. apply c_hash_checked; assumption.
  - unfold keccak_obj, sha3_new in H. destruct (_ || _) in H; [|discriminate]. injection H as <-. apply c_hash_checked; assumption.
  - unfold blake2b_obj, blake2_new in H. destruct (_ && _) in H; [|discriminate]. destruct (b2_init _ _ _ _ _) in H; try discriminate. cbn [obind] in H. injection H as <-. apply c_hash_checked; assumption.
  - unfold blake2s_obj, blake2_new in H. destruct (_ && _) in H; [|discriminate]. destruct (b2_init _ _ _ _ _) in H; try discriminate. cbn [obind] in H. injection H as <-. apply c_hash_checked; assumption.
  - unfold blake3_obj in H. destruct (_ && _) in H; [|discriminate]. injection H as <-. apply c_hash_checked; assumption.
  - unfold siphash_new in H. destruct (_ && _) in H; [|discriminate]. injection H as <-. apply c_hash_checked; assumption.
  - unfold hmac_of, hmac_new in H. destruct (hmac_pad _ _ _ _ _) in H; try discriminate. cbn [obind] in H. destruct (snd _) in H; try discriminate. cbn [obind] in H. injection H as <-.
    exact (IH s src ofs len Hr).
Qed.

From Verif Require Import Toy.
Lemma block_mac_shape fresh nk iv p key o : block_mac fresh nk iv p key = Ret o -> forall s src ofs len, len <= 0 ->
  h_add_substring (ho_class o) s src ofs len = (s, Ret tt).
Proof.
  unfold block_mac, mac_new, mac_init. destruct (nk key) as [c| | |]; try discriminate. cbn [obind]. destruct (make_initial_iv _ _); try discriminate. cbn [obind].
  intros H. injection H as <-. intros s src ofs len Hl. exact (mac_sub_empty _ s src ofs len Hl).
Qed.
Lemma mac_negative : exists key o src ofs len, block_mac toy_fresh (toy_block Encrypt) None None key = Ret o /\ len < 0 /\ ofs > zlen src /\
  h_add_substring (ho_class o) (ho_st o) src ofs len = (ho_st o, Ret tt).
Proof.
  exists [17; 34; 51; 68]. destruct (block_mac toy_fresh (toy_block Encrypt) None None [17; 34; 51; 68]) as [o| | |] eqn:E; [|discriminate E ..].
  exists o, [1; 2], 7, (-3). split; [reflexivity|]. split; [lia|]. split; [vm_compute; reflexivity|]. apply (block_mac_shape _ _ _ _ _ _ E). lia.
Qed.
Lemma mac_changed_case : match block_mac toy_fresh (toy_block Encrypt) None None [17; 34; 51; 68] with
  | Ret o => snd (h_add_substring (ho_class o) (ho_st o) [5; 6; 7; 8; 9] 0 9) = Raise Invalid_argument /\
      snd (hash_string (ho_class o) (fst (h_add_substring (ho_class o) (ho_st o) [5; 6; 7; 8; 9] 0 9)) [1; 2; 3; 4]) <> snd (hash_string (ho_class o) (ho_st o) [1; 2; 3; 4])
  | _ => False end.
Proof. vm_compute. split; [reflexivity|discriminate]. Qed.
Lemma mac_state_changed : exists key o src ofs len, block_mac toy_fresh (toy_block Encrypt) None None key = Ret o /\ 0 <= ofs /\ 0 < len /\ ofs + len > zlen src /\
  exists s, h_add_substring (ho_class o) (ho_st o) src ofs len = (s, Raise Invalid_argument) /\
  snd (hash_string (ho_class o) s [1; 2; 3; 4]) <> snd (hash_string (ho_class o) (ho_st o) [1; 2; 3; 4]).
Proof.
  pose proof mac_changed_case as H. exists [17; 34; 51; 68]. destruct (block_mac toy_fresh (toy_block Encrypt) None None [17; 34; 51; 68]) as [o| | |]; try contradiction.
  exists o, [5; 6; 7; 8; 9], 0, 9. split; [reflexivity|]. split; [lia|]. split; [lia|]. split; [vm_compute; reflexivity|].
  destruct (h_add_substring (ho_class o) (ho_st o) [5; 6; 7; 8; 9] 0 9) as [s r]. cbn [fst snd] in H. destruct H as (-> & H). exists s. split; [reflexivity|exact H].
Qed.
