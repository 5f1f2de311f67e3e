(* CBC-MAC and CMAC objects compute their specification. *)
From Verif Require Import Prelude PreludeFacts BytesNum SpecBlock SpecModes SpecPadding SpecMac Padding HashModel HashSpec HashFacts MdHash BlockModel BlockTotal
  BlockCipher CipherModel CipherSpec CipherApi MacModel.

(* ---- specification: CBC-MAC is the last CBC block ---- *)
Lemma cbc_mac_last E iv X Y : cbc_enc_spec E iv X Y -> cbc_mac E iv X = last Y iv.
Proof.
  intros (Hl & H). revert Y Hl H. induction X as [|b X IH] using rev_ind; intros Y Hl H.
  - destruct Y; [reflexivity|discriminate].
  - rewrite app_length in Hl. cbn [length] in Hl.
    destruct Y as [|y Y _] using rev_ind; [cbn in Hl; lia|]. rewrite app_length in Hl. cbn [length] in Hl. rewrite last_last.
    unfold cbc_mac. rewrite fold_left_app. cbn [fold_left]. fold (cbc_mac E iv X).
    assert (HY : length Y = length X) by lia.
    rewrite (IH Y HY).
    2:{ intros j Hj. specialize (H j). rewrite app_length in H. specialize (H ltac:(cbn [length]; lia)). unfold blk in *. rewrite !app_nth1 in H by lia.
        rewrite H. f_equal. f_equal. destruct j; [reflexivity|]. rewrite app_nth1 by lia. reflexivity. }
    specialize (H (length X)). rewrite app_length in H. specialize (H ltac:(cbn [length]; lia)). unfold blk in H.
    rewrite !app_nth2 in H by lia. rewrite HY, Nat.sub_diag in H. cbn [nth] in H. rewrite H. f_equal. f_equal.
    destruct (length X) as [|n] eqn:En.
    + destruct Y; [reflexivity|discriminate].
    + rewrite app_nth1 by lia. destruct Y as [|y' Y' _] using rev_ind; [discriminate|]. rewrite last_last. rewrite app_length in HY. cbn [length] in HY.
      rewrite app_nth2 by lia. replace (n - length Y')%nat with O by lia. reflexivity.
Qed.

Section Mac.
Variables (fresh : Z -> bytes) (C : block_cipher) (E : bytes -> bytes) (gd : bc_st C -> Prop).
Hypothesis fresh_len : forall n, 0 <= n -> zlen (fresh n) = n.
Let bs := bc_blocksize C.
Hypothesis bs_range : 0 < bs < 2 ^ 50.
Hypothesis HC : bc_implements C (ecb_fn E) (fun s _ => gd s).
Hypothesis E_ok : forall b, zlen b = bs -> bytes_ok b -> zlen (E b) = bs /\ bytes_ok (E b).

(* the object was given m and holds back the last tail bytes *)
Definition macR0 (iv0 : bytes) (s : mst C) (blks : list bytes) (tail : bytes) : Prop :=
  Forall (fun b => zlen b = bs) blks /\ zlen tail = mc_used s /\ mc_used s <= bs /\ bytes_ok tail /\
  zlen (mc_buf s) = bs /\ sub (mc_buf s) 0 (mc_used s) = tail /\
  mc_iv s = cbc_mac E iv0 blks /\ zlen (mc_iv s) = bs /\ bytes_ok (mc_iv s) /\ gd (mc_c s).

Lemma cbc_mac_snoc iv0 X b : cbc_mac E iv0 (X ++ [b]) = E (xorb b (cbc_mac E iv0 X)).
Proof. unfold cbc_mac. rewrite fold_left_app. reflexivity. Qed.

Lemma m_transform_ok s : zlen (mc_buf s) = bs -> bytes_ok (mc_buf s) -> zlen (mc_iv s) = bs -> gd (mc_c s) ->
  exists c', m_transform C s = (MSt (E (mc_buf s)) (mc_buf s) (mc_used s) c', Ret tt) /\ gd c'.
Proof.
  intros H1 H2 H3 H4. unfold m_transform. pose proof (HC (mc_c s) tt (mc_buf s) 0 (mc_iv s) 0 H4) as H. fold bs in H.
  rewrite (sub_0_all (mc_buf s) bs) in H by lia. specialize (H ltac:(apply in_range_true; lia) ltac:(apply in_range_true; lia) H2).
  cbn [bf_step ecb_fn fst snd] in H. destruct H as (c' & dst' & Ht & Hg & _ & Hb). destruct (Hb _ eq_refl) as (-> & Hl & _).
  rewrite Ht. cbn [fst snd]. exists c'. split; [|assumption]. rewrite splice_all by (fold bs in Hl; lia). reflexivity.
Qed.
Lemma m_block_ok iv0 s blks b : macR0 iv0 s blks (sub (mc_buf s) 0 (mc_used s)) -> mc_buf s = b -> bytes_ok b ->
  exists s', m_block C s = (s', Ret tt) /\ macR0 iv0 (m_set_used C s' 0) (blks ++ [b]) [] /\ mc_used s' = mc_used s.
Proof.
  intros (H1 & H2 & H3 & H4 & H5 & _ & H7 & H8 & H9 & H10) Eb Hb. unfold m_block, xor_bytes. fold bs.
  assert (in_range (mc_iv s) 0 bs && in_range (mc_buf s) 0 bs = true) as -> by (apply andb_true_iff; rewrite !in_range_true; lia).
  cbn [m_to_buf bind]. rewrite !sub_0_all by lia. rewrite splice_all by (rewrite zlen_xorb; lia).
  set (s1 := MSt _ _ _ _). assert (Hx : zlen (xorb (mc_iv s) (mc_buf s)) = bs) by (rewrite zlen_xorb; lia).
  assert (Hxb : bytes_ok (xorb (mc_iv s) (mc_buf s))) by (apply bytes_ok_xorb; [assumption|congruence]).
  destruct (m_transform_ok s1) as (c' & -> & Hc'); [exact Hx|exact Hxb|exact H8|exact H10|].
  destruct (E_ok _ Hx Hxb) as (L1 & L2). eexists. split; [reflexivity|]. split; [|reflexivity].
  unfold macR0. cbn [m_set_used mc_iv mc_buf mc_used mc_c s1].
  split; [apply Forall_app; split; [assumption|]; constructor; [congruence|constructor]|].
  repeat split; try assumption; try lia; try constructor. rewrite cbc_mac_snoc, <- H7, <- Eb, xorb_comm. reflexivity.
Qed.
Lemma m_buf_full iv0 s blks tail : macR0 iv0 s blks tail -> mc_used s = bs -> mc_buf s = tail.
Proof. intros (_ & _ & _ & _ & H5 & H6 & _) H. rewrite <- H6. rewrite H. symmetry. apply sub_0_all. lia. Qed.

Lemma m_fill_ok iv0 s blks tail src ofs n : macR0 iv0 s blks tail -> in_range src ofs n = true -> bytes_ok (sub src ofs n) -> mc_used s + n <= bs ->
  exists s', m_to_buf C s (blit src ofs (mc_buf s) (mc_used s) n) = (s', Ret tt) /\ mc_used s' = mc_used s /\
    macR0 iv0 (m_set_used C s' (mc_used s' + n)) blks (tail ++ sub src ofs n).
Proof.
  intros (H1 & H2 & H3 & H4 & H5 & H6 & H7 & H8 & H9 & H10) Hr Hb Hn. pose proof (zlen_nonneg tail) as Ht. pose proof (proj1 (in_range_true _ _ _) Hr) as Hr'.
  assert (Hs : zlen (sub src ofs n) = n) by (apply zlen_sub; lia).
  unfold blit. rewrite Hr. assert (in_range (mc_buf s) (mc_used s) n = true) as -> by (apply in_range_true; lia). cbn [andb m_to_buf].
  eexists. split; [reflexivity|]. split; [reflexivity|]. unfold macR0. cbn [m_set_used mc_iv mc_buf mc_used mc_c].
  split; [assumption|]. split; [rewrite zlen_app; lia|]. split; [lia|]. split; [apply bytes_ok_app; auto|].
  split; [rewrite zlen_splice; lia|]. split; [|auto].
  rewrite (sub_app_split _ 0 (mc_used s) n) by (rewrite ?zlen_splice; lia). cbn [Z.add].
  rewrite sub_splice_before by lia. rewrite H6. f_equal. rewrite sub_splice_same by lia. reflexivity.
Qed.

Lemma m_add_ok iv0 fuel : forall s blks tail src ofs len, macR0 iv0 s blks tail -> in_range src ofs len = true ->
  zlen src <= max_string_length -> bytes_ok (sub src ofs len) -> len + (if mc_used s =? bs then 1 else 0) < Z.of_nat fuel ->
  exists s' blks' tail', m_add C fuel s src ofs len = (s', Ret tt) /\ macR0 iv0 s' blks' tail' /\
    concat blks ++ tail ++ sub src ofs len = concat blks' ++ tail' /\ (0 < len -> 0 < zlen tail') /\ (len = 0 -> blks' = blks /\ tail' = tail).
Proof.
  induction fuel as [|fuel IH]; intros s blks tail src ofs len HR Hr Hsz Hb Hf.
  { pose proof (proj1 (in_range_true _ _ _) Hr). destruct (mc_used s =? bs); lia. }
  pose proof (proj1 (in_range_true _ _ _) Hr) as Hr'. pose proof HR as (H1 & H2 & H3 & H4 & H5 & H6 & H7 & H8 & H9 & H10).
  pose proof (zlen_nonneg tail) as Ht. cbn [m_add]. fold bs. destruct (len <=? 0) eqn:E0.
  - assert (len = 0) as -> by lia. exists s, blks, tail. rewrite sub_0_len, app_nil_r. repeat split; auto; lia.
  - unfold max_string_length in Hsz. rewrite wrap63_id by (unfold is_int; lia). destruct (mc_used s + len <=? bs) eqn:E1.
    + destruct (m_fill_ok iv0 s blks tail src ofs len HR Hr Hb ltac:(lia)) as (s' & -> & Hu & HR'). cbn [bind].
      exists (m_set_used C s' (mc_used s' + len)), blks, (tail ++ sub src ofs len). split; [reflexivity|]. split; [assumption|]. split; [reflexivity|].
      split; [rewrite zlen_app, zlen_sub by lia; lia|lia].
    + set (n := bs - mc_used s). assert (Hn : 0 <= n <= len) by lia.
      assert (Hrn : in_range src ofs n = true) by (apply in_range_true; lia).
      assert (Esp : sub src ofs len = sub src ofs n ++ sub src (ofs + n) (len - n)).
      { replace len with (n + (len - n)) at 1 by lia. apply sub_app_split; lia. }
      rewrite Esp in Hb. apply bytes_ok_app in Hb as (Hb1 & Hb2).
      destruct (m_fill_ok iv0 s blks tail src ofs n HR Hrn Hb1 ltac:(unfold n; lia)) as (s' & -> & Hu & HR'). cbn [bind].
      assert (Hfull : mc_buf s' = tail ++ sub src ofs n).
      { apply (m_buf_full iv0 _ _ _ HR'). cbn [m_set_used mc_used]. unfold n. lia. }
      pose proof HR' as (_ & _ & _ & Hbt & Hlb & _ & Hi1 & Hi2 & Hi3 & Hi4). cbn [m_set_used mc_iv mc_buf mc_used mc_c] in *.
      destruct (m_block_ok iv0 s' blks (tail ++ sub src ofs n)) as (s2 & -> & HR2 & Hu2).
      { rewrite Hu. assert (Et : sub (mc_buf s') 0 (mc_used s) = tail). { rewrite Hfull. rewrite sub_app_l by lia. apply sub_0_all. lia. }
        rewrite Et. unfold macR0. rewrite Hu. repeat split; auto. }
      { exact Hfull. } { exact Hbt. }
      cbn [bind]. rewrite !wrap63_id by (unfold is_int; lia).
      destruct (IH (m_set_used C s2 0) (blks ++ [tail ++ sub src ofs n]) [] src (ofs + n) (len - n) HR2) as (s3 & blks3 & tail3 & -> & HR3 & E3 & Hp & _).
      { apply in_range_true. lia. } { unfold max_string_length. lia. } { assumption. }
      { cbn [m_set_used mc_used]. destruct (0 =? bs) eqn:Ez; [lia|]. destruct (mc_used s =? bs) eqn:Eu; unfold n in *; lia. }
      exists s3, blks3, tail3. split; [reflexivity|]. split; [assumption|]. split; [|split; [|lia]].
      * rewrite <- E3, Esp, concat_app. cbn [concat app]. rewrite app_nil_r, <- !app_assoc. reflexivity.
      * intros _. apply Hp. unfold n. lia.
Qed.

Definition macR (iv0 : bytes) (s : mst C) (m : bytes) : Prop :=
  exists blks tail, macR0 iv0 s blks tail /\ m = concat blks ++ tail /\ (tail = [] -> blks = []).

Lemma mac_sub_ok iv0 s m src ofs len : macR iv0 s m -> in_range src ofs len = true -> zlen src <= max_string_length -> bytes_ok (sub src ofs len) ->
  exists s', mac_add_substring C s src ofs len = (s', Ret tt) /\ macR iv0 s' (m ++ sub src ofs len).
Proof.
  intros (blks & tail & HR & Em & Hz) Hr Hsz Hb. pose proof (proj1 (in_range_true _ _ _) Hr) as Hr'.
  destruct (m_add_ok iv0 (S (S (S (length src)))) s blks tail src ofs len HR Hr Hsz Hb) as (s' & blks' & tail' & Ea & HR' & Ec & Hp & Hz').
  { destruct (mc_used s =? bs); unfold zlen in *; lia. }
  exists s'. split; [exact Ea|]. exists blks', tail'. split; [assumption|]. split; [rewrite Em, <- app_assoc; exact Ec|].
  intros ->. destruct (Z.eq_dec len 0) as [->|]; [|change (zlen (@nil Z)) with 0 in Hp; lia]. destruct (Hz' eq_refl) as (-> & E0). apply Hz. symmetry. exact E0.
Qed.
Lemma mac_char_ok iv0 s m c : macR iv0 s m -> byte_ok c -> exists s', mac_add_char C s c = (s', Ret tt) /\ macR iv0 s' (m ++ [c]).
Proof.
  intros (blks & tail & HR & Em & Hz) Hc. pose proof HR as (H1 & H2 & H3 & H4 & H5 & H6 & H7 & H8 & H9 & H10). pose proof (zlen_nonneg tail) as Ht.
  unfold mac_add_char. fold bs. destruct (mc_used s <? bs) eqn:Eu.
  - assert (Eq : bytes_set (mc_buf s) (mc_used s) c = blit [c] 0 (mc_buf s) (mc_used s) 1).
    { unfold bytes_set, blit. assert (in_range [c] 0 1 && in_range (mc_buf s) (mc_used s) 1 = true) as -> by (apply andb_true_iff; rewrite !in_range_true; cbn; lia).
      assert ((0 <=? mc_used s) && (mc_used s <? zlen (mc_buf s)) = true) as -> by lia. reflexivity. }
    rewrite Eq. destruct (m_fill_ok iv0 s blks tail [c] 0 1 HR eq_refl) as (s' & -> & Hu & HR'); [repeat constructor; apply Hc|lia|]. cbn [bind].
    exists (m_set_used C s' (mc_used s' + 1)). split; [reflexivity|]. exists blks, (tail ++ [c]). split; [exact HR'|]. split; [rewrite Em, app_assoc; reflexivity|].
    intros E0. apply app_eq_nil in E0 as (_ & E0). discriminate.
  - assert (Ef : mc_buf s = tail) by (apply (m_buf_full iv0 _ _ _ HR); lia).
    destruct (m_block_ok iv0 s blks tail) as (s1 & -> & HR1 & _); [rewrite H6; assumption|assumption|assumption|]. cbn [bind].
    assert (HR1' := HR1). destruct HR1' as (_ & _ & _ & _ & L5 & _). cbn [m_set_used mc_buf] in L5.
    assert (Eq : bytes_set (mc_buf s1) 0 c = blit [c] 0 (mc_buf s1) 0 1).
    { unfold bytes_set, blit. assert (in_range [c] 0 1 && in_range (mc_buf s1) 0 1 = true) as -> by (apply andb_true_iff; rewrite !in_range_true; cbn; lia).
      assert ((0 <=? 0) && (0 <? zlen (mc_buf s1)) = true) as -> by lia. reflexivity. }
    destruct (m_fill_ok iv0 (m_set_used C s1 0) (blks ++ [tail]) [] [c] 0 1 HR1 eq_refl) as (s2 & E2 & Hu & HR2); [repeat constructor; apply Hc|cbn [m_set_used mc_used]; lia|].
    cbn [m_set_used mc_used mc_buf] in E2. rewrite Eq. unfold m_to_buf in *. destruct (blit [c] 0 (mc_buf s1) 0 1) as [x| | |]; try discriminate. cbn [bind].
    injection E2 as <-. cbn [m_set_used mc_iv mc_buf mc_used mc_c] in HR2. eexists. split; [reflexivity|]. exists (blks ++ [tail]), [c].
    split; [exact HR2|]. split; [|discriminate]. rewrite Em, concat_app. cbn [concat]. rewrite app_nil_r. reflexivity.
Qed.

Lemma mac_step_ok iv0 res wp s m o : macR iv0 s m -> hop_valid o ->
  exists s', h_step (mac_with C res wp) s o = (s', Ret tt) /\ macR iv0 s' (m ++ hop_bytes o).
Proof.
  intros HR Hv. destruct o as [src ofs len|str|c|n]; cbn [h_step mac_with h_add_substring h_add_string h_add_char h_add_byte hop_bytes hop_valid] in *.
  - destruct Hv as (Hb & Hl & Hr). apply mac_sub_ok; assumption.
  - destruct Hv as (Hb & Hl). pose proof (zlen_nonneg str). destruct (mac_sub_ok iv0 s m str 0 (zlen str) HR) as (s' & E1 & E2);
      [apply in_range_true; lia|assumption|rewrite sub_0_all by reflexivity; assumption|]. rewrite sub_0_all in E2 by reflexivity. eauto.
  - apply mac_char_ok; assumption.
  - apply mac_char_ok; [assumption|]. unfold byte_ok. apply Z.mod_pos_bound. lia.
Qed.

Lemma mac_blocks blks tail : Forall (fun b => zlen b = bs) blks -> zlen tail = bs -> chunks bs (concat blks ++ tail) = blks ++ [tail].
Proof. intros H1 H2. rewrite chunks_concat by (assumption || lia). rewrite chunks_short by lia. reflexivity. Qed.
Lemma zlen_blocks (blks : list bytes) : Forall (fun b => zlen b = bs) blks -> zlen (concat blks) = bs * zlen blks.
Proof.
  induction 1 as [|b l Hb Hl IH]; [cbn; lia|]. cbn [concat]. rewrite zlen_app, IH, zlen_cons. lia.
Qed.
Lemma zlen_tail_mod (blks : list bytes) tail : Forall (fun b => zlen b = bs) blks -> zlen tail < bs -> zlen (concat blks ++ tail) mod bs = zlen tail.
Proof. intros H1 H2. rewrite zlen_app, zlen_blocks by assumption. rewrite Z.mul_comm, Z.add_comm, Z.mod_add by lia. apply Z.mod_small. pose proof (zlen_nonneg tail). lia. Qed.
Lemma zlen_full_mod (blks : list bytes) tail : Forall (fun b => zlen b = bs) blks -> zlen tail = bs -> zlen (concat blks ++ tail) mod bs = 0.
Proof. intros H1 H2. rewrite zlen_app, zlen_blocks, H2 by assumption. replace (bs * zlen blks + bs) with ((zlen blks + 1) * bs) by lia. apply Z.mod_mul. lia. Qed.

Definition mac_digest (p : option padding) (iv0 m : bytes) : out bytes :=
  match p with
  | None => if zlen m mod bs =? 0 then Ret (cbc_mac E iv0 (chunks bs m)) else Raise (Error Wrong_data_length)
  | Some p => match pad_fn p bs (zlen m mod bs) with
              | Some l => Ret (cbc_mac E iv0 (chunks bs (m ++ l)))
              | None => Raise Assert_failure
              end
  end.
Lemma pad_any p buf used : zlen buf = bs -> 0 <= used < bs ->
  match pad_fn p bs used with
  | Some l => pad (scheme_of p) buf used = Ret (sub buf 0 used ++ l) /\ used + zlen l = bs /\ bytes_ok l
  | None => pad (scheme_of p) buf used = Raise Assert_failure
  end.
Proof. destruct p; [apply length_pad_ok|apply zeros_pad_ok]. Qed.

(* the state after the first part of method result *)
Lemma mac_result_norm iv0 s m : macR iv0 s m -> exists s' blks tail,
  (if mc_used s =? bs then let! (s, u) := m_block C s in (m_set_used C s 0, Ret tt) else (s, Ret tt)) = (s', Ret tt) /\
  macR0 iv0 s' blks tail /\ m = concat blks ++ tail /\ zlen tail < bs.
Proof.
  intros (blks & tail & HR & Em & Hz). pose proof HR as (H1 & H2 & H3 & H4 & H5 & H6 & H7 & H8 & H9 & H10). destruct (mc_used s =? bs) eqn:Eu.
  - assert (Ef : mc_buf s = tail) by (apply (m_buf_full iv0 _ _ _ HR); lia).
    destruct (m_block_ok iv0 s blks tail) as (s1 & -> & HR1 & _); [rewrite H6; assumption|assumption|assumption|]. cbn [bind].
    exists (m_set_used C s1 0), (blks ++ [tail]), []. split; [reflexivity|]. split; [assumption|]. split; [|cbn; lia].
    rewrite concat_app. cbn [concat]. rewrite !app_nil_r. exact Em.
  - exists s, blks, tail. split; [reflexivity|]. split; [assumption|]. split; [assumption|]. lia.
Qed.
Lemma mac_result_ok p iv0 s m : macR iv0 s m -> snd (mac_result C (option_map scheme_of p) s) = mac_digest p iv0 m.
Proof.
  intros HR. unfold mac_result. fold bs. destruct (mac_result_norm iv0 s m HR) as (s1 & blks & tail & -> & HR1 & Em & Ht). cbn [bind].
  pose proof HR1 as (H1 & H2 & H3 & H4 & H5 & H6 & H7 & H8 & H9 & H10). unfold mac_digest. rewrite Em.
  rewrite (zlen_tail_mod blks tail H1 Ht). destruct p as [p|]; cbn [option_map].
  - pose proof (zlen_nonneg tail) as Ht0. pose proof (pad_any p (mc_buf s1) (mc_used s1) H5 ltac:(lia)) as Hp. rewrite H2. destruct (pad_fn p bs (mc_used s1)) as [l|].
    + destruct Hp as (Hp & Hl & Hlb). rewrite Hp, H6. cbn [m_to_buf bind]. set (s2 := MSt _ _ _ _).
      assert (Hfull : zlen (tail ++ l) = bs) by (rewrite zlen_app; lia). assert (Hbf : bytes_ok (tail ++ l)) by (apply bytes_ok_app; auto).
      destruct (m_block_ok iv0 s2 blks (tail ++ l)) as (s3 & -> & HR3 & _); [|reflexivity|assumption|].
      { cbn [s2 mc_buf mc_used]. rewrite sub_app_l by lia. rewrite sub_0_all by lia. unfold macR0. cbn [s2 mc_iv mc_buf mc_used mc_c].
        repeat (split; try assumption). rewrite sub_app_l by lia. apply sub_0_all; lia. }
      cbn [bind snd]. rewrite <- app_assoc, mac_blocks by assumption. destruct HR3 as (_ & _ & _ & _ & _ & _ & Hi & _). cbn [m_set_used mc_iv] in *. rewrite Hi. reflexivity.
    + rewrite Hp. reflexivity.
  - rewrite H2. destruct (mc_used s1 =? 0) eqn:E0; cbn [negb bind snd]; [|reflexivity].
    assert (tail = []) as -> by (apply zlen_0; lia). rewrite app_nil_r, chunks_concat0 by (assumption || lia). rewrite H7. reflexivity.
Qed.
Lemma mac_himpl p iv0 : himpl (fun _ => True) (mac C (option_map scheme_of p)) (mac_digest p iv0) (macR iv0).
Proof.
  constructor; [auto| | |reflexivity].
  - intros s m o HR Hv _. apply mac_step_ok; assumption.
  - intros s m HR _. apply mac_result_ok. assumption.
Qed.
Lemma mac_init_R iv0 c0 : zlen iv0 = bs -> bytes_ok iv0 -> gd c0 -> macR iv0 (MSt iv0 (fresh bs) 0 c0) [].
Proof.
  intros H1 H2 H3. exists [], []. split; [|auto]. unfold macR0. cbn [mc_iv mc_buf mc_used mc_c]. rewrite fresh_len by lia.
  repeat split; auto; try constructor; lia.
Qed.

(* ---- CMAC ---- *)
Lemma xorb_assoc a : forall b c, xorb (xorb a b) c = xorb a (xorb b c).
Proof. induction a as [|x a IH]; intros [|y b] [|z c]; try reflexivity. rewrite !xorb_cons, Z.lxor_assoc, IH. reflexivity. Qed.
Definition cmac_digest (k1 k2 iv0 m : bytes) : bytes :=
  let M := chunks bs m in
  let b := last M [] in
  cbc_mac E iv0 (removelast M ++ [if zlen b =? bs then xorb b k1 else xorb (b ++ [128] ++ zeros (bs - zlen b - 1)) k2]).
Lemma cmac_result_ok k1 k2 iv0 s m : zlen k1 = bs -> zlen k2 = bs -> bytes_ok k1 -> bytes_ok k2 -> macR iv0 s m ->
  snd (cmac_result C k1 k2 s) = Ret (cmac_digest k1 k2 iv0 m).
Proof.
  intros K1 K2 B1 B2 (blks & tail & HR & Em & Hz). pose proof HR as (H1 & H2 & H3 & H4 & H5 & H6 & H7 & H8 & H9 & H10). pose proof (zlen_nonneg tail) as Ht0.
  unfold cmac_result. fold bs. set (full := mc_used s =? bs). set (k := if full then k1 else k2).
  assert (Hk : zlen k = bs /\ bytes_ok k) by (unfold k; destruct full; auto).
  set (b := if full then tail else tail ++ [128] ++ zeros (bs - zlen tail - 1)).
  assert (Hb : zlen b = bs /\ bytes_ok b).
  { unfold b. destruct full eqn:Ef; unfold full in Ef; [split; [lia|assumption]|]. rewrite !zlen_app, zlen_one, zlen_zeros by lia. split; [lia|].
    apply bytes_ok_app. split; [assumption|]. apply bytes_ok_app. split; [|apply bytes_ok_zeros]. repeat constructor; unfold byte_ok; lia. }
  assert (E1 : (if full then (s, Ret tt) else m_to_buf C s (pad padding_8000 (mc_buf s) (mc_used s))) = (MSt (mc_iv s) b (mc_used s) (mc_c s), Ret tt)).
  { unfold b. destruct full eqn:Ef; unfold full in Ef.
    - assert (Et : mc_buf s = tail) by (apply (m_buf_full iv0 _ _ _ HR); lia). rewrite <- Et. destruct s; reflexivity.
    - pose proof (zeros_pad_ok bs (mc_buf s) (mc_used s) H5 ltac:(lia)) as Hp. cbn [zeros_pad] in Hp. destruct Hp as (-> & _). rewrite H6, H2. reflexivity. }
  rewrite E1. cbn [bind]. unfold xor_bytes. cbn [mc_iv mc_buf].
  assert (in_range (mc_iv s) 0 bs && in_range b 0 bs = true) as -> by (apply andb_true_iff; rewrite !in_range_true; lia).
  cbn [m_to_buf bind mc_iv mc_buf mc_used mc_c]. rewrite !sub_0_all by lia. rewrite splice_all by (rewrite zlen_xorb; lia).
  assert (Hx : zlen (xorb (mc_iv s) b) = bs) by (rewrite zlen_xorb; lia).
  assert (in_range k 0 bs && in_range (xorb (mc_iv s) b) 0 bs = true) as -> by (apply andb_true_iff; rewrite !in_range_true; lia).
  cbn [m_to_buf bind mc_iv mc_buf mc_used mc_c]. rewrite !sub_0_all by lia. rewrite splice_all by (rewrite zlen_xorb; lia).
  set (s2 := MSt _ _ _ _). destruct (m_transform_ok s2) as (c' & -> & _); cbn [s2 mc_iv mc_buf mc_used mc_c]; [rewrite zlen_xorb; lia| |assumption|assumption|].
  { apply bytes_ok_xorb; [tauto|]. apply bytes_ok_xorb; tauto. }
  cbn [bind snd mc_iv]. f_equal. unfold cmac_digest. rewrite Em.
  assert (Ech : removelast (chunks bs (concat blks ++ tail)) = blks /\ last (chunks bs (concat blks ++ tail)) [] = tail).
  { destruct (Z.eq_dec (zlen tail) 0) as [E0|].
    - assert (Et : tail = []) by (apply zlen_0; lia). rewrite Et, (Hz Et). cbn [concat app]. rewrite chunks_nil. split; reflexivity.
    - rewrite chunks_concat by (assumption || lia). rewrite chunks_short by lia. rewrite removelast_last, last_last. auto. }
  destruct Ech as (-> & ->). rewrite cbc_mac_snoc, <- H7, H2. fold full. f_equal.
  transitivity (xorb (xorb b k) (mc_iv s)); [|unfold b, k; destruct full; rewrite <- ?H2; reflexivity].
  rewrite (xorb_comm k), xorb_assoc. apply xorb_comm.
Qed.
Definition cmacR (k1 k2 iv0 : bytes) (s : mst C * (bytes * bytes)) (m : bytes) : Prop := macR iv0 (fst s) m /\ snd s = (k1, k2).
Lemma cmac_himpl k1 k2 iv0 : zlen k1 = bs -> zlen k2 = bs -> bytes_ok k1 -> bytes_ok k2 ->
  himpl (fun _ => True) (cmac C) (fun m => Ret (cmac_digest k1 k2 iv0 m)) (cmacR k1 k2 iv0).
Proof.
  intros K1 K2 B1 B2. constructor; [auto| | |reflexivity].
  - intros s m o (HR & Hk) Hv _. destruct (mac_step_ok iv0 (mac_result C None) (mac_wipe C) (fst s) m o HR Hv) as (s' & E1 & E2).
    exists (s', snd s). split; [|exact (conj E2 Hk)].
    destruct o; cbn [h_step mac_with cmac h_add_substring h_add_string h_add_char h_add_byte] in *; unfold c_on; rewrite E1; reflexivity.
  - intros s m (HR & Hk) _. cbn [cmac h_result]. unfold c_on, lift. rewrite Hk. cbn [fst snd]. apply cmac_result_ok; assumption.
Qed.
End Mac.
