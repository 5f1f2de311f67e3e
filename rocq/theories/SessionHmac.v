(* HMAC objects that are given more data after result. *)
From Verif Require Import Prelude PreludeFacts BytesNum SpecBlock SpecHash SpecRipemd SpecMac SpecAgain SpecSession HashModel HashSpec HashFacts HashSize MdHash MdModel ShaModel RipemdModel
  BlockModel MacModel Hmac HashLib Again HmacAgain SessionMd.

Definition short (r : bytes) : Prop := bytes_ok r /\ zlen r <= max_string_length.

Lemma hmac_session_gen o d B key : 0 < B <= max_string_length -> computes o d -> (forall m, zlen (d m) <= B) -> (forall m, bytes_ok (d m)) ->
  bytes_ok key -> zlen key <= max_string_length ->
  (forall l, Forall (Forall hop_valid) l -> exists rs, session_of o l = map Ret rs /\ Forall short rs) ->
  let ipad := xorb (hmac_key d B key) (repeat 0x36 (Z.to_nat B)) in
  let opad := xorb (hmac_key d B key) (repeat 0x5C (Z.to_nat B)) in
  exists h, hmac_of o B key = Ret h /\ forall ops l, Forall (Forall hop_valid) (ops :: l) ->
    exists rs, session_of o ((HSub ipad 0 B :: ops) :: l) = map Ret rs /\ session_of h (ops :: l) = map (fun r => Ret (d (opad ++ r))) rs.
Proof.
  intros HB HC Hl Hd Hk Hkl Hv. cbn zeta. destruct (computes_himpl (fun _ => True) o _ (fun _ _ _ => Logic.I) HC) as (HI & HR).
  fold (hpad B d key 0x36). fold (hpad B d key 0x5C).
  destruct (hpad_ok B d HB Hl Hd key Hk 0x36) as (Ho1 & Ho2); [unfold byte_ok; lia|]. set (ip := hpad B d key 0x36) in *.
  assert (Hvalid : hop_valid (HSub ip 0 B)).
  { cbn [hop_valid]. rewrite sub_0_all by (symmetry; exact Ho2). split; [assumption|]. split; [lia|]. apply in_range_true. lia. }
  destruct (hi_op _ _ _ _ HI (ho_st o) [] (HSub ip 0 B) HR Hvalid Logic.I) as (h1 & E1 & _).
  exists (HObj (hmac_class (ho_class o) (ho_st o) B key) h1). split.
  - unfold hmac_of, hmac_new. rewrite (hmac_pad_ok _ _ B (fun _ => True) d _ HB HI HR Hl Hd key Hk Hkl Logic.I (fun _ _ _ => Logic.I)). cbn [obind].
    fold ip. rewrite Ho2. cbn [h_step] in E1. rewrite E1. reflexivity.
  - intros ops l Hops. apply Forall_cons_iff in Hops as (Hops & Hls).
    destruct (Hv ((HSub ip 0 B :: ops) :: l)) as (rs & Ers & Hsh); [constructor; [constructor; assumption|assumption]|].
    exists rs. split; [exact Ers|]. unfold session_of in *. cbn [ho_class ho_st].
    assert (Ea : session (ho_class o) h1 (ops :: l) = map Ret rs).
    { rewrite <- Ers. cbn [session h_run]. rewrite E1. reflexivity. }
    clear Ers E1. revert Ea Hsh. generalize (ops :: l) as l'. clear Hops Hls l. intros l'. revert h1 rs.
    induction l' as [|a l' IH]; intros s rs Ea Hsh.
    + destruct rs; [reflexivity|discriminate].
    + cbn [session] in Ea |- *. rewrite (hmac_run (ho_class o) (ho_st o) B key).
      destruct rs as [|r rs]; [discriminate|]. cbn [map] in Ea |- *. apply Forall_cons_iff in Hsh as ((H1 & H2) & Hsh).
      destruct (h_result (ho_class o) (fst (h_run (ho_class o) s a))) as [s' r'] eqn:Er. cbn [fst snd] in Ea. injection Ea as -> Ea.
      assert (Eh : h_result (hmac_class (ho_class o) (ho_st o) B key) (fst (h_run (ho_class o) s a)) = (s', Ret (d (hpad B d key 0x5C ++ r)))).
      { exact (hmac_result_step (ho_class o) (ho_st o) B d _ HB HI HR Hl Hd key Hk Hkl _ _ _ Er H1 H2). }
      change (h_st (hmac_class (ho_class o) (ho_st o) B key)) with (h_st (ho_class o)) in *. rewrite Eh. cbn [fst snd].
      f_equal. exact (IH s' rs Ea Hsh).
Qed.

Lemma md_session_len B L enc iv g n l : length iv = n -> (forall st x, length st = n -> length (g st x) = n) -> forall d m,
  Forall (fun st => length st = n) (md_session B L enc iv g d m l).
Proof.
  intros Hi Hg. induction l as [|x l IH]; intros d m; [constructor|]. cbn [md_session]. constructor; [|apply IH].
  apply fold_len; [exact Hg|exact Hi].
Qed.

Lemma hmac_session fresh o d B key : (forall n, 0 <= n -> zlen (fresh n) = n) -> hmac_hash fresh o d B -> bytes_ok key -> zlen key <= max_string_length ->
  let ipad := xorb (hmac_key d B key) (repeat 0x36 (Z.to_nat B)) in
  let opad := xorb (hmac_key d B key) (repeat 0x5C (Z.to_nat B)) in
  exists h, hmac_of o B key = Ret h /\ forall ops l, Forall (Forall hop_valid) (ops :: l) ->
    exists rs, session_of o ((HSub ipad 0 B :: ops) :: l) = map Ret rs /\ session_of h (ops :: l) = map (fun r => Ret (d (opad ++ r))) rs.
Proof.
  intros Hf HH Hk Hkl. destruct (hmac_hash_ok fresh o d B Hf HH) as (HB & HC & H1 & H2).
  apply hmac_session_gen; try assumption. intros l Hv. clear HB HC H1 H2 Hk Hkl key.
  assert (Hs2 : forall w n st, (n <= 64)%nat -> short (firstn n (concat (map (to_be w) st)))).
  { intros w n st Hn. split; [apply Forall_firstn, bytes_ok_words; intros x; apply bytes_ok_to_be|].
    unfold zlen. pose proof (firstn_le_length n (concat (map (to_be w) st))). unfold max_string_length. lia. }
  assert (Hm : forall (F : list Z -> bytes) ss, Forall (fun st => short (F st)) ss -> exists rs, map (fun st => Ret (F st)) ss = map Ret rs /\ Forall short rs).
  { intros F ss HF. exists (map F ss). rewrite map_map. split; [reflexivity|]. apply Forall_map. exact HF. }
  assert (Hs3 : forall w n ss, (n <= 64)%nat -> Forall (fun st => short (firstn n (concat (map (to_be w) st)))) ss).
  { intros w n ss Hn. apply Forall_forall. intros st _. apply Hs2. exact Hn. }
  destruct HH.
  - rewrite (sha1_session fresh l Hf Hv). apply (Hm (fun st => concat (map (to_be 4) st))).
    eapply Forall_impl; [|apply (md_session_len _ _ _ _ _ 5); [reflexivity|]].
    + intros st Hst. split; [apply bytes_ok_words; intros x; apply bytes_ok_to_be|]. unfold zlen. rewrite (concat_len _ 4) by apply to_be_len. rewrite Hst. unfold max_string_length. lia.
    + intros st x Hs. unfold sha1_compress. destruct (fold_left _ _ _) as [[[[a b] c] e] f]. rewrite add_words_len, Hs. reflexivity.
  - destruct (sha2_session fresh l Hf Hv) as (_ & E & _ & _). cbv zeta in E. rewrite E. apply (Hm (fun st => firstn 32 (concat (map (to_be (Z.to_nat (s2_w p256 / 8))) st)))). apply Hs3. lia.
  - destruct (sha2_session fresh l Hf Hv) as (_ & _ & E & _). cbv zeta in E. rewrite E. apply (Hm (fun st => firstn 48 (concat (map (to_be (Z.to_nat (s2_w p512 / 8))) st)))). apply Hs3. lia.
  - destruct (sha2_session fresh l Hf Hv) as (_ & _ & _ & E). cbv zeta in E. rewrite E. apply (Hm (fun st => firstn 64 (concat (map (to_be (Z.to_nat (s2_w p512 / 8))) st)))). apply Hs3. lia.
  - rewrite (rmd_session fresh l Hf Hv). apply (Hm (fun st => concat (map (to_le 4) st))).
    eapply Forall_impl; [|apply (md_session_len _ _ _ _ _ 5); [reflexivity|]].
    + intros st Hst. split; [apply bytes_ok_words; intros x; apply bytes_ok_to_le|]. unfold zlen. rewrite (concat_len _ 4) by apply to_le_len. rewrite Hst. unfold max_string_length. lia.
    + intros st x Hs. unfold rmd160_compress. destruct (rmd_left_line _ _) as [[[[a b] c] e] f]. destruct (rmd_right_line _ _) as [[[[a' b'] c'] d'] e']. reflexivity.
Qed.
