(* Results of an hmac object called again. *)
From Verif Require Import Prelude PreludeFacts BytesNum SpecBlock SpecHash SpecRipemd SpecMac SpecAgain HashModel HashSpec HashFacts HashSize MdHash MdModel ShaModel RipemdModel
  BlockModel MacModel Hmac HashLib Again.

Section Again.
Variables (H : hash) (new : h_st H) (B : Z) (d : bytes -> bytes) (R : h_st H -> bytes -> Prop).
Let T (_ : bytes) : Prop := True.
Hypothesis HB : 0 < B <= max_string_length.
Hypothesis I : himpl T H (fun m => Ret (d m)) R.
Hypothesis R0 : R new [].
Hypothesis d_len : forall m, zlen (d m) <= B.
Hypothesis d_ok : forall m, bytes_ok (d m).
Variable key : bytes.
Hypothesis key_ok : bytes_ok key.
Hypothesis key_len : zlen key <= max_string_length.
Let pad := hpad B d key.

(* result does to the state what result of the inner hash does, and hashes
   the string it returns after the key *)
Lemma hmac_result_step s s' r : h_result H s = (s', Ret r) -> bytes_ok r -> zlen r <= max_string_length ->
  hmac_result H new B key s = (s', Ret (d (pad 0x5C ++ r))).
Proof.
  intros Er Hr1 Hr2. unfold hmac_result. rewrite (hmac_pad_ok H new B T d R HB I R0 d_len d_ok key key_ok key_len Logic.I (fun _ _ _ => Logic.I)).
  destruct (hpad_ok B d HB d_len d_ok key key_ok 0x5C) as (Ho1 & Ho2); [unfold byte_ok; lia|]. unfold pad. set (op := hpad B d key 0x5C) in *.
  destruct (hi_op _ _ _ _ I new [] (HSub op 0 (zlen op)) R0) as (h1 & E1 & R1); [|exact Logic.I|].
  { cbn [hop_valid]. rewrite sub_0_all by reflexivity. split; [assumption|]. split; [lia|]. apply in_range_true. lia. }
  cbn [h_step hop_bytes app] in E1, R1. rewrite sub_0_all in R1 by reflexivity. rewrite E1, Er. cbn [bind].
  destruct (hi_op _ _ _ _ I h1 op (HString r) R1) as (h2 & E2 & R2); [split; assumption|exact Logic.I|].
  cbn [h_step hop_bytes] in E2, R2. rewrite E2. pose proof (hi_res _ _ _ _ I h2 _ R2 Logic.I) as Hr. pose proof (hi_wipe _ _ _ _ I h2 _ R2 Logic.I) as Hw.
  destruct (h_result H h2) as [h3 r']. cbn [snd fst] in Hr, Hw. subst r'. destruct (h_wipe H h3) as [h4 r']. cbn [snd] in Hw. subst r'. reflexivity.
Qed.
Lemma hmac_nth v k : forall s, (forall j, (j <= k)%nat -> nth_result H s j = Ret (v j) /\ bytes_ok (v j) /\ zlen (v j) <= max_string_length) ->
  nth_result (hmac_class H new B key) s k = Ret (d (pad 0x5C ++ v k)).
Proof.
  revert v. induction k as [|k IH]; intros v s Hv.
  - destruct (Hv 0%nat (le_n _)) as (E & H1 & H2). cbn [nth_result] in *. destruct (h_result H s) as [s' r] eqn:Er. cbn [snd] in E. subst r.
    cbn [h_result hmac_class]. rewrite (hmac_result_step s s' _ Er H1 H2). reflexivity.
  - destruct (Hv 0%nat ltac:(lia)) as (E & H1 & H2). cbn [nth_result] in E. destruct (h_result H s) as [s' r] eqn:Er. cbn [snd] in E. subst r.
    cbn [nth_result]. cbn [h_result hmac_class]. rewrite (hmac_result_step s s' _ Er H1 H2). cbn [fst].
    apply (IH (fun j => v (S j))). intros j Hj. destruct (Hv (S j) ltac:(lia)) as (E & H3 & H4). cbn [nth_result] in E. rewrite Er in E. cbn [fst] in E. auto.
Qed.
Lemma hmac_run ops : forall s, h_run (hmac_class H new B key) s ops = h_run H s ops.
Proof.
  induction ops as [|o ops IH]; intros s; [reflexivity|]. cbn [h_run].
  assert (E : h_step (hmac_class H new B key) s o = h_step H s o) by (destruct o; reflexivity).
  change (h_st (hmac_class H new B key)) with (h_st H) in *. rewrite E. destruct (h_step H s o) as [s1 [| | |]]; cbn [bind]; auto.
Qed.
End Again.

Lemma hmac_again_gen o d B key v : 0 < B <= max_string_length -> computes o d -> (forall m, zlen (d m) <= B) -> (forall m, bytes_ok (d m)) ->
  bytes_ok key -> zlen key <= max_string_length ->
  (forall ops k, Forall hop_valid ops -> results_from o ops k = Ret (v ops k) /\ bytes_ok (v ops k) /\ zlen (v ops k) <= max_string_length) ->
  let ipad := xorb (hmac_key d B key) (repeat 0x36 (Z.to_nat B)) in
  let opad := xorb (hmac_key d B key) (repeat 0x5C (Z.to_nat B)) in
  exists h, hmac_of o B key = Ret h /\ forall ops k, Forall hop_valid ops ->
    exists r, results_from o (HSub ipad 0 B :: ops) k = Ret r /\ results_from h ops k = Ret (d (opad ++ r)).
Proof.
  intros HB HC Hl Hd Hk Hkl Hv. cbn zeta. destruct (computes_himpl (fun _ => True) o _ (fun _ _ _ => Logic.I) HC) as (HI & HR).
  fold (hpad B d key 0x36). fold (hpad B d key 0x5C).
  destruct (hpad_ok B d HB Hl Hd key Hk 0x36) as (Ho1 & Ho2); [unfold byte_ok; lia|]. set (ip := hpad B d key 0x36) in *.
  assert (Hvalid : hop_valid (HSub ip 0 B)).
  { cbn [hop_valid]. rewrite sub_0_all by (symmetry; exact Ho2). split; [assumption|]. split; [lia|]. apply in_range_true. lia. }
  destruct (hi_op _ _ _ _ HI (ho_st o) [] (HSub ip 0 B) HR Hvalid Logic.I) as (h1 & E1 & _).
  exists (HObj (hmac_class (ho_class o) (ho_st o) B key) h1). split.
  - unfold hmac_of, hmac_new. rewrite (hmac_pad_ok _ _ B (fun _ => True) d _ HB HI HR Hl Hd key Hk Hkl Logic.I (fun _ _ _ => Logic.I)). cbn [obind].
    fold ip. rewrite Ho2. cbn [h_step] in E1. rewrite E1. reflexivity.
  - intros ops k Hops. assert (Hops' : Forall hop_valid (HSub ip 0 B :: ops)) by (constructor; assumption).
    exists (v (HSub ip 0 B :: ops) k). split; [apply Hv, Hops'|]. unfold results_from. cbn [ho_class ho_st].
    rewrite (hmac_run (ho_class o) (ho_st o) B key). apply (hmac_nth (ho_class o) (ho_st o) B d _ HB HI HR Hl Hd key Hk Hkl (v (HSub ip 0 B :: ops)) k).
    intros j _. destruct (Hv _ j Hops') as (E & Hrest). split; [|exact Hrest]. unfold results_from in E. cbn [h_run] in E. rewrite E1 in E. cbn [bind] in E. exact E.
Qed.

Lemma hmac_again fresh o d B key : (forall n, 0 <= n -> zlen (fresh n) = n) -> hmac_hash fresh o d B -> bytes_ok key -> zlen key <= max_string_length ->
  let ipad := xorb (hmac_key d B key) (repeat 0x36 (Z.to_nat B)) in
  let opad := xorb (hmac_key d B key) (repeat 0x5C (Z.to_nat B)) in
  exists h, hmac_of o B key = Ret h /\ forall ops k, Forall hop_valid ops ->
    exists r, results_from o (HSub ipad 0 B :: ops) k = Ret r /\ results_from h ops k = Ret (d (opad ++ r)).
Proof.
  intros Hf HH Hk Hkl. destruct (hmac_hash_ok fresh o d B Hf HH) as (HB & HC & H1 & H2).
  assert (Hv : exists v, forall ops k, Forall hop_valid ops -> results_from o ops k = Ret (v ops k) /\ bytes_ok (v ops k) /\ zlen (v ops k) <= max_string_length).
  { destruct HH; eexists; intros ops k Hv.
    - split; [exact (sha1_again fresh ops k Hf Hv)|]. split; [apply bytes_ok_words; intros x; apply bytes_ok_to_be|].
      unfold zlen. rewrite (concat_len _ 4) by apply to_be_len. unfold md_results. rewrite (fold_len _ 5); [unfold max_string_length; lia| |reflexivity].
      intros st x Hs. unfold sha1_compress. destruct (fold_left _ _ _) as [[[[a b] c] e] f]. rewrite add_words_len, Hs. reflexivity.
    - destruct (sha2_again fresh Hf ops k Hv) as (_ & E & _ & _). split; [exact E|]. split; [apply Forall_firstn, bytes_ok_words; intros x; apply bytes_ok_to_be|].
      unfold zlen. pose proof (firstn_le_length 32 (concat (map (to_be (Z.to_nat (s2_w p256 / 8))) (md_results (2 * s2_w p256) (s2_w p256 / 4) to_be sha256_IV (sha2_compress p256) (added ops) k)))). unfold max_string_length. lia.
    - destruct (sha2_again fresh Hf ops k Hv) as (_ & _ & E & _). split; [exact E|]. split; [apply Forall_firstn, bytes_ok_words; intros x; apply bytes_ok_to_be|].
      unfold zlen. pose proof (firstn_le_length 48 (concat (map (to_be (Z.to_nat (s2_w p512 / 8))) (md_results (2 * s2_w p512) (s2_w p512 / 4) to_be sha384_IV (sha2_compress p512) (added ops) k)))). unfold max_string_length. lia.
    - destruct (sha2_again fresh Hf ops k Hv) as (_ & _ & _ & E). split; [exact E|]. split; [apply Forall_firstn, bytes_ok_words; intros x; apply bytes_ok_to_be|].
      unfold zlen. pose proof (firstn_le_length 64 (concat (map (to_be (Z.to_nat (s2_w p512 / 8))) (md_results (2 * s2_w p512) (s2_w p512 / 4) to_be sha512_IV (sha2_compress p512) (added ops) k)))). unfold max_string_length. lia.
    - split; [exact (rmd_again fresh ops k Hf Hv)|]. split; [apply bytes_ok_words; intros x; apply bytes_ok_to_le|].
      unfold zlen. rewrite (concat_len _ 4) by apply to_le_len. unfold md_results. rewrite (fold_len _ 5); [unfold max_string_length; lia| |reflexivity].
      intros st x Hs. unfold rmd160_compress. destruct (rmd_left_line _ _) as [[[[a b] c] e] f]. destruct (rmd_right_line _ _) as [[[[a' b'] c'] d'] e']. reflexivity. }
  destruct Hv as (v & Hv). exact (hmac_again_gen o d B key v HB HC H1 H2 Hk Hkl Hv).
Qed.
