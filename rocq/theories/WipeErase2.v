(* What wipe leaves in encoders, hashes, MACs and combinations *)
From Verif Require Import Prelude PreludeFacts SpecTransducer BufOutModel BufOut TransformModel BlockModel CipherModel EncModel HashModel MacModel AuthModel AeadModel PolyModel
  SpecWipe SpecWipe2 WipeSafe CipherSpec WipeCipher WipeHash WipeMac WipeErase WipeApi WipeComp StreamModel MdModel ShaModel RipemdModel Blake2Model SipModel KeccakModel Blake3Model Md5Model AesModel AesniModel DesModel.

(* the numbers that wipe leaves in an output buffer *)
Definition bo_public (b : bo) : Z * Z * Z := (zlen (obuf b), obeg b, oend b).
Lemma bo_wipe_eq b1 b2 : bo_public b1 = bo_public b2 -> bo_wipe b1 = bo_wipe b2.
Proof. intros H. injection H as E1 E2 E3. unfold bo_wipe. now rewrite E1, E2, E3. Qed.

Section Fresh.
Variable fresh : Z -> bytes.
Hypothesis fresh_len : forall n, 0 <= n -> zlen (fresh n) = n.

Section Enc.
Variables (X : Type) (put_char : X * bo -> Z -> (X * bo) * out unit) (put_byte : X * bo -> Z -> (X * bo) * out unit) (flush finish : X * bo -> (X * bo) * out unit) (wipe : X -> X).
Variables (W : X -> Prop) (new : X * bo) (A : Type) (num : X -> A).
Hypothesis safe : t_safe true (charwise X put_char put_byte flush finish wipe) (EI X W).
Hypothesis new_ok : EI X W new.
Hypothesis wipe_eq : forall x1 x2, W x1 -> W x2 -> num x1 = num x2 -> wipe x1 = wipe x2.
Lemma enc_erased l1 l2 : Forall wop_possible l1 -> Forall wop_possible l2 ->
  let T := charwise X put_char put_byte flush finish wipe in
  let s1 := fst (w_run T new l1) in let s2 := fst (w_run T new l2) in
  num (fst s1) = num (fst s2) -> bo_public (snd s1) = bo_public (snd s2) ->
  after (after (TObj T new) l1) [Wipe] = after (after (TObj T new) l2) [Wipe].
Proof.
  intros H1 H2 T s1 s2 Hn Hb.
  destruct (t_safe_run true T _ safe l1 new new_ok H1 (or_introl eq_refl)) as ((P1 & _) & _).
  destruct (t_safe_run true T _ safe l2 new new_ok H2 (or_introl eq_refl)) as ((P2 & _) & _).
  unfold after. cbn [o_tr o_st]. fold s1 s2 in P1, P2 |- *. clearbody s1 s2. apply f_equal. cbn [w_run w_step unit_obs fst snd T charwise t_wipe]. f_equal; [now apply wipe_eq|now apply bo_wipe_eq].
Qed.
End Enc.

Definition b64e_num (x : b64e) : Z * Z := (be_ipos x, be_col x).
Definition b64d_num (x : b64d) : Z * bool := (bd_ipos x, bd_fin x).
Lemma base64_encode_erased ml pad l1 l2 : Forall wop_possible l1 -> Forall wop_possible l2 ->
  let T := base64_encode fresh ml pad in let new := base64_encode_new fresh in
  let s1 := fst (w_run T new l1) in let s2 := fst (w_run T new l2) in
  b64e_num (fst s1) = b64e_num (fst s2) -> bo_public (snd s1) = bo_public (snd s2) ->
  after (after (TObj T new) l1) [Wipe] = after (after (TObj T new) l2) [Wipe].
Proof.
  apply (enc_erased b64e _ _ _ _ _ bew _ _ b64e_num); [apply base64_encode_t; exact fresh_len|apply base64_encode_new_ok; exact fresh_len|].
  intros [b1 p1 c1] [b2 p2 c2] H1 H2 Hn. injection Hn as -> ->. unfold bew, b64e_wipe in *. cbn [be_ibuf be_ipos be_col] in *. now rewrite H1, H2.
Qed.
Lemma base64_decode_erased l1 l2 : Forall wop_possible l1 -> Forall wop_possible l2 ->
  let T := base64_decode fresh in let new := base64_decode_new fresh in
  let s1 := fst (w_run T new l1) in let s2 := fst (w_run T new l2) in
  b64d_num (fst s1) = b64d_num (fst s2) -> bo_public (snd s1) = bo_public (snd s2) ->
  after (after (TObj T new) l1) [Wipe] = after (after (TObj T new) l2) [Wipe].
Proof.
  apply (enc_erased b64d _ _ _ _ _ bdw _ _ b64d_num); [apply base64_decode_t; exact fresh_len|apply base64_decode_new_ok; exact fresh_len|].
  intros [b1 p1 c1] [b2 p2 c2] H1 H2 Hn. injection Hn as -> ->. reflexivity.
Qed.
Lemma hexa_encode_erased l1 l2 : Forall wop_possible l1 -> Forall wop_possible l2 ->
  let T := hexa_encode fresh in let new := hexa_encode_new fresh in
  let s1 := fst (w_run T new l1) in let s2 := fst (w_run T new l2) in
  bo_public (snd s1) = bo_public (snd s2) ->
  after (after (TObj T new) l1) [Wipe] = after (after (TObj T new) l2) [Wipe].
Proof.
  intros H1 H2 T new s1 s2 Hb.
  apply (enc_erased unit _ _ _ _ _ (fun _ => True) _ unit (fun _ => tt)); [apply hexa_encode_t; exact fresh_len|apply hexa_encode_new_ok; exact fresh_len|intros [] []; reflexivity|exact H1|exact H2|reflexivity|exact Hb].
Qed.
Lemma hexa_decode_erased l1 l2 : Forall wop_possible l1 -> Forall wop_possible l2 ->
  let T := hexa_decode fresh in let new := hexa_decode_new fresh in
  let s1 := fst (w_run T new l1) in let s2 := fst (w_run T new l2) in
  hd_ipos (fst s1) = hd_ipos (fst s2) -> bo_public (snd s1) = bo_public (snd s2) ->
  after (after (TObj T new) l1) [Wipe] = after (after (TObj T new) l2) [Wipe].
Proof.
  apply (enc_erased hexd _ _ _ _ _ hdw _ _ hd_ipos); [apply hexa_decode_t; exact fresh_len|apply hexa_decode_new_ok; exact fresh_len|].
  intros [b1 p1] [b2 p2] H1 H2 Hn. cbn in Hn. subst p2. reflexivity.
Qed.
End Fresh.

(* ---------------- hashes ---------------- *)
Lemma h_run_snoc H s l : fst (h_run H s (l ++ [HWipe])) = fst (h_wipe H (fst (h_run H s l))).
Proof.
  revert s. induction l as [|o l IH]; intros s; cbn [app h_run].
  - cbn [h_step fst]. unfold unit_obs. reflexivity.
  - destruct (h_step H s o) as [s1 ob]. specialize (IH s1). destruct (h_run H s1 (l ++ [HWipe])), (h_run H s1 l). exact IH.
Qed.
Lemma h_erased_st H (I : h_st H -> Prop) s1 s2 l1 l2 : h_good true H I -> I s1 -> I s2 -> (forall s s', I s -> I s' -> fst (h_wipe H s) = fst (h_wipe H s')) ->
  Forall hop_possible l1 -> Forall hop_possible l2 -> fst (h_run H s1 (l1 ++ [HWipe])) = fst (h_run H s2 (l2 ++ [HWipe])).
Proof. intros G H1 H2 Hw L1 L2. rewrite !h_run_snoc. apply Hw; apply (h_good_run true H I G); auto. Qed.
(* two objects of the same class *)
Lemma h_erased H (I : h_st H -> Prop) s1 s2 l1 l2 : h_good true H I -> I s1 -> I s2 -> (forall s s', I s -> I s' -> fst (h_wipe H s) = fst (h_wipe H s')) ->
  Forall hop_possible l1 -> Forall hop_possible l2 -> h_after (HObj H s1) (l1 ++ [HWipe]) = h_after (HObj H s2) (l2 ++ [HWipe]).
Proof.
  intros G H1 H2 Hw L1 L2. unfold h_after. cbn [ho_class ho_st]. f_equal. now apply (h_erased_st H I).
Qed.

(* the invariants strengthened with the length of the state *)
Section Md.
Variables B W : Z. Variable compress : list Z -> bytes -> list Z. Variable enc_length : Z -> Z -> bytes. Variable n : nat.
Hypothesis compress_len : forall st b, length (compress st b) = n.
Lemma md_blocks_state fuel : forall st buf data r, length st = n -> md_blocks B compress fuel st buf data = Ret r -> length (fst (fst r)) = n.
Proof.
  induction fuel as [|f IH]; intros st buf data r Hs; cbn [md_blocks]; [discriminate|]. destruct (_ >=? _).
  - destruct (c_memcpy _ _ _); cbn [obind]; try discriminate. apply IH, compress_len.
  - destruct (c_memcpy _ _ _); cbn [obind]; try discriminate. intros E. injection E as <-. exact Hs.
Qed.
Lemma md_add_state c d c' : length (md_state c) = n -> md_add_data B W compress c d = Ret c' -> length (md_state c') = n.
Proof.
  intros Hs. unfold md_add_data. destruct (md_add_length _ _ _ _) as [hi lo]. cbv zeta. destruct (negb _); [destruct (_ <? _)|].
  - destruct (c_memcpy _ _ _); cbn [obind]; try discriminate. intros E. injection E as <-. exact Hs.
  - destruct (c_memcpy _ _ _); cbn [obind]; try discriminate. destruct (md_blocks _ _ _ _ _ _) as [[[st num] buf]|e| |] eqn:E; cbn [obind]; try discriminate.
    apply md_blocks_state in E; [|apply compress_len]. intros F. injection F as <-. exact E.
  - destruct (md_blocks _ _ _ _ _ _) as [[[st num] buf]|e| |] eqn:E; cbn [obind]; try discriminate.
    apply md_blocks_state in E; [|exact Hs]. intros F. injection F as <-. exact E.
Qed.
Lemma md_final_state output c : length (md_state c) = n -> length (md_state (fst (md_final B W compress enc_length output c))) = n.
Proof.
  intros Hs. unfold md_final. destruct (md_finish _ _ _ _ _) as [c'|e| |] eqn:E; cbn [fst]; try exact Hs. revert E. unfold md_finish. cbv zeta.
  destruct (c_memcpy _ _ _); cbn [obind]; try discriminate.
  destruct (_ >? _); [destruct (c_memset0 _ _ _); cbn [obind]; try discriminate|cbn [obind]];
  destruct (c_memset0 _ _ _); cbn [obind]; try discriminate; destruct (c_memcpy _ _ _); cbn [obind]; try discriminate; intros F; injection F as <-; apply compress_len.
Qed.
Definition md_inv_n (c : md_ctx) : Prop := md_inv B c /\ length (md_state c) = n.
Hypothesis B_pos : 0 < B. Hypothesis L_ok : 0 <= 2 * (W / 8) /\ 2 * (W / 8) < B. Hypothesis enc_len : forall a b, zlen (enc_length a b) = 2 * (W / 8).
Lemma md_hash_n size output : h_good true (c_hash md_ctx size (md_add_data B W compress) (md_final B W compress enc_length output) md_wipe) md_inv_n.
Proof.
  apply c_hash_good.
  - intros c d (H1 & H2). destruct (md_add_good B W compress enc_length B_pos enc_len c d H1) as (A1 & A2). split; [exact A1|]. intros c' E. split; [now apply A2|]. now apply (md_add_state c d).
  - intros c (H1 & H2). destruct (md_final_good B W compress enc_length L_ok enc_len output c H1) as (A1 & A2). split; [|exact A2]. split; [exact A1|]. now apply md_final_state.
  - intros _ c (H1 & H2). split; [now apply (md_wipe_good B W enc_length)|]. unfold md_wipe. cbn [md_state]. now rewrite map_length.
Qed.
Lemma md_wipe_eq c1 c2 : md_inv_n c1 -> md_inv_n c2 -> md_wipe c1 = md_wipe c2.
Proof. intros ((H1 & _) & H2) ((H3 & _) & H4). unfold md_wipe. rewrite H1, H3. f_equal. apply zero_map. congruence. Qed.
Lemma md_erased fresh size output iv l1 l2 : (forall n, 0 <= n -> zlen (fresh n) = n) -> length iv = n ->
  let o := HObj (c_hash md_ctx size (md_add_data B W compress) (md_final B W compress enc_length output) md_wipe) (md_init iv (fresh B)) in
  Forall hop_possible l1 -> Forall hop_possible l2 -> fst (h_run (ho_class o) (ho_st o) (l1 ++ [HWipe])) = fst (h_run (ho_class o) (ho_st o) (l2 ++ [HWipe])).
Proof.
  intros F Hi o. assert (md_inv_n (md_init iv (fresh B))) as H0 by (split; [now apply (md_init_good B W compress enc_length)|exact Hi]).
  apply (h_erased_st (c_hash md_ctx size (md_add_data B W compress) (md_final B W compress enc_length output) md_wipe) md_inv_n); [apply md_hash_n|exact H0|exact H0|]. intros s s' Hs Hs'. cbn [c_hash h_wipe fst]. now apply md_wipe_eq.
Qed.
End Md.
Lemma sha1_len st b : length (sha1_transform st b) = 5%nat.
Proof. unfold sha1_transform. cbv zeta. destruct (for_range 60 _ _ _) as [[[[a b'] c] d] e]. reflexivity. Qed.
Lemma sha2_len w S0 S1 s0 s1 K r st b : length (sha2_transform w S0 S1 s0 s1 K r st b) = 8%nat.
Proof. unfold sha2_transform. cbv zeta. repeat match goal with |- context [let '(_, _) := ?x in _] => destruct x end. reflexivity. Qed.
Lemma rmd_len st b : length (rmd_compress st b) = 5%nat. Proof. reflexivity. Qed.
Lemma md_object_erased_st fresh o B l1 l2 : (forall n, 0 <= n -> zlen (fresh n) = n) -> md_object fresh o B -> Forall hop_possible l1 -> Forall hop_possible l2 ->
  fst (h_run (ho_class o) (ho_st o) (l1 ++ [HWipe])) = fst (h_run (ho_class o) (ho_st o) (l2 ++ [HWipe])).
Proof.
  intros F [(-> & ->)|[(-> & ->)|[(-> & ->)|[(-> & ->)|[(-> & ->)|(-> & ->)]]]]].
  - apply (md_erased 64 32 sha1_transform (enc_length_be 4) 5 sha1_len); try assumption; try reflexivity; lia.
  - apply (md_erased 64 32 rmd_compress (enc_length_le 4) 5 rmd_len); try assumption; try reflexivity; lia.
  - apply (md_erased 64 32 sha256_transform (enc_length_be 4) 8 (sha2_len _ _ _ _ _ _ _)); try assumption; try reflexivity; lia.
  - apply (md_erased 64 32 sha256_transform (enc_length_be 4) 8 (sha2_len _ _ _ _ _ _ _)); try assumption; try reflexivity; lia.
  - apply (md_erased 128 64 sha512_transform (enc_length_be 8) 8 (sha2_len _ _ _ _ _ _ _)); try assumption; try reflexivity; lia.
  - apply (md_erased 128 64 sha512_transform (enc_length_be 8) 8 (sha2_len _ _ _ _ _ _ _)); try assumption; try reflexivity; lia.
Qed.

Lemma md_object_erased fresh o B l1 l2 : (forall n, 0 <= n -> zlen (fresh n) = n) -> md_object fresh o B -> Forall hop_possible l1 -> Forall hop_possible l2 ->
  h_after o (l1 ++ [HWipe]) = h_after o (l2 ++ [HWipe]).
Proof. intros F Ho L1 L2. unfold h_after. f_equal. now apply (md_object_erased_st fresh o B). Qed.

(* BLAKE2, for any two keys *)
Section Blake2.
Variables (w : Z) (rounds : nat) (r1 r2 r3 r4 : Z) (iv : list Z).
Hypothesis B_pos : 0 < w / 8.
Hypothesis iv_len : length iv = 8%nat.
Hypothesis w_ok : w = 8 * (w / 8).
Definition b2_inv_n (c : b2_ctx) : Prop := b2_inv w c /\ length (b2_h c) = 8%nat.
Lemma b2_compress_len h l0 l1 d k b : length (fst (fst (b2_compress w rounds r1 r2 r3 r4 iv h l0 l1 d k b))) = 8%nat.
Proof. unfold b2_compress. cbv zeta. cbn [fst]. now rewrite map_length, seq_length. Qed.
Lemma b2_blocks_state fuel : forall h l0 l1 buf data c, length h = 8%nat -> b2_blocks w rounds r1 r2 r3 r4 iv fuel h l0 l1 buf data = Ret c -> length (b2_h c) = 8%nat.
Proof.
  induction fuel as [|f IH]; intros h l0 l1 buf data c Hh; cbn [b2_blocks]; [discriminate|]. destruct (_ >? _).
  - pose proof (b2_compress_len h l0 l1 (firstn (Z.to_nat (16 * (w / 8))) data) (16 * (w / 8)) false) as L. destruct (b2_compress _ _ _ _ _ _ _ _ _ _ _ _ _) as [[h' l0'] l1']. now apply IH.
  - destruct (c_memcpy _ _ _); cbn [obind]; try discriminate. intros E. injection E as <-. exact Hh.
Qed.
Lemma b2_add_state c d c' : length (b2_h c) = 8%nat -> b2_add_data w rounds r1 r2 r3 r4 iv c d = Ret c' -> length (b2_h c') = 8%nat.
Proof.
  intros Hs. unfold b2_add_data. cbv zeta. destruct (_ >? 0); [destruct (_ <=? _)|].
  - destruct (c_memcpy _ _ _); cbn [obind]; try discriminate. intros E. injection E as <-. exact Hs.
  - destruct (c_memcpy _ _ _) as [buf|e| |]; cbn [obind]; try discriminate.
    pose proof (b2_compress_len (b2_h c) (b2_len0 c) (b2_len1 c) buf (16 * (w / 8)) false) as L. destruct (b2_compress _ _ _ _ _ _ _ _ _ _ _ _ _) as [[h' l0'] l1']. now apply b2_blocks_state.
  - now apply b2_blocks_state.
Qed.
Lemma b2_final_state n c : length (b2_h c) = 8%nat -> length (b2_h (fst (b2_final w rounds r1 r2 r3 r4 iv n c))) = 8%nat.
Proof.
  intros Hs. unfold b2_final. destruct (c_memset0 _ _ _) as [buf|e| |]; try exact Hs.
  pose proof (b2_compress_len (b2_h c) (b2_len0 c) (b2_len1 c) buf (b2_num c) true) as L. destruct (b2_compress _ _ _ _ _ _ _ _ _ _ _ _ _) as [[h' l0'] l1']. exact L.
Qed.
Lemma b2_hash_n sz : h_good true (blake2_class w rounds r1 r2 r3 r4 iv sz) b2_inv_n.
Proof.
  apply c_hash_good.
  - intros c d (H1 & H2). destruct (b2_add_good w rounds r1 r2 r3 r4 iv c d H1) as (A1 & A2). split; [exact A1|]. intros c' E. split; [now apply A2|]. now apply (b2_add_state c d).
  - intros c (H1 & H2). destruct (b2_final_good w rounds r1 r2 r3 r4 iv (sz / 8) c H1) as (A1 & A2). split; [|exact A2]. split; [exact A1|]. now apply b2_final_state.
  - intros _ c ((H1 & H2) & H3). unfold b2_inv_n, b2_inv, b2_wipe. cbn [b2_buf b2_num b2_h]. rewrite zlen_zeros, map_length by lia. split; [lia|exact H3].
Qed.
Lemma b2_new_n fresh sz key o : (forall n, 0 <= n -> zlen (fresh n) = n) -> blake2_new w rounds r1 r2 r3 r4 iv fresh sz key = Ret o ->
  exists c, o = HObj (blake2_class w rounds r1 r2 r3 r4 iv sz) c /\ b2_inv_n c.
Proof.
  intros F. unfold blake2_new. destruct (_ && _) eqn:E; [|discriminate]. unfold b2_init. cbv zeta. pose proof (F (16 * (w / 8)) ltac:(lia)) as FB.
  assert (forall x, length (kput iv 0 x) = 8%nat) as Lk.
  { intros x. unfold kput. rewrite !app_length, firstn_length, skipn_length, iv_len. reflexivity. }
  rewrite Z.gtb_ltb. destruct (Z.ltb_spec 0 (zlen key)).
  - destruct (memset_in (fresh (16 * (w / 8))) 0 (16 * (w / 8))) as (r & -> & Lr); try lia. cbn [obind].
    destruct (memcpy_in r 0 key) as (r' & -> & Lr'); try lia. cbn [obind]. intros Eo. apply ret_inj in Eo. subst o. eexists. split; [reflexivity|].
    split; [unfold b2_inv; cbn [b2_buf b2_num]; lia|apply Lk].
  - cbn [obind]. intros Eo. apply ret_inj in Eo. subst o. eexists. split; [reflexivity|]. split; [unfold b2_inv; cbn [b2_buf b2_num]; lia|apply Lk].
Qed.
Lemma b2_erased fresh sz k1 k2 o1 o2 l1 l2 : (forall n, 0 <= n -> zlen (fresh n) = n) ->
  blake2_new w rounds r1 r2 r3 r4 iv fresh sz k1 = Ret o1 -> blake2_new w rounds r1 r2 r3 r4 iv fresh sz k2 = Ret o2 ->
  Forall hop_possible l1 -> Forall hop_possible l2 -> h_after o1 (l1 ++ [HWipe]) = h_after o2 (l2 ++ [HWipe]).
Proof.
  intros F E1 E2. destruct (b2_new_n fresh sz k1 o1 F E1) as (c1 & -> & H1). destruct (b2_new_n fresh sz k2 o2 F E2) as (c2 & -> & H2).
  apply (h_erased (blake2_class w rounds r1 r2 r3 r4 iv sz) b2_inv_n); [apply b2_hash_n|exact H1|exact H2|]. intros s s' ((A1 & _) & A2) ((A3 & _) & A4). cbn [blake2_class c_hash h_wipe fst]. unfold b2_wipe. rewrite A1, A3. f_equal. apply zero_map. congruence.
Qed.
End Blake2.
Lemma blake2_erased fresh sz k1 k2 o1 o2 l1 l2 : (forall n, 0 <= n -> zlen (fresh n) = n) ->
  (blake2b_obj fresh sz k1 = Ret o1 /\ blake2b_obj fresh sz k2 = Ret o2) \/ (blake2s_obj fresh sz k1 = Ret o1 /\ blake2s_obj fresh sz k2 = Ret o2) ->
  Forall hop_possible l1 -> Forall hop_possible l2 -> h_after o1 (l1 ++ [HWipe]) = h_after o2 (l2 ++ [HWipe]).
Proof.
  intros F [(E1 & E2)|(E1 & E2)].
  - apply (b2_erased 64 12 32 24 16 63 blake2b_iv ltac:(reflexivity) ltac:(reflexivity) ltac:(reflexivity) fresh sz k1 k2); assumption.
  - apply (b2_erased 32 10 16 12 8 7 blake2s_iv ltac:(reflexivity) ltac:(reflexivity) ltac:(reflexivity) fresh sz k1 k2); assumption.
Qed.

(* SipHash, SHA-3, Keccak, BLAKE3 and MD5: wipe puts the same contents in every context *)
Lemma h_const_erased H s1 s2 l1 l2 : (forall s s', fst (h_wipe H s) = fst (h_wipe H s')) -> h_after (HObj H s1) (l1 ++ [HWipe]) = h_after (HObj H s2) (l2 ++ [HWipe]).
Proof. intros Hw. unfold h_after. cbn [ho_class ho_st]. rewrite !h_run_snoc. f_equal. apply Hw. Qed.
Lemma siphash_erased fresh sz k1 k2 o1 o2 l1 l2 : siphash_new fresh sz k1 = Ret o1 -> siphash_new fresh sz k2 = Ret o2 -> h_after o1 (l1 ++ [HWipe]) = h_after o2 (l2 ++ [HWipe]).
Proof.
  unfold siphash_new. destruct (_ && _); [|discriminate]. destruct (_ && _); [|discriminate]. intros E1 E2. apply ret_inj in E1, E2. subst o1 o2.
  apply (h_const_erased (siphash_class sz)). reflexivity.
Qed.
Lemma sha3_erased fresh sz b o1 o2 l1 l2 : sha3_new fresh sz b = Ret o1 -> sha3_new fresh sz b = Ret o2 -> h_after o1 (l1 ++ [HWipe]) = h_after o2 (l2 ++ [HWipe]).
Proof.
  unfold sha3_new. destruct (_ || _); [|discriminate]. intros E1 E2. apply ret_inj in E1, E2. subst o1 o2. apply (h_const_erased (sha3_class sz b)). reflexivity.
Qed.
Lemma blake3_erased sz k1 k2 o1 o2 l1 l2 : blake3_obj k1 sz = Ret o1 -> blake3_obj k2 sz = Ret o2 -> h_after o1 (l1 ++ [HWipe]) = h_after o2 (l2 ++ [HWipe]).
Proof.
  unfold blake3_obj. destruct (_ && _); [|discriminate]. destruct (_ && _); [|discriminate]. intros E1 E2. apply ret_inj in E1, E2. subst o1 o2.
  apply (h_const_erased (blake3_class sz)). reflexivity.
Qed.

(* ---------------- MACs made of block ciphers ---------------- *)
Section Mac.
Variable fresh : Z -> bytes.
Hypothesis fresh_len : forall n, 0 <= n -> zlen (fresh n) = n.
Lemma mac_wipe_eq C (I : bc_st C -> Prop) s1 s2 : (forall s s', I s -> I s' -> bc_wipe C s = bc_wipe C s') -> AI C I s1 -> AI C I s2 -> mc_used s1 = mc_used s2 ->
  fst (mac_wipe C s1) = fst (mac_wipe C s2).
Proof. intros Hw (A1 & A2 & _ & A3) (B1 & B2 & _ & B3) Hu. unfold mac_wipe. cbn [fst]. rewrite A1, A2, B1, B2, Hu, (Hw _ _ A3 B3). reflexivity. Qed.
Lemma block_mac_erased nb iv1 iv2 p k1 k2 o1 o2 l1 l2 : any_block_class fresh nb -> bytes_ok k1 -> bytes_ok k2 ->
  block_mac fresh (nb Encrypt) iv1 (option_map scheme_of p) k1 = Ret o1 -> block_mac fresh (nb Encrypt) iv2 (option_map scheme_of p) k2 = Ret o2 ->
  Forall hop_possible l1 -> Forall hop_possible l2 -> ~ In HWipe l1 -> ~ In HWipe l2 ->
  exists C (s1 s2 : mst C), h_after o1 l1 = HObj (mac C (option_map scheme_of p)) s1 /\ h_after o2 l2 = HObj (mac C (option_map scheme_of p)) s2 /\
  (mc_used s1 = mc_used s2 -> h_after o1 (l1 ++ [HWipe]) = h_after o2 (l2 ++ [HWipe])).
Proof.
  intros Hn B1 B2. apply (any_erases fresh fresh_len) in Hn. unfold block_mac. destruct (nb Encrypt k1) as [c1|e| |] eqn:E1; cbn [obind]; try discriminate. destruct (nb Encrypt k2) as [c2|e| |] eqn:E2; cbn [obind]; try discriminate.
  destruct (Hn _ _ _ _ _ B1 B2 E1 E2) as (C & I & a1 & a2 & -> & -> & G & H1 & H2 & Hbs & Hw). unfold mac_new. cbn [b_bc b_st].
  destruct (mac_init fresh C iv1 a1) as [m1|e| |] eqn:M1; cbn [obind]; try discriminate. destruct (mac_init fresh C iv2 a2) as [m2|e| |] eqn:M2; cbn [obind]; try discriminate.
  intros O1 O2 L1 L2 N1 N2. apply ret_inj in O1, O2. subst o1 o2. apply (mac_init_good C I Hbs) in M1, M2; try assumption.
  assert (h_good false (mac C (option_map scheme_of p)) (AI C I)) as HG.
  { apply mac_with_good; try assumption; [|discriminate]. intros x Hx. apply mac_result_good; try assumption. apply mac_pad_ok. }
  exists C, (fst (h_run (mac C (option_map scheme_of p)) m1 l1)), (fst (h_run (mac C (option_map scheme_of p)) m2 l2)).
  split; [reflexivity|split; [reflexivity|]]. intros Hu. unfold h_after. cbn [ho_class ho_st]. rewrite !h_run_snoc. f_equal.
  cbn [mac mac_with h_wipe]. apply (mac_wipe_eq C I); [exact Hw| | |exact Hu]; apply (h_good_run false (mac C (option_map scheme_of p)) (AI C I) HG); auto.
Qed.
Lemma cmac_erased nb iv1 iv2 k1 k2 o1 o2 l1 l2 : rijndael_class fresh nb -> bytes_ok k1 -> bytes_ok k2 ->
  aes_cmac fresh (nb Encrypt) iv1 k1 = Ret o1 -> aes_cmac fresh (nb Encrypt) iv2 k2 = Ret o2 ->
  Forall hop_possible l1 -> Forall hop_possible l2 -> ~ In HWipe l1 -> ~ In HWipe l2 ->
  exists C (s1 s2 : mst C * (bytes * bytes)), h_after o1 l1 = HObj (cmac C) s1 /\ h_after o2 l2 = HObj (cmac C) s2 /\
  (mc_used (fst s1) = mc_used (fst s2) -> h_after o1 (l1 ++ [HWipe]) = h_after o2 (l2 ++ [HWipe])).
Proof.
  intros Hr B1 B2. assert (any_block_class fresh nb) as Hn by now right. apply (any_erases fresh fresh_len) in Hn. unfold aes_cmac. destruct (nb Encrypt k1) as [c1|e| |] eqn:E1; cbn [obind]; try discriminate. destruct (nb Encrypt k2) as [c2|e| |] eqn:E2; cbn [obind]; try discriminate.
  assert (bc_blocksize (b_bc c1) = 16) as H16.
  { clear - Hr E1. destruct Hr as [->| ->]; [unfold new_aes in E1|unfold new_aesni in E1]; destruct (aes_key_ok k1); try discriminate E1; [apply ret_inj in E1; subst c1; reflexivity|].
    destruct (aesniKeySetupEnc _ _ _); try discriminate E1. apply ret_inj in E1. subst c1. reflexivity. }
  destruct (Hn _ _ _ _ _ B1 B2 E1 E2) as (C & I & a1 & a2 & -> & -> & G & H1 & H2 & Hbs & Hw). cbn [b_bc b_st] in *.
  assert (forall a iv o, I a -> (let r := bc_transform C a (zeros 16) 0 (fresh 16) 0 in olet u := snd r in let l := snd (fst r) in olet b := bytes_set (zeros 16) 15 0x87 in
     olet k1 := subkey fresh b l in olet k2 := subkey fresh b k1 in cmac_new fresh iv (BObj C (fst (fst r))) k1 k2) = Ret o -> exists m, o = HObj (cmac C) m /\ CMI C I m) as Hnew.
  { intros a iv o Ha. destruct (G a (zeros 16) 0 (fresh 16) 0) as ((K1 & K2) & K3); rewrite ?H16, ?zlen_zeros, ?fresh_len by lia; try lia; try assumption.
    rewrite fresh_len in K2 by lia. cbv zeta. destruct (bc_transform C a (zeros 16) 0 (fresh 16) 0) as [[c1 l] [u|e| |]]; cbn [fst snd obind] in *; try discriminate.
    destruct (bytes_set (zeros 16) 15 0x87) as [b|e| |] eqn:Eb; cbn [obind]; try discriminate. apply bytes_set_len in Eb. rewrite zlen_zeros in Eb by lia.
    destruct (subkey fresh b l) as [ka|e| |] eqn:Ea; cbn [obind]; try discriminate. apply (subkey_len fresh fresh_len) in Ea; try assumption.
    destruct (subkey fresh b ka) as [kb|e| |] eqn:Eb2; cbn [obind]; try discriminate. apply (subkey_len fresh fresh_len) in Eb2; try assumption.
    unfold cmac_new. cbn [b_bc b_st]. destruct (mac_init fresh C iv c1) as [s|e| |] eqn:Es; cbn [obind]; try discriminate. apply (mac_init_good C I Hbs) in Es; try assumption.
    intros E. apply ret_inj in E. subst o. eexists. split; [reflexivity|]. refine (conj Es (conj _ _)); cbn [fst snd]; lia. }
  intros O1 O2 L1 L2 N1 N2. destruct (Hnew _ _ _ H1 O1) as (m1 & -> & M1). destruct (Hnew _ _ _ H2 O2) as (m2 & -> & M2).
  assert (h_good false (cmac C) (CMI C I)) as HG by (apply cmac_class_good; try assumption; discriminate).
  exists C, (fst (h_run (cmac C) m1 l1)), (fst (h_run (cmac C) m2 l2)).
  split; [reflexivity|split; [reflexivity|]]. intros Hu. unfold h_after. cbn [ho_class ho_st]. rewrite !h_run_snoc. f_equal.
  destruct (h_good_run false (cmac C) (CMI C I) HG l1 m1 M1 L1 (or_intror N1)) as ((A1 & A2 & A3) & _).
  destruct (h_good_run false (cmac C) (CMI C I) HG l2 m2 M2 L2 (or_intror N2)) as ((A1' & A2' & A3') & _).
  cbn [cmac h_wipe]. unfold cmac_wipe, c_on, lift. cbn [mac_wipe bind fst snd]. f_equal; [now apply (mac_wipe_eq C I)|]. now rewrite A2, A3, A2', A3'.
Qed.
Lemma des3_mac_erased iv1 iv2 p k1 k2 o1 o2 l1 l2 : bytes_ok k1 -> bytes_ok k2 ->
  des_final_triple_des fresh new_des iv1 (option_map scheme_of p) k1 = Ret o1 -> des_final_triple_des fresh new_des iv2 (option_map scheme_of p) k2 = Ret o2 ->
  Forall hop_possible l1 -> Forall hop_possible l2 ->
  exists C1 C2 C3 (s1 s2 : mst C1 * bc_st C2 * bc_st C3), h_after o1 l1 = HObj (mac_final_triple C1 C2 C3 (option_map scheme_of p)) s1 /\ h_after o2 l2 = HObj (mac_final_triple C1 C2 C3 (option_map scheme_of p)) s2 /\
  (mc_used (fst (fst s1)) = mc_used (fst (fst s2)) -> h_after o1 (l1 ++ [HWipe]) = h_after o2 (l2 ++ [HWipe])).
Proof.
  intros B1 B2.
  pose (I := fun k : list Z => length k = 32%nat).
  assert (bc_good des_class I) as G.
  { apply raw_good; [|lia]. intros k b _ _. split; [discriminate|]. intros r Er. injection Er as <-. now apply d3des_len. }
  assert (forall s s', I s -> I s' -> bc_wipe des_class s = bc_wipe des_class s') as Hw by (intros s s' H H'; apply zero_map; congruence).
  assert (forall s, I s -> I (bc_wipe des_class s)) as Hi by (intros s H; unfold I; cbn [des_class raw_cipher bc_wipe]; unfold wipe_ckey; rewrite map_length; exact H).
  assert (0 < bc_blocksize des_class <= 2 ^ 40) as Hbs by (cbn; lia).
  assert (forall d k c, new_des d k = Ret c -> exists s, c = BObj des_class s /\ I s) as Hd.
  { intros d k c. unfold new_des. destruct (_ =? 8); [|discriminate]. intros E. injection E as <-. eexists. split; [reflexivity|apply cook_len]. }
  pose (TIx := TI des_class des_class des_class I I I). pose (M := mac_final_triple des_class des_class des_class (option_map scheme_of p)).
  assert (forall iv k o, des_final_triple_des fresh new_des iv (option_map scheme_of p) k = Ret o -> exists s, o = HObj M s /\ TIx s) as Hnew.
  { intros iv k o. unfold des_final_triple_des. destruct (_ && _); [discriminate|]. destruct (bytes_sub k 0 8) as [ka|e| |]; cbn [obind]; try discriminate.
    destruct (bytes_sub k 8 8) as [kb|e| |]; cbn [obind]; try discriminate. match goal with |- context [obind ?x _] => destruct x as [kc|e| |] end; cbn [obind]; try discriminate.
    destruct (new_des Encrypt ka) as [c1|e| |] eqn:E1; cbn [obind]; try discriminate. destruct (new_des Decrypt kb) as [c2|e| |] eqn:E2; cbn [obind]; try discriminate.
    destruct (new_des Encrypt kc) as [c3|e| |] eqn:E3; cbn [obind]; try discriminate.
    destruct (Hd _ _ _ E1) as (s1 & -> & H1), (Hd _ _ _ E2) as (s2 & -> & H2), (Hd _ _ _ E3) as (s3 & -> & H3).
    unfold mac_final_triple_new. cbn [b_bc b_st]. destruct (_ || _); [discriminate|].
    destruct (mac_init fresh des_class iv s1) as [m|e| |] eqn:Em; cbn [obind]; try discriminate. apply (mac_init_good des_class I Hbs) in Em; try assumption.
    intros E. apply ret_inj in E. subst o. eexists. split; [reflexivity|]. exact (conj Em (conj H2 H3)). }
  intros O1 O2 L1 L2. destruct (Hnew _ _ _ O1) as (m1 & -> & M1). destruct (Hnew _ _ _ O2) as (m2 & -> & M2).
  assert (h_good true M TIx) as HG by (apply triple_good; try assumption; try reflexivity; apply mac_pad_ok).
  exists des_class, des_class, des_class, (fst (h_run M m1 l1)), (fst (h_run M m2 l2)).
  split; [reflexivity|split; [reflexivity|]]. intros Hu. unfold h_after. cbn [ho_class ho_st]. rewrite !h_run_snoc. f_equal.
  destruct (h_good_run true M TIx HG l1 m1 M1 L1 (or_introl eq_refl)) as ((A1 & A2 & A3) & _).
  destruct (h_good_run true M TIx HG l2 m2 M2 L2 (or_introl eq_refl)) as ((A1' & A2' & A3') & _).
  cbn [M mac_final_triple h_wipe mac mac_with]. unfold t_on_mac, lift. cbn [mac_wipe bind fst snd]. 
  f_equal; [f_equal; [now apply (mac_wipe_eq des_class I)|now apply Hw]|now apply Hw].
Qed.
End Mac.

(* ---------------- combinations: wipe acts on every part ---------------- *)
Lemma make_wipes fresh nb m p iv key d o : make_cipher fresh nb m p iv key d = Ret o -> forall s, snd (t_wipe (o_tr o) s) = Ret tt.
Proof.
  unfold make_cipher. destruct (nb _ key); cbn [obind]; try discriminate. unfold make_block_cipher. destruct (chain _ _ _ _ _); cbn [obind]; try discriminate.
  destruct p; [destruct d|]; intros E; apply ret_inj in E; subst o; reflexivity.
Qed.
Lemma arcfour_wipes fresh key d o : Cipher_arcfour fresh key d = Ret o -> forall s, snd (t_wipe (o_tr o) s) = Ret tt.
Proof. unfold Cipher_arcfour. destruct (new_arcfour _); cbn [obind]; try discriminate. intros E. apply ret_inj in E. subst o. reflexivity. Qed.
Lemma chacha_wipes fresh iv ctr key d o : Cipher_chacha20 fresh iv ctr key d = Ret o -> forall s, snd (t_wipe (o_tr o) s) = Ret tt.
Proof. unfold Cipher_chacha20. destruct (new_chacha20 _ _ _ _); cbn [obind]; try discriminate. intros E. apply ret_inj in E. subst o. reflexivity. Qed.
Lemma compose_wipe_ret T1 T2 s : snd (t_wipe T1 (fst s)) = Ret tt -> t_wipe (compose T1 T2) s = ((fst (t_wipe T1 (fst s)), fst (t_wipe T2 (snd s))), snd (t_wipe T2 (snd s))).
Proof. intros H. cbn [compose t_wipe]. unfold on1, on2, lift. destruct (t_wipe T1 (fst s)) as [s1 r]. cbn [snd] in H. subst r. reflexivity. Qed.
Lemma lib_tr_wipes fresh w o : lib_tr fresh w o -> forall s, snd (t_wipe (o_tr o) s) = Ret tt.
Proof.
  induction 1; try (intros s; reflexivity).
  - eapply make_wipes; eassumption.
  - eapply make_wipes; eassumption.
  - eapply arcfour_wipes; eassumption.
  - eapply chacha_wipes; eassumption.
  - intros s. cbn [o_tr]. rewrite compose_wipe_ret by apply IHlib_tr1. apply IHlib_tr2.
Qed.
Lemma compose_wiped fresh w o1 o2 s1 s2 : lib_tr fresh w o1 ->
  after (composed (TObj (o_tr o1) s1) (TObj (o_tr o2) s2)) [Wipe] = composed (after (TObj (o_tr o1) s1) [Wipe]) (after (TObj (o_tr o2) s2) [Wipe]).
Proof.
  intros H. unfold after, composed. cbn [o_tr o_st w_run w_step unit_obs fst snd]. f_equal. rewrite compose_wipe_ret; [reflexivity|]. cbn [fst]. now apply (lib_tr_wipes fresh w).
Qed.
Lemma then_wiped fresh w tr H s h b : lib_tr fresh w tr ->
  a_after (AObj (transform_then_hash fresh (o_tr tr) H) (TH s h b)) [AWipe] =
  AObj (transform_then_hash fresh (o_tr tr) H) (TH (o_st (after (TObj (o_tr tr) s) [Wipe])) (ho_st (h_after (HObj H h) [HWipe])) (bo_wipe b)).
Proof.
  intros L. unfold a_after. cbn [ao_class ao_st a_run a_step unit_obs fst snd]. f_equal. cbn [transform_then_hash a_wipe]. unfold th_on_tr, th_on_h. cbn [th_tr th_h th_bo].
  pose proof (lib_tr_wipes fresh w tr L s) as E. cbn [after o_st o_tr w_run w_step unit_obs fst snd h_after ho_st ho_class h_run h_step]. destruct (t_wipe (o_tr tr) s) as [s' r]. cbn [snd] in E. subst r. reflexivity.
Qed.
Lemma and_wiped fresh w tr H s h : lib_tr fresh w tr ->
  a_after (AObj (transform_and_hash (o_tr tr) H) (s, h)) [AWipe] =
  AObj (transform_and_hash (o_tr tr) H) (o_st (after (TObj (o_tr tr) s) [Wipe]), ho_st (h_after (HObj H h) [HWipe])).
Proof.
  intros L. unfold a_after. cbn [ao_class ao_st a_run a_step unit_obs fst snd]. f_equal. cbn [transform_and_hash a_wipe]. unfold ah_on_tr, ah_on_h. cbn [fst snd].
  pose proof (lib_tr_wipes fresh w tr L s) as E. cbn [after o_st o_tr w_run w_step unit_obs fst snd h_after ho_st ho_class h_run h_step]. destruct (t_wipe (o_tr tr) s) as [s' r]. cbn [snd] in E. subst r. reflexivity.
Qed.
