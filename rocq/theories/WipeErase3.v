(* What wipe leaves in ChaCha20-Poly1305 and zlib objects *)
From Verif Require Import Prelude PreludeFacts SpecTransducer BufOutModel BufOut TransformModel BlockModel CipherModel EncModel HashModel AuthModel AeadModel PolyModel
  MacModel SpecWipe SpecWipe2 WipeSafe WipeHash WipeApi CipherSpec WipeCipher WipeErase WipeComp WipeAuth WipeErase2 StreamModel AeadApi ZlibModel SpecZlib ZlibCases Toy.

Section ChaPoly.
Variable fresh : Z -> bytes.
Hypothesis fresh_len : forall n, 0 <= n -> zlen (fresh n) = n.
Variable P : poly_impl.
Notation C := chacha20_class.
Lemma in_range_inv (W : stream_cipher) I : sc_good_in W I -> forall fin, (forall s, SI W I s -> good (SI W I) (fin s)) -> (forall s, I s -> I (sc_wipe W s)) ->
  forall size l s, SI W I s -> Forall aop_possible l -> Forall aop_in_range l -> SI W I (fst (a_run (auth_of (stream_transform fresh W) size fin) s l)).
Proof.
  intros G fin Hf Hw size. induction l as [|x l IH]; intros s Hs Hl Hr; [exact Hs|]. inversion Hl; subst. inversion Hr; subst. cbn [a_run].
  destruct (in_range_step fresh fresh_len W I G fin Hf Hw size s x Hs) as (G1 & _); [assumption..|].
  destruct (a_step (auth_of (stream_transform fresh W) size fin) s x) as [s1 ob]. cbn [fst] in G1. specialize (IH s1 G1 ltac:(assumption) ltac:(assumption)).
  destruct (a_run (auth_of (stream_transform fresh W) size fin) s1 l) as [s2 obs]. exact IH.
Qed.
Lemma enc_in_range maxlen : sc_good_in (chapoly_enc P C maxlen) (CPI P).
Proof. intros s src so dst d len Hs _. exact (chapoly_enc_good fresh fresh_len P maxlen s src so dst d len Hs). Qed.
Lemma cp_wipe_eq c1 c2 : CPI P c1 -> CPI P c2 -> cp_clen c1 = cp_clen c2 -> cp_wipe P C c1 = cp_wipe P C c2.
Proof. intros (H1 & _) (H2 & _) E. unfold cp_wipe. rewrite E. f_equal. cbn [chacha20_class raw_stream sc_wipe]. now apply chacha_erase. Qed.
Lemma sct_wipe_eq W (I : sc_st W -> Prop) size fin (s1 s2 : sct W) : SI W I s1 -> SI W I s2 -> sc_wipe W (sct_c W s1) = sc_wipe W (sct_c W s2) -> bo_public (sct_bo W s1) = bo_public (sct_bo W s2) ->
  let a := auth_of (stream_transform fresh W) size fin in a_after (AObj a s1) [AWipe] = a_after (AObj a s2) [AWipe].
Proof.
  intros (H1 & _) (H2 & _) Hw Hb a. unfold a_after. cbn [ao_class ao_st a_run a_step unit_obs fst snd]. f_equal. unfold a. cbn [auth_of a_wipe stream_transform t_wipe fst].
  rewrite Hw, (bo_wipe_eq _ _ Hb), H1, H2. reflexivity.
Qed.
Lemma chapoly_enc_erased header1 header2 iv1 iv2 k1 k2 o1 o2 l1 l2 : zlen header1 <= max_string_length -> zlen header1 = zlen header2 -> zlen iv1 = zlen iv2 ->
  chacha20_poly1305 fresh P header1 iv1 k1 Encrypt = Ret o1 -> chacha20_poly1305 fresh P header2 iv2 k2 Encrypt = Ret o2 ->
  Forall aop_possible l1 -> Forall aop_in_range l1 -> Forall aop_possible l2 -> Forall aop_in_range l2 ->
  exists maxlen fin (s1 s2 : sct (chapoly_enc P C maxlen)), a_after o1 l1 = AObj (auth_of (stream_transform fresh (chapoly_enc P C maxlen)) 16 fin) s1 /\
  a_after o2 l2 = AObj (auth_of (stream_transform fresh (chapoly_enc P C maxlen)) 16 fin) s2 /\
  (cp_clen (sct_c _ s1) = cp_clen (sct_c _ s2) -> bo_public (sct_bo _ s1) = bo_public (sct_bo _ s2) -> a_after (a_after o1 l1) [AWipe] = a_after (a_after o2 l2) [AWipe]).
Proof.
  intros HL Hh Hi E1 E2 L1 R1 L2 R2. unfold chacha20_poly1305 in E1, E2. rewrite <- Hh, <- Hi in E2.
  destruct (new_chacha20 fresh (Some iv1) 0 k1) as [ch1|e| |] eqn:Ec1; cbn [obind] in E1; try discriminate E1. destruct (new_chacha20 fresh (Some iv2) 0 k2) as [ch2|e| |] eqn:Ec2; cbn [obind] in E2; try discriminate E2.
  destruct (new_chacha_inv fresh fresh_len _ _ _ Ec1) as (c1 & -> & Hc1). destruct (new_chacha_inv fresh fresh_len _ _ _ Ec2) as (c2 & -> & Hc2). clear Ec1 Ec2. cbn [so_sc so_st] in E1, E2.
  destruct (init_hash_ok fresh fresh_len P c1 header1 Hc1 HL) as (_ & G1 & G2). destruct (init_hash_ok fresh fresh_len P c2 header2 Hc2 ltac:(lia)) as (_ & G3 & G4).
  destruct (poly1305_init_hash fresh P C c1 header1) as [a1 [h1|e| |]]; cbn [fst snd obind] in *; try discriminate E1. destruct (poly1305_init_hash fresh P C c2 header2) as [a2 [h2|e| |]]; cbn [fst snd obind] in *; try discriminate E2.
  set (maxlen := if _ =? 12 then _ else _) in *. clearbody maxlen. apply WipeHash.ret_inj in E1, E2.
  set (fin := chapoly_finish _ _ _ _ _ _ _) in *. exists maxlen, fin. rewrite <- E1, <- E2. cbn [a_after ao_class ao_st]. eexists. eexists. split; [reflexivity|split; [reflexivity|]].
  assert (forall s, CPI P s -> SI (chapoly_enc P C maxlen) (CPI P) (stream_new fresh (chapoly_enc P C maxlen) s)) as Hn by (intros s Hs; apply stream_new_good; assumption).
  pose proof (in_range_inv (chapoly_enc P C maxlen) (CPI P) (enc_in_range maxlen) fin (chapoly_finish_good fresh fresh_len P (chapoly_enc P C maxlen) (fun x => x) (fun x => x) (zlen header1) (CPI P) (fun x Hx => Hx) (fun x Hx => Hx)) (cp_wipe_inv P) 16) as G.
  pose proof (G l1 _ (Hn ({| cp_cha := a1; cp_h := h1; cp_clen := 0 |}) (conj G1 (G2 _ eq_refl))) L1 R1) as S1. pose proof (G l2 _ (Hn ({| cp_cha := a2; cp_h := h2; cp_clen := 0 |}) (conj G3 (G4 _ eq_refl))) L2 R2) as S2.
  intros Hc Hb. apply (sct_wipe_eq (chapoly_enc P C maxlen) (CPI P) 16 fin); [exact S1|exact S2| |exact Hb]. apply cp_wipe_eq; [apply S1|apply S2|exact Hc].
Qed.
Lemma chapoly_dec_erased header1 header2 iv1 iv2 k1 k2 o1 o2 l1 l2 : zlen header1 <= max_string_length -> zlen header1 = zlen header2 ->
  chacha20_poly1305 fresh P header1 iv1 k1 Decrypt = Ret o1 -> chacha20_poly1305 fresh P header2 iv2 k2 Decrypt = Ret o2 ->
  Forall aop_possible l1 -> Forall aop_in_range l1 -> Forall aop_possible l2 -> Forall aop_in_range l2 ->
  exists fin (s1 s2 : sct (chapoly_dec P C)), a_after o1 l1 = AObj (auth_of (stream_transform fresh (chapoly_dec P C)) 16 fin) s1 /\
  a_after o2 l2 = AObj (auth_of (stream_transform fresh (chapoly_dec P C)) 16 fin) s2 /\
  (cp_clen (sct_c _ s1) = cp_clen (sct_c _ s2) -> bo_public (sct_bo _ s1) = bo_public (sct_bo _ s2) -> a_after (a_after o1 l1) [AWipe] = a_after (a_after o2 l2) [AWipe]).
Proof.
  intros HL Hh E1 E2 L1 R1 L2 R2. unfold chacha20_poly1305 in E1, E2. rewrite <- Hh in E2.
  destruct (new_chacha20 fresh (Some iv1) 0 k1) as [ch1|e| |] eqn:Ec1; cbn [obind] in E1; try discriminate E1. destruct (new_chacha20 fresh (Some iv2) 0 k2) as [ch2|e| |] eqn:Ec2; cbn [obind] in E2; try discriminate E2.
  destruct (new_chacha_inv fresh fresh_len _ _ _ Ec1) as (c1 & -> & Hc1). destruct (new_chacha_inv fresh fresh_len _ _ _ Ec2) as (c2 & -> & Hc2). clear Ec1 Ec2. cbn [so_sc so_st] in E1, E2.
  destruct (init_hash_ok fresh fresh_len P c1 header1 Hc1 HL) as (_ & G1 & G2). destruct (init_hash_ok fresh fresh_len P c2 header2 Hc2 ltac:(lia)) as (_ & G3 & G4).
  destruct (poly1305_init_hash fresh P C c1 header1) as [a1 [h1|e| |]]; cbn [fst snd obind] in *; try discriminate E1. destruct (poly1305_init_hash fresh P C c2 header2) as [a2 [h2|e| |]]; cbn [fst snd obind] in *; try discriminate E2.
  apply WipeHash.ret_inj in E1, E2.
  set (fin := chapoly_finish _ _ _ _ _ _ _) in *. exists fin. rewrite <- E1, <- E2. cbn [a_after ao_class ao_st]. eexists. eexists. split; [reflexivity|split; [reflexivity|]].
  assert (forall s, CPI P s -> SI (chapoly_dec P C) (CPI P) (stream_new fresh (chapoly_dec P C) s)) as Hn by (intros s Hs; apply stream_new_good; assumption).
  pose proof (in_range_inv (chapoly_dec P C) (CPI P) (chapoly_dec_good fresh fresh_len P) fin (chapoly_finish_good fresh fresh_len P (chapoly_dec P C) (fun x => x) (fun x => x) (zlen header1) (CPI P) (fun x Hx => Hx) (fun x Hx => Hx)) (cp_wipe_inv P) 16) as G.
  pose proof (G l1 _ (Hn ({| cp_cha := a1; cp_h := h1; cp_clen := 0 |}) (conj G1 (G2 _ eq_refl))) L1 R1) as S1. pose proof (G l2 _ (Hn ({| cp_cha := a2; cp_h := h2; cp_clen := 0 |}) (conj G3 (G4 _ eq_refl))) L2 R2) as S2.
  intros Hc Hb. apply (sct_wipe_eq (chapoly_dec P C) (CPI P) 16 fin); [exact S1|exact S2| |exact Hb]. apply cp_wipe_eq; [apply S1|apply S2|exact Hc].
Qed.
End ChaPoly.

(* HMAC: the data are erased (the key is not, C66_hmac_key_refuted) *)
Lemma hmac_run H new B key l : forall s, Forall hop_possible l -> exists l', Forall hop_possible l' /\ fst (h_run (hmac_class H new B key) s l) = fst (h_run H s l').
Proof.
  induction l as [|o l IH]; intros s Hl; [exists []; split; [constructor|reflexivity]|]. inversion Hl as [|o' l0 Ho Hl' E1]; subst.
  assert (exists l1, Forall hop_possible l1 /\ fst (h_step (hmac_class H new B key) s o) = fst (h_run H s l1)) as (l1 & A1 & A2).
  { assert (fst (h_step (hmac_class H new B key) s o) = fst (h_step H s o) -> exists l1, Forall hop_possible l1 /\ fst (h_step (hmac_class H new B key) s o) = fst (h_run H s l1)) as K.
    { intros E. exists [o]. split; [now constructor|]. rewrite E. cbn [h_run]. destruct (h_step H s o); reflexivity. }
    destruct o as [b ofs len|str|c|n| |]; try (apply K; reflexivity). cbn [h_step hmac_class h_result bytes_obs] in K |- *. unfold hmac_result in K |- *.
    assert (exists l1, Forall hop_possible l1 /\ s = fst (h_run H s l1)) as N by (exists []; split; [constructor|reflexivity]).
    destruct (hmac_pad H new B key 92) as [b|e| |]; cbn [fst bytes_obs]; try exact N. destruct (h_add_substring H new b 0 (zlen b)) as [h' [u|e| |]]; cbn [fst bytes_obs]; try exact N.
    destruct (h_result H s) as [s1 [r|e| |]] eqn:Er; cbn [bind fst bytes_obs] in K |- *; try (apply K; reflexivity).
    assert (exists l1, Forall hop_possible l1 /\ s1 = fst (h_run H s l1)) as N1 by (exists [Result]; split; [repeat constructor|]; cbn [h_run h_step]; rewrite Er; reflexivity).
    destruct (h_add_string H h' r) as [h2 [v|e| |]]; cbn [fst bytes_obs]; try exact N1. destruct (h_result H h2) as [h3 [r2|e| |]]; cbn [fst bytes_obs]; try exact N1.
    destruct (h_wipe H h3) as [h4 [w|e| |]]; cbn [fst bytes_obs]; exact N1. }
  cbn [h_run]. destruct (h_step (hmac_class H new B key) s o) as [s1 ob]. cbn [fst] in A2. subst s1. destruct (IH (fst (h_run H s l1)) Hl') as (l2 & B1 & B2).
  exists (l1 ++ l2). split; [now apply Forall_app|]. destruct (h_run (hmac_class H new B key) (fst (h_run H s l1)) l) as [s2 obs]. cbn [fst] in *. rewrite B2. clear.
  revert s. induction l1 as [|x l1 IH]; intros s; cbn [app h_run fst]; [reflexivity|]. destruct (h_step H s x) as [s1 ob]. specialize (IH s1). destruct (h_run H s1 (l1 ++ l2)), (h_run H s1 l1). exact IH.
Qed.
Lemma hmac_data_erased fresh o B key m l1 l2 : (forall n, 0 <= n -> zlen (fresh n) = n) -> md_object fresh o B -> zlen key <= max_string_length -> hmac_of o B key = Ret m ->
  Forall hop_possible l1 -> Forall hop_possible l2 -> h_after m (l1 ++ [HWipe]) = h_after m (l2 ++ [HWipe]).
Proof.
  intros F Ho Hk E L1 L2. pose proof (md_object_erased_st fresh o B) as G. unfold hmac_of, hmac_new in E.
  assert (forall b, hmac_pad (ho_class o) (ho_st o) B key 54 = Ret b -> zlen b = B) as Lb.
  { destruct (md_object_good fresh F o B Ho) as (R & (I & A1 & A2 & A3) & A4 & A5). apply (hmac_pad_good fresh F (ho_class o) I (ho_st o) B A1 A2 A5); [|exact Hk]. intros s r Hs Hr. specialize (A3 s r Hs Hr). lia. }
  destruct (md_object_good fresh F o B Ho) as (R & _ & _ & A5).
  destruct (hmac_pad (ho_class o) (ho_st o) B key 54) as [b|e| |]; cbn [obind] in E; try discriminate E. specialize (Lb b eq_refl).
  destruct (h_add_substring (ho_class o) (ho_st o) b 0 (zlen b)) as [s [u|e| |]] eqn:Ea; cbn [fst snd obind] in E; try discriminate E. apply WipeHash.ret_inj in E. subst m. unfold h_after. cbn [ho_class ho_st]. f_equal.
  rewrite !h_run_snoc. change (h_wipe (hmac_class (ho_class o) (ho_st o) B key)) with (h_wipe (ho_class o)).
  destruct (hmac_run (ho_class o) (ho_st o) B key l1 s L1) as (l1' & P1 & ->). destruct (hmac_run (ho_class o) (ho_st o) B key l2 s L2) as (l2' & P2 & ->).
  assert (hop_possible (AddSubstring b 0 (zlen b))) as Hp by (cbn; unfold is_int, max_string_length; lia).
  specialize (G (AddSubstring b 0 (zlen b) :: l1') (AddSubstring b 0 (zlen b) :: l2') F Ho (Forall_cons _ Hp P1) (Forall_cons _ Hp P2)).
  assert (forall l, fst (h_run (ho_class o) (ho_st o) ((AddSubstring b 0 (zlen b) :: l) ++ [HWipe])) = fst (h_wipe (ho_class o) (fst (h_run (ho_class o) s l)))) as X.
  { intros l. rewrite h_run_snoc. cbn [h_run h_step]. rewrite Ea. cbn [unit_obs fst snd]. destruct (h_run (ho_class o) s l). reflexivity. }
  rewrite !X in G. exact G.
Qed.

(* zlib objects: wipe does not touch the zlib stream, whatever zlib is *)
Lemma w_run_snoc T s l : fst (w_run T s (l ++ [Wipe])) = fst (t_wipe T (fst (w_run T s l))).
Proof.
  revert s. induction l as [|o l IH]; intros s; cbn [app w_run]; [reflexivity|].
  destruct (w_step T s o) as [s1 ob]. specialize (IH s1). destruct (w_run T s1 (l ++ [Wipe])), (w_run T s1 l). exact IH.
Qed.
Lemma zlib_stream_kept fresh zs (zlib : zs -> bytes -> Z -> flush_command -> zs * zcode * Z * bytes) zend fuel s l :
  fst (fst (w_run (compress fresh zs zlib zend fuel) s (l ++ [Wipe]))) = fst (fst (w_run (compress fresh zs zlib zend fuel) s l)) /\
  fst (fst (w_run (uncompress fresh zs zlib zend fuel) s (l ++ [Wipe]))) = fst (fst (w_run (uncompress fresh zs zlib zend fuel) s l)).
Proof. rewrite !w_run_snoc. split; reflexivity. Qed.
Lemma zlib_output_erased fresh zs (zlib : zs -> bytes -> Z -> flush_command -> zs * zcode * Z * bytes) zend fuel s l :
  Forall (fun b => b = 0) (obuf (snd (fst (w_run (compress fresh zs zlib zend fuel) s (l ++ [Wipe]))))) /\
  Forall (fun b => b = 0) (obuf (snd (fst (w_run (uncompress fresh zs zlib zend fuel) s (l ++ [Wipe]))))).
Proof. rewrite !w_run_snoc. split; apply Forall_forall; intros x Hx; exact (repeat_spec _ _ _ Hx). Qed.
Lemma zlib_not_erased : exists zs (zlib : zs -> bytes -> Z -> flush_command -> zs * zcode * Z * bytes) zend z fuel secret, zlib_ok zlib /\ bytes_ok secret /\
  snd (w_run (compress toy_fresh _ zlib zend fuel) (z_new toy_fresh _ z) [Call (PutString secret); Wipe; Call Finish; Call GetString]) = [OUnit; OUnit; OUnit; OBytes secret].
Proof.
  exists bytes, toy_deflate, no_end, [], 5%nat, [7; 8; 9]. split; [exact toy_deflate_ok|]. split; [repeat constructor; unfold byte_ok; lia|]. vm_compute. reflexivity.
Qed.
Lemma chapoly_dec_not_safe : exists (fresh : Z -> bytes) (P : poly_impl) (header iv key : bytes), (forall n, 0 <= n -> zlen (fresh n) = n) /\ poly_class P /\
  exists o, chacha20_poly1305 fresh P header iv key Decrypt = Ret o /\ ~ auth_memory_safe false (ao_class o) (ao_st o).
Proof.
  destruct chapoly_decrypt_undef as (fresh & P & header & iv & key & F & HP & o & E & U). exists fresh, P, header, iv, key. split; [exact F|split; [exact HP|]]. exists o. split; [exact E|]. intros S.
  apply (S [ACall (PutSubstring [1; 2; 3] 2 5)]).
  - constructor; [|constructor]. split; [cbn; unfold max_string_length, is_int; lia|split; discriminate].
  - right. intros [H|[]]. discriminate H.
  - cbn [a_run a_step t_step data_view t_put_substring]. destruct (a_put_substring (ao_class o) (ao_st o) [1; 2; 3] 2 5) as [s' r]. cbn [snd] in U. subst r. left. reflexivity.
Qed.
