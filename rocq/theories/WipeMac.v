(* Memory safety of the MACs built on block ciphers *)
From Verif Require Import Prelude PreludeFacts SpecTransducer TransformModel BlockModel CipherModel HashModel MacModel CipherSpec SpecWipe WipeSafe WipeCipher WipeHash
  DesModel AesModel AesniModel.

Section Mac.
Variable C : block_cipher.
Variable I : bc_st C -> Prop.
Hypothesis C_good : bc_good C I.
Hypothesis C_bs : 0 < bc_blocksize C <= 2 ^ 40.
Local Notation bs := (bc_blocksize C).
Definition AI (s : mst C) : Prop := zlen (mc_iv s) = bs /\ zlen (mc_buf s) = bs /\ 0 <= mc_used s <= bs /\ I (mc_c s).
Lemma AI_intro s : zlen (mc_iv s) = bs -> zlen (mc_buf s) = bs -> 0 <= mc_used s <= bs -> I (mc_c s) -> AI s.
Proof. intros. split; [assumption|split; [assumption|split; assumption]]. Qed.
Lemma AI_used s n : AI s -> 0 <= n <= bs -> AI (m_set_used C s n).
Proof. intros (H1 & H2 & H3 & H4) H. now apply AI_intro. Qed.
Lemma to_buf_good s r : AI s -> r <> Undef -> (forall x, r = Ret x -> zlen x = bs) -> good AI (m_to_buf C s r).
Proof.
  intros H Hu Hl. unfold m_to_buf. destruct r as [x|e| |]; [|now apply good_raise|now destruct Hu|split; [exact H|discriminate]].
  apply good_ret. destruct H as (H1 & H2 & H3 & H4). apply AI_intro; try assumption. exact (Hl x eq_refl).
Qed.
Lemma m_transform_good s : AI s -> good AI (m_transform C s).
Proof.
  intros (H1 & H2 & H3 & H4). unfold m_transform. destruct (C_good (mc_c s) (mc_buf s) 0 (mc_iv s) 0) as ((K1 & K2) & K3); try assumption; try lia.
  destruct (bc_transform C _ _ _ _ _) as [[c' dst'] o]. cbn [fst snd] in *. split; [|exact K3]. cbn [fst]. apply AI_intro; try assumption. cbn [mc_iv]. lia.
Qed.
Lemma xor_buf_good s k : AI s -> zlen k = bs -> good AI (m_to_buf C s (xor_bytes k 0 (mc_buf s) 0 bs)).
Proof.
  intros H Hk. pose proof H as (H1 & H2 & H3 & H4). destruct (xor_bytes_safe k 0 (mc_buf s) 0 bs) as (r & -> & Lr); try lia.
  apply to_buf_good; [exact H|discriminate|]. intros x E. injection E as <-. lia.
Qed.
Lemma m_block_good s : AI s -> good AI (m_block C s).
Proof. intros H. unfold m_block. apply good_bind; [apply xor_buf_good; [exact H|apply H]|]. intros s1 u _ H1. now apply m_transform_good. Qed.
Lemma blit_buf_good s src so d n : AI s -> good AI (m_to_buf C s (blit src so (mc_buf s) d n)).
Proof. intros H. apply to_buf_good; [exact H|apply blit_not_undef|]. intros x Hx. rewrite (blit_len _ _ _ _ _ _ Hx). apply H. Qed.
Lemma set_buf_good s i c : AI s -> good AI (m_to_buf C s (bytes_set (mc_buf s) i c)).
Proof. intros H. apply to_buf_good; [exact H|apply bytes_set_not_undef|]. intros x Hx. rewrite (bytes_set_len _ _ _ _ Hx). apply H. Qed.
Lemma m_add_good fuel : forall s src ofs len, AI s -> good AI (m_add C fuel s src ofs len).
Proof.
  induction fuel as [|f IH]; intros s src ofs len H; cbn [m_add]; [split; [exact H|discriminate]|].
  destruct (len <=? 0); [now apply good_ret|]. destruct (_ <=? bs).
  - apply good_bind; [now apply blit_buf_good|]. intros s' u E Hs'. apply good_ret.
    unfold m_to_buf in E. destruct (blit _ _ _ _ _) as [x|e| |] eqn:Eb; try discriminate. injection E as <- _.
    apply blit_range in Eb. destruct H as (H1 & H2 & H3 & H4). apply AI_used; [exact Hs'|]. cbn [mc_used]. lia.
  - apply good_bind; [now apply blit_buf_good|]. intros s1 u1 _ Hs1.
    apply good_bind; [now apply m_block_good|]. intros s2 u2 _ Hs2. apply IH. apply AI_used; [exact Hs2|lia].
Qed.
Lemma mac_char_good s c : AI s -> good AI (mac_add_char C s c).
Proof.
  intros H. unfold mac_add_char. destruct (Z.ltb_spec (mc_used s) bs) as [L|L].
  - apply good_bind; [now apply set_buf_good|]. intros s1 u E H1. apply good_ret.
    unfold m_to_buf in E. destruct (bytes_set _ _ _) eqn:Eb; try discriminate. injection E as <- _. destruct H as (_ & _ & H2 & _).
    apply AI_used; [exact H1|]. cbn [mc_used]. lia.
  - apply good_bind; [now apply m_block_good|]. intros s1 u _ H1. apply good_bind; [now apply set_buf_good|]. intros s2 u2 _ H2.
    apply good_ret. apply AI_used; [exact H2|]. lia.
Qed.
Lemma mac_result_good p s : match p with Some p => scheme_good p | None => True end -> AI s -> good AI (mac_result C p s).
Proof.
  intros Hp H. unfold mac_result. apply good_bind.
  - destruct (_ =? _); [|now apply good_ret]. apply good_bind; [now apply m_block_good|]. intros s1 u _ H1. apply good_ret. apply AI_used; [exact H1|lia].
  - intros s1 u _ H1. apply good_bind.
    + destruct p as [p|].
      * apply good_bind; [destruct Hp as (Hp & _); destruct (Hp (mc_buf s1) (mc_used s1)) as (P1 & P2); apply to_buf_good; [exact H1|exact P1|intros x Hx; rewrite (P2 x Hx); apply H1]|].
        intros s2 u2 _ H2. apply good_bind; [now apply m_block_good|]. intros s3 u3 _ H3. apply good_ret. apply AI_used; [exact H3|lia].
      * destruct (negb _); [now apply good_raise|now apply good_ret].
    + intros s2 u2 _ H2. now apply good_ret.
Qed.
Lemma mac_wipe_good s : (forall c, I c -> I (bc_wipe C c)) -> AI s -> good AI (mac_wipe C s).
Proof.
  intros Hw (H1 & H2 & H3 & H4). unfold mac_wipe. apply good_ret. apply AI_intro; cbn [mc_iv mc_buf mc_used mc_c]; rewrite ?zlen_zeros by lia; try assumption. now apply Hw.
Qed.
Lemma mac_with_good (w : bool) res : (forall s, AI s -> good AI (res s)) -> (w = true -> forall c, I c -> I (bc_wipe C c)) -> h_good w (mac_with C res (mac_wipe C)) AI.
Proof.
  intros Hr Hw s o Hs Hp Ho. destruct o as [b ofs len|str|c|n| |]; cbn [h_step mac_with h_add_substring h_add_string h_add_char h_add_byte h_result h_wipe].
  - apply unit_obs_good. now apply m_add_good.
  - apply unit_obs_good. now apply m_add_good.
  - apply unit_obs_good. now apply mac_char_good.
  - apply unit_obs_good. now apply mac_char_good.
  - apply bytes_obs_good. now apply Hr.
  - apply unit_obs_good. destruct Ho as [Ho|Ho]; [|now destruct Ho]. apply mac_wipe_good; [now apply Hw|exact Hs].
Qed.
Lemma cmac_result_good k1 k2 s : zlen k1 = bs -> zlen k2 = bs -> AI s -> good AI (cmac_result C k1 k2 s).
Proof.
  intros L1 L2 H. unfold cmac_result. cbv zeta. apply good_bind.
  - destruct (_ =? _); [now apply good_ret|]. destruct p8000_good as (Hp & _). destruct (Hp (mc_buf s) (mc_used s)) as (P1 & P2).
    apply to_buf_good; [exact H|exact P1|]. intros x Hx. rewrite (P2 x Hx). apply H.
  - intros s1 u1 _ H1. apply good_bind; [apply xor_buf_good; [exact H1|apply H1]|]. intros s2 u2 _ H2.
    apply good_bind; [apply xor_buf_good; [exact H2|destruct (_ =? _); assumption]|]. intros s3 u3 _ H3. apply good_bind; [now apply m_transform_good|].
    intros s4 u4 _ H4. apply good_ret. apply AI_used; [exact H4|lia].
Qed.
(* the state of CMAC *)
Definition CMI (s : mst C * (bytes * bytes)) : Prop := AI (fst s) /\ zlen (fst (snd s)) = bs /\ zlen (snd (snd s)) = bs.
Lemma c_on_good {A} s (r : mst C * out A) : CMI s -> good AI r -> good CMI (c_on C s r).
Proof. intros (H1 & H2 & H3) (G1 & G2). split; [exact (conj G1 (conj H2 H3))|exact G2]. Qed.
Lemma cmac_class_good (w : bool) : (w = true -> forall c, I c -> I (bc_wipe C c)) -> h_good w (cmac C) CMI.
Proof.
  intros Hw s o Hs Hp Ho. pose proof Hs as (H1 & H2 & H3). destruct o as [b ofs len|str|c|n| |]; cbn [h_step cmac h_add_substring h_add_string h_add_char h_add_byte h_result h_wipe].
  - apply unit_obs_good. apply c_on_good; [exact Hs|]. now apply m_add_good.
  - apply unit_obs_good. apply c_on_good; [exact Hs|]. now apply m_add_good.
  - apply unit_obs_good. apply c_on_good; [exact Hs|]. now apply mac_char_good.
  - apply unit_obs_good. apply c_on_good; [exact Hs|]. now apply mac_char_good.
  - apply bytes_obs_good. apply c_on_good; [exact Hs|]. now apply cmac_result_good.
  - apply unit_obs_good. destruct Ho as [Ho|Ho]; [|now destruct Ho]. unfold cmac_wipe. apply good_bind; [apply c_on_good; [exact Hs|]; apply mac_wipe_good; [now apply Hw|exact H1]|].
    intros s1 u1 _ (A1 & A2 & A3). apply good_ret. refine (conj A1 (conj _ _)); cbn [fst snd]; rewrite zlen_zeros by apply zlen_nonneg; assumption.
Qed.
Lemma mac_init_good fresh iv c m : (forall n, 0 <= n -> zlen (fresh n) = n) -> I c -> mac_init fresh C iv c = Ret m -> AI m.
Proof.
  intros F Hc. unfold mac_init, make_initial_iv. destruct iv as [v|].
  - destruct (Z.eqb_spec (zlen v) bs) as [E|_]; [|discriminate]. cbn [obind]. intros H. injection H as <-. apply AI_intro; cbn [mc_iv mc_buf mc_used mc_c]; rewrite ?F by lia; try assumption; lia.
  - cbn [obind]. intros H. injection H as <-. apply AI_intro; cbn [mc_iv mc_buf mc_used mc_c]; rewrite ?F, ?zlen_zeros by lia; try assumption; lia.
Qed.
End Mac.

Section Objs.
Variable fresh : Z -> bytes.
Hypothesis fresh_len : forall n, 0 <= n -> zlen (fresh n) = n.
Definition mac_pad_ok (p : option padding) : match option_map scheme_of p with Some p => scheme_good p | None => True end.
Proof. destruct p as [p|]; [apply scheme_of_good|exact Logic.I]. Qed.
Lemma block_mac_good (w : bool) nb iv p key o : (forall c, nb key = Ret c -> b_good w c) -> block_mac fresh nb iv (option_map scheme_of p) key = Ret o ->
  unwiped_hash_safe (ho_class o) (ho_st o) /\ (w = true -> hash_memory_safe (ho_class o) (ho_st o)).
Proof.
  intros Hn. unfold block_mac. destruct (nb key) as [c|e| |]; cbn [obind]; try discriminate. destruct (Hn c eq_refl) as (I & G & HI & Hbs & Hw). destruct c as [C c0]. cbn [b_bc b_st] in *.
  unfold mac_new. cbn [b_bc b_st]. destruct (mac_init fresh C iv c0) as [s|e| |] eqn:Es; cbn [obind]; try discriminate. apply (mac_init_good C I Hbs) in Es; try assumption.
  intros E. apply ret_inj in E. subst o. cbn [ho_class ho_st].
  assert (h_good w (mac C (option_map scheme_of p)) (AI C I)) as HG.
  { apply mac_with_good; try assumption. intros x Hx. apply mac_result_good; try assumption. apply mac_pad_ok. }
  split; [now apply (h_good_unwiped w (mac C (option_map scheme_of p)) (AI C I))|]. intros ->. now apply (h_good_safe (mac C (option_map scheme_of p)) (AI C I)).
Qed.
Lemma subkey_len b src k : zlen b = 16 -> zlen src = 16 -> subkey fresh b src = Ret k -> zlen k = 16.
Proof.
  intros Hb Hs. unfold subkey, shl1_bytes. pose proof (fresh_len 16 ltac:(lia)) as F. generalize dependent (fresh 16). intros dst F.
  assert (forall cnt d carry r, shl1_loop cnt src 0 d 0 carry = Ret r -> zlen r = zlen d) as Hl.
  { induction cnt as [|i IH]; intros d carry r; cbn [shl1_loop]; [congruence|]. destruct (bytes_get _ _); cbn [obind]; try discriminate.
    destruct (bytes_set _ _ _) as [d'|e| |] eqn:Ed; cbn [obind]; try discriminate. intros E. rewrite (IH _ _ _ E). now apply bytes_set_len in Ed. }
  destruct (shl1_loop _ _ _ _ _ _) as [x|e| |] eqn:Ex; cbn [obind]; try discriminate. apply Hl in Ex. destruct (bytes_get src 0); cbn [obind]; try discriminate.
  destruct (_ >? 0); [|intros E; injection E as <-; lia]. destruct (xor_bytes_safe b 0 x 0 16) as (y & -> & Ly); try lia. intros E. injection E as <-. lia.
Qed.
Lemma cmac_good nb iv key o : (forall c, nb key = Ret c -> b_good false c /\ bc_blocksize (b_bc c) = 16) -> aes_cmac fresh nb iv key = Ret o ->
  unwiped_hash_safe (ho_class o) (ho_st o).
Proof.
  intros Hn. unfold aes_cmac. destruct (nb key) as [c|e| |]; cbn [obind]; try discriminate. destruct (Hn c eq_refl) as ((I & G & HI & Hbs & Hw) & H16). destruct c as [C c0]. cbn [b_bc b_st] in *.
  destruct (G c0 (zeros 16) 0 (fresh 16) 0) as ((K1 & K2) & K3); rewrite ?H16, ?zlen_zeros, ?fresh_len by lia; try lia; try assumption.
  rewrite fresh_len in K2 by lia. destruct (bc_transform C c0 (zeros 16) 0 (fresh 16) 0) as [[c1 l] [u|e| |]]; cbn [fst snd obind] in *; try discriminate.
  destruct (bytes_set (zeros 16) 15 0x87) as [b|e| |] eqn:Eb; cbn [obind]; try discriminate. apply bytes_set_len in Eb. rewrite zlen_zeros in Eb by lia.
  destruct (subkey fresh b l) as [k1|e| |] eqn:E1; cbn [obind]; try discriminate. apply subkey_len in E1; try assumption.
  destruct (subkey fresh b k1) as [k2|e| |] eqn:E2; cbn [obind]; try discriminate. apply subkey_len in E2; try assumption.
  unfold cmac_new. cbn [b_bc b_st]. destruct (mac_init fresh C iv c1) as [s|e| |] eqn:Es; cbn [obind]; try discriminate. apply (mac_init_good C I Hbs) in Es; try assumption.
  intros E. apply ret_inj in E. subst o. cbn [ho_class ho_st]. apply (h_good_unwiped false (cmac C) (CMI C I)); [now apply cmac_class_good|].
  refine (conj Es (conj _ _)); cbn [fst snd]; lia.
Qed.

Section Triple.
Variables C1 C2 C3 : block_cipher.
Variable I1 : bc_st C1 -> Prop. Variable I2 : bc_st C2 -> Prop. Variable I3 : bc_st C3 -> Prop.
Hypothesis G1 : bc_good C1 I1. Hypothesis G2 : bc_good C2 I2. Hypothesis G3 : bc_good C3 I3.
Hypothesis B1 : 0 < bc_blocksize C1 <= 2 ^ 40.
Hypothesis B2 : bc_blocksize C2 = bc_blocksize C1. Hypothesis B3 : bc_blocksize C3 = bc_blocksize C1.
Definition TI (s : mst C1 * bc_st C2 * bc_st C3) : Prop := AI C1 I1 (fst (fst s)) /\ I2 (snd (fst s)) /\ I3 (snd s).
Lemma on_mac_good {A} (f : mst C1 -> mst C1 * out A) s : TI s -> good (AI C1 I1) (f (fst (fst s))) -> good TI (t_on_mac C1 C2 C3 f s).
Proof.
  intros (H1 & H2 & H3) (K1 & K2). unfold t_on_mac, lift. destruct (f (fst (fst s))) as [m o]. cbn [fst snd] in *. split; [|exact K2]. split; [exact K1|split; assumption].
Qed.
Lemma triple_result_good p s : match p with Some p => scheme_good p | None => True end -> TI s -> good TI (triple_result C1 C2 C3 p s).
Proof.
  intros Hp Hs. unfold triple_result. apply good_bind; [apply on_mac_good; [exact Hs|]; apply mac_result_good; try assumption; apply Hs|].
  intros s1 r E H1. assert (zlen r = bc_blocksize C1) as Lr.
  { destruct H1 as ((L & _) & _). revert E L. unfold t_on_mac, lift, mac_result. destruct (if _ =? _ then _ else _) as [sa [ua|e| |]]; cbn [bind]; try discriminate.
    match goal with |- context [bind ?x _] => destruct x as [sb [ub|e| |]] end; cbn [bind]; try discriminate. intros E. injection E as <- <-. cbn [fst]. easy. }
  destruct H1 as (H1 & H2 & H3). destruct (G2 (snd (fst s1)) r 0 r 0) as ((K1 & K2) & K3); try assumption; try lia.
  destruct (bc_transform C2 (snd (fst s1)) r 0 r 0) as [[c2 r2] o2]. cbn [fst snd] in *. apply good_bind.
  { split; [split; [exact H1|split; assumption]|]. destruct o2; cbn [obind snd]; try discriminate. now destruct K3. }
  intros s2 r2' E2 (H1' & H2' & H3'). destruct o2; cbn [obind] in E2; try discriminate. assert (r2 = r2') as <- by congruence.
  destruct (G3 (snd s2) r2 0 r2 0) as ((J1 & J2) & J3); try assumption; try lia.
  destruct (bc_transform C3 (snd s2) r2 0 r2 0) as [[c3 r3] o3]. cbn [fst snd] in *. split; [split; [exact H1'|split; assumption]|]. destruct o3; cbn [obind snd]; try discriminate. now destruct J3.
Qed.
Lemma triple_good p : match p with Some p => scheme_good p | None => True end ->
  (forall c, I1 c -> I1 (bc_wipe C1 c)) -> (forall c, I2 c -> I2 (bc_wipe C2 c)) -> (forall c, I3 c -> I3 (bc_wipe C3 c)) -> h_good true (mac_final_triple C1 C2 C3 p) TI.
Proof.
  intros Hp W1 W2 W3 s o Hs Hop _. assert (AI C1 I1 (fst (fst s))) as Hm by apply Hs.
  destruct o as [b ofs len|str|c|n| |]; cbn [h_step mac_final_triple h_add_substring h_add_string h_add_char h_add_byte h_result h_wipe mac mac_with].
  - apply unit_obs_good, on_mac_good; [exact Hs|]. now apply m_add_good.
  - apply unit_obs_good, on_mac_good; [exact Hs|]. now apply m_add_good.
  - apply unit_obs_good, on_mac_good; [exact Hs|]. now apply mac_char_good.
  - apply unit_obs_good, on_mac_good; [exact Hs|]. now apply mac_char_good.
  - apply bytes_obs_good. now apply triple_result_good.
  - apply unit_obs_good. apply good_bind; [apply on_mac_good; [exact Hs|]; now apply mac_wipe_good|]. intros s1 u _ (H1 & H2 & H3).
    apply good_ret. split; [exact H1|split; [now apply W2|now apply W3]].
Qed.
End Triple.
Lemma des_triple_good iv p key o : des_final_triple_des fresh new_des iv (option_map scheme_of p) key = Ret o -> hash_memory_safe (ho_class o) (ho_st o).
Proof.
  unfold des_final_triple_des. destruct (_ && _); [discriminate|]. destruct (bytes_sub key 0 8) as [k1|e| |]; cbn [obind]; try discriminate.
  destruct (bytes_sub key 8 8) as [k2|e| |]; cbn [obind]; try discriminate. match goal with |- context [obind ?x _] => destruct x as [k3|e| |] end; cbn [obind]; try discriminate.
  destruct (new_des Encrypt k1) as [c1|e| |] eqn:E1; cbn [obind]; try discriminate. destruct (new_des Decrypt k2) as [c2|e| |] eqn:E2; cbn [obind]; try discriminate.
  destruct (new_des Encrypt k3) as [c3|e| |] eqn:E3; cbn [obind]; try discriminate.
  apply new_des_good in E1. apply new_des_good in E2. apply new_des_good in E3.
  destruct E1 as (I1 & G1 & H1 & B1 & W1), E2 as (I2 & G2 & H2 & B2 & W2), E3 as (I3 & G3 & H3 & B3 & W3). destruct c1 as [C1 s1], c2 as [C2 s2], c3 as [C3 s3]. cbn [b_bc b_st] in *.
  unfold mac_final_triple_new. cbn [b_bc b_st]. destruct (Z.eqb_spec (bc_blocksize C1) (bc_blocksize C2)) as [A1|_]; [|discriminate].
  destruct (Z.eqb_spec (bc_blocksize C2) (bc_blocksize C3)) as [A2|_]; [|discriminate]. cbn [negb orb].
  destruct (mac_init fresh C1 iv s1) as [m|e| |] eqn:Em; cbn [obind]; try discriminate. apply (mac_init_good C1 I1 B1) in Em; try assumption.
  intros E. apply ret_inj in E. subst o. cbn [ho_class ho_st].
  apply (h_good_safe (mac_final_triple C1 C2 C3 (option_map scheme_of p)) (TI C1 C2 C3 I1 I2 I3)).
  - apply triple_good; try assumption; try lia; [apply mac_pad_ok|now apply W1|now apply W2|now apply W3].
  - split; [exact Em|split; assumption].
Qed.
End Objs.
