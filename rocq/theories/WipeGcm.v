(* Memory safety of AES-GCM objects as long as wipe is not called *)
From Verif Require Import Prelude PreludeFacts BytesNum SpecTransducer BufOutModel BufOut TransformModel BlockModel CipherModel EncModel HashModel MacModel GhashModel AuthModel AeadModel PolyModel
  SpecWipe SpecWipe2 WipeSafe CipherSpec WipeCipher WipeHash WipeMac WipeApi WipeComp WipeAuth AesModel AesniModel AeadApi.

Definition gh_ok (h : ghash_ctx) : Prop := match h with GKey k => zlen k = 16 | GTab _ => True end.
Lemma pclmul_len a b : zlen (pclmul_mult a b) = 16.
Proof. unfold pclmul_mult. cbv zeta. unfold zlen. rewrite rev_length, length_to_le. reflexivity. Qed.
Lemma tab_len t b : zlen (tab_mult t b) = 16.
Proof. unfold tab_mult. destruct (fold_left _ _ _) as [zh zl]. rewrite zlen_app. reflexivity. Qed.
Lemma mult_ok h x : gh_ok h -> zlen x = 16 -> exists r, ghash_mult h x = Ret r /\ zlen r = 16.
Proof.
  intros H L. unfold ghash_mult. rewrite L. change (16 <? 16) with false. cbv iota. destruct h as [k|t]; cbn in H.
  - rewrite H. change (16 <? 16) with false. cbv iota. eexists. split; [reflexivity|]. rewrite zlen_splice; rewrite ?pclmul_len; lia.
  - eexists. split; [reflexivity|]. rewrite zlen_splice; rewrite ?tab_len; lia.
Qed.
Lemma block_ok h mac buf ofs len : gh_ok h -> zlen mac = 16 -> 0 <= ofs -> 0 <= len <= 16 -> ofs + len <= zlen buf -> exists r, ghash_block h mac buf ofs len = Ret r /\ zlen r = 16.
Proof.
  intros H L A1 A2 A3. unfold ghash_block. destruct (xor_bytes_safe buf ofs mac 0 len) as (m & -> & Lm); try lia. cbn [obind]. apply mult_ok; [exact H|lia].
Qed.
Lemma string_ok h msg : gh_ok h -> ghash_string h msg <> Undef /\ forall r, ghash_string h msg = Ret r -> zlen r = 16.
Proof.
  intros H. unfold ghash_string. assert (G : forall f mac i, zlen mac = 16 -> 0 <= i -> ghash_string_loop f h mac msg i <> Undef /\ forall r, ghash_string_loop f h mac msg i = Ret r -> zlen r = 16); [|now apply G].
  induction f as [|f IH]; intros mac i L Hi; cbn [ghash_string_loop]; [split; discriminate|]. destruct (_ <=? _) eqn:E.
  - destruct (block_ok h mac msg i 16 H L) as (r & -> & Lr); try lia. cbn [obind]. apply IH; lia.
  - destruct (_ <? _) eqn:E2.
    + destruct (block_ok h mac msg i (zlen msg - i) H L) as (r & -> & Lr); try lia. split; [discriminate|]. intros r' E'. apply ret_inj in E'. now subst r'.
    + split; [discriminate|]. intros r' E'. apply ret_inj in E'. now subst r'.
Qed.

Section Fresh.
Variable fresh : Z -> bytes.
Hypothesis fresh_len : forall n, 0 <= n -> zlen (fresh n) = n.
Lemma set64be_ok b o x : 0 <= o -> o + 8 <= zlen b -> exists r, set_int64_be b o x = Ret r /\ zlen r = zlen b.
Proof.
  intros H1 H2. unfold set_int64_be. rewrite (proj2 (in_range_true _ _ _)) by lia. eexists. split; [reflexivity|]. apply zlen_splice; [lia|]. rewrite zlen_to_be. lia.
Qed.
Lemma blit_ok src so dst d n : 0 <= so -> 0 <= n -> so + n <= zlen src -> 0 <= d -> d + n <= zlen dst -> exists r, blit src so dst d n = Ret r /\ zlen r = zlen dst.
Proof.
  intros A1 A2 A3 A4 A5. destruct (blit src so dst d n) as [r|e| |] eqn:E.
  - exists r. split; [reflexivity|]. exact (blit_len _ _ _ _ _ _ E).
  - unfold blit in E. rewrite !(proj2 (in_range_true _ _ _)) in E by lia. discriminate E.
  - now apply blit_not_undef in E.
  - unfold blit in E. rewrite !(proj2 (in_range_true _ _ _)) in E by lia. discriminate E.
Qed.
Lemma final_ok h mac hl cl e0 : gh_ok h -> zlen mac = 16 -> zlen e0 = 16 -> exists m t, ghash_final fresh h mac hl cl e0 = Ret (m, t) /\ zlen m = 16.
Proof.
  intros H L1 L2. unfold ghash_final. cbv zeta. pose proof (fresh_len 16 ltac:(lia)) as F.
  destruct (set64be_ok (fresh 16) 0 (hl * 8)) as (b1 & -> & K1); try lia. cbn [obind]. destruct (set64be_ok b1 8 (cl * 8)) as (b2 & -> & K2); try lia. cbn [obind].
  destruct (block_ok h mac b2 0 16 H L1) as (m & -> & Lm); try lia. cbn [obind]. destruct (blit_ok m 0 b2 0 16) as (b3 & -> & K3); try lia. cbn [obind].
  destruct (xor_bytes_safe e0 0 b3 0 16) as (t & -> & Lt); try lia. cbn [obind]. now exists m, t.
Qed.

Section Gcm.
Variable A : block_cipher.
Variable I : bc_st A -> Prop.
Hypothesis A_good : bc_good A I.
Hypothesis A_16 : bc_blocksize A = 16.
Variable h : ghash_ctx.
Hypothesis H_ok : gh_ok h.
Definition GI (s : gst A) : Prop := I (g_aes s) /\ zlen (g_ctr s) = 16 /\ zlen (g_buf s) = 16 /\ zlen (g_mac s) = 16.
Definition GP L (s : gst A * bytes) : Prop := GI (fst s) /\ zlen (snd s) = L.
Lemma to_ctr_good L s r : GP L s -> r <> Undef -> (forall x, r = Ret x -> zlen x = 16) -> good (GP L) (to_ctr A s r).
Proof. intros H Hu Hl. destruct r as [x|e| |]; [|now apply good_raise|now destruct Hu|split; [exact H|discriminate]]. apply good_ret. destruct H as ((H1 & H2 & H3 & H4) & H5). split; [|exact H5]. split; [exact H1|split; [now apply Hl|now split]]. Qed.
Lemma to_buf_good L s r : GP L s -> r <> Undef -> (forall x, r = Ret x -> zlen x = 16) -> good (GP L) (to_buf A s r).
Proof. intros H Hu Hl. destruct r as [x|e| |]; [|now apply good_raise|now destruct Hu|split; [exact H|discriminate]]. apply good_ret. destruct H as ((H1 & H2 & H3 & H4) & H5). split; [|exact H5]. split; [exact H1|split; [exact H2|split; [now apply Hl|exact H4]]]. Qed.
Lemma to_mac_good L s r : GP L s -> r <> Undef -> (forall x, r = Ret x -> zlen x = 16) -> good (GP L) (to_mac A s r).
Proof. intros H Hu Hl. destruct r as [x|e| |]; [|now apply good_raise|now destruct Hu|split; [exact H|discriminate]]. apply good_ret. destruct H as ((H1 & H2 & H3 & H4) & H5). split; [|exact H5]. split; [exact H1|split; [exact H2|split; [exact H3|now apply Hl]]]. Qed.
Lemma to_dst_good L s r : GP L s -> r <> Undef -> (forall x, r = Ret x -> zlen x = L) -> good (GP L) (to_dst A s r).
Proof. intros H Hu Hl. destruct r as [x|e| |]; [|now apply good_raise|now destruct Hu|split; [exact H|discriminate]]. apply good_ret. destruct H as (H1 & H5). split; [exact H1|now apply Hl]. Qed.
Lemma mac_good L s buf ofs len : GP L s -> 0 <= ofs -> 0 <= len <= 16 -> ofs + len <= zlen buf -> good (GP L) (to_mac A s (ghash_block h (g_mac (fst s)) buf ofs len)).
Proof.
  intros H A1 A2 A3. destruct (block_ok h (g_mac (fst s)) buf ofs len H_ok) as (r & Er & Lr); [apply H|lia..|]. apply to_mac_good; [exact H|rewrite Er; discriminate|]. intros x Ex. congruence.
Qed.
Lemma ctr_enc_dec_good L s src soff doff len : GP L s -> 0 <= soff -> 0 <= len <= 16 -> soff + len <= zlen src -> good (GP L) (ctr_enc_dec A s src soff doff len).
Proof.
  intros H A1 A2 A3. unfold ctr_enc_dec. apply good_bind.
  { destruct (increment_counter_safe (g_ctr (fst s)) 12 15) as (K1 & K2). apply to_ctr_good; [exact H|exact K1|]. intros x Ex. rewrite (K2 x Ex). apply H. }
  intros s1 u1 _ H1. cbv zeta. apply good_bind.
  { destruct H1 as ((B1 & B2 & B3 & B4) & B5). destruct (A_good (g_aes (fst s1)) (g_ctr (fst s1)) 0 (g_buf (fst s1)) 0 B1) as ((K1 & K2) & K3); try lia.
    destruct (bc_transform A (g_aes (fst s1)) (g_ctr (fst s1)) 0 (g_buf (fst s1)) 0) as [[c' b'] r]. cbn [fst snd] in *. split; [|exact K3]. split; [|exact B5]. cbn [fst]. split; [exact K1|split; [exact B2|split; [cbn [g_buf]; lia|exact B4]]]. }
  intros s2 u2 _ H2. apply good_bind.
  { destruct (xor_bytes_safe src soff (g_buf (fst s2)) 0 len) as (r & Er & Lr); [lia..|destruct H2 as ((_ & _ & E & _) & _); lia|]. apply to_buf_good; [exact H2|rewrite Er; discriminate|].
    intros x Ex. destruct H2 as ((_ & _ & E & _) & _). assert (x = r) by congruence. subst x. lia. }
  intros s3 u3 _ H3. apply to_dst_good; [exact H3|apply blit_not_undef|]. intros x Ex. rewrite (blit_len _ _ _ _ _ _ Ex). apply H3.
Qed.
Lemma add_clen_GI s n : GI s -> GI (add_clen A s n). Proof. intros H. exact H. Qed.
Lemma check_good L s : GP L s -> good (GP L) (AeadModel.gcm_check A s).
Proof. intros H. unfold AeadModel.gcm_check. destruct (_ >? _); [now apply good_raise|now apply good_ret]. Qed.
Lemma enc_wrapped_good : bc_good (gcm_enc_wrapped A h) GI.
Proof.
  intros m src so dst d HI A1 A2 A3 A4. cbn [gcm_enc_wrapped bc_transform bc_blocksize] in *.
  apply (good_weaken (GP (zlen dst))); [|intros HH; exact HH]. apply good_bind; [apply ctr_enc_dec_good; [now split|lia..]|]. intros s1 u1 _ H1.
  apply good_bind; [apply mac_good; [exact H1|lia|lia|destruct H1 as (_ & E); lia]|]. intros s2 u2 _ H2. apply check_good. destruct H2 as (H2 & H3). split; [exact H2|exact H3].
Qed.
Lemma dec_wrapped_good : bc_good (gcm_dec_wrapped A h) GI.
Proof.
  intros m src so dst d HI A1 A2 A3 A4. cbn [gcm_dec_wrapped bc_transform bc_blocksize] in *. cbv zeta.
  apply (good_weaken (GP (zlen dst))); [|intros HH; exact HH]. apply good_bind; [apply mac_good; [now split|lia..]|]. intros s1 u1 _ H1.
  apply good_bind; [apply ctr_enc_dec_good; [exact H1|lia..]|]. intros s2 u2 _ H2. apply good_ret. exact H2.
Qed.

Section Finish.
Variable C : block_cipher.
Variables (get : bc_st C -> gst A) (put : gst A -> bc_st C) (J : bc_st C -> Prop).
Hypothesis C_16 : bc_blocksize C = 16.
Hypothesis J_get : forall x, J x -> GI (get x).
Hypothesis J_put : forall y, GI y -> J (put y).
Lemma on_obuf_good s f : CI C J s -> (forall x, GP (zlen (obuf (c_bo C s))) x -> good (GP (zlen (obuf (c_bo C s)))) (f x)) -> good (fun s' => CI C J s' /\ oend (c_bo C s') = oend (c_bo C s) /\ zlen (obuf (c_bo C s')) = zlen (obuf (c_bo C s)) /\ c_used C s' = c_used C s /\ c_ibuf C s' = c_ibuf C s) (on_obuf fresh A C get put s f).
Proof.
  intros (H1 & H2 & H3 & H4) Hf. unfold on_obuf. cbv zeta. pose proof (J_get _ H4) as (G1 & G2 & G3 & G4).
  set (x0 := (GST _ _ _ _ _, _)). assert (GP (zlen (obuf (c_bo C s))) x0) as Hx.
  { split; [|reflexivity]. subst x0. cbn [fst]. split; [exact G1|split; [exact G2|split; [apply fresh_len; lia|exact G4]]]. }
  destruct (Hf x0 Hx) as (K1 & K2). destruct (f x0) as [[g' b'] r]. cbn [fst snd] in *. destruct K1 as ((K3 & K4 & K5 & K6) & K7). cbn [fst snd] in *. split; [|exact K2]. cbn [fst]. split.
  - split; [exact H1|split; [exact H2|split]].
    + cbn [c_bo]. destruct H3 as (B1 & B2 & B3). unfold bo_inv. cbn [obuf obeg oend]. rewrite K7. lia.
    + cbn [c_c]. apply J_put. split; [exact K3|split; [exact K4|split; [exact G3|exact K6]]].
  - cbn [c_bo oend obuf c_used c_ibuf]. now repeat split.
Qed.
Lemma on_obuf_good' s f : CI C J s -> (forall x, GP (zlen (obuf (c_bo C s))) x -> good (GP (zlen (obuf (c_bo C s)))) (f x)) -> good (CI C J) (on_obuf fresh A C get put s f).
Proof. intros H Hf. apply (good_weaken _ _ _ (on_obuf_good s f H Hf)). intros K. apply K. Qed.
Lemma tag_good hl e0 s : zlen e0 = 16 -> CI C J s -> good (CI C J) (gcm_tag fresh A C get put h hl e0 s).
Proof.
  intros He (H1 & H2 & H3 & H4). unfold gcm_tag. cbv zeta. pose proof (J_get _ H4) as (G1 & G2 & G3 & G4). destruct (final_ok h (g_mac (get (c_c C s))) hl (g_clen (get (c_c C s))) e0 H_ok G4 He) as (m & t & -> & Lm).
  apply good_ret. split; [exact H1|split; [exact H2|split; [exact H3|]]]. cbn [c_c]. apply J_put. split; [exact G1|split; [exact G2|now split]].
Qed.
(* room for n bytes after the end *)
Lemma adv_good s n : CI C J s -> 0 <= n -> oend (c_bo C s) + n <= zlen (obuf (c_bo C s)) -> CI C J (adv_oend C s n).
Proof.
  intros (H1 & H2 & H3 & H4) Hn Hr. split; [exact H1|split; [exact H2|split; [|exact H4]]]. unfold adv_oend, set_bo. cbn [c_bo]. destruct H3 as (B1 & B2 & B3). unfold bo_inv. cbn [obuf obeg oend]. lia.
Qed.
(* the state seen by the calls after ensure_capacity *)
Lemma set_bo_ensure s n s' u : lift (set_bo C s) (ensure_capacity fresh (c_bo C s) n) = (s', Ret u) -> CI C J s -> 0 <= n <= 2 ^ 60 ->
  CI C J s' /\ oend (c_bo C s') + n <= zlen (obuf (c_bo C s')) /\ c_used C s' = c_used C s /\ c_ibuf C s' = c_ibuf C s.
Proof.
  intros E H Hn. pose proof H as (H1 & H2 & H3 & H4). destruct (ensure_good fresh fresh_len (c_bo C s) n H3) as (G1 & G2).
  destruct (ensure_capacity fresh (c_bo C s) n) as [b r] eqn:Eb. unfold lift in E. injection E as <- ->. cbn [fst snd] in *. split; [now split; [|split; [|split]]|]. cbn [set_bo c_bo c_used c_ibuf]. split; [|now split].
  destruct u. exact (ensure_room fresh fresh_len _ _ _ H3 Hn Eb).
Qed.
Lemma ensure_ok s n : CI C J s -> good (CI C J) (lift (set_bo C s) (ensure_capacity fresh (c_bo C s) n)).
Proof. intros (H1 & H2 & H3 & H4). apply (good_lift bo_inv); [now apply ensure_good|]. intros x Hx. now split; [|split; [|split]]. Qed.
Lemma enc_finish_good hl e0 s : zlen e0 = 16 -> CI C J s -> good (CI C J) (gcm_enc_finish fresh A C get put h hl e0 s).
Proof.
  intros He Hs. unfold gcm_enc_finish. apply good_bind; [|intros s1 u1 _ H1; now apply tag_good]. destruct (_ >? 0) eqn:Eu; [|now apply good_ret].
  pose proof Hs as (L1 & L2 & _). rewrite C_16 in L1, L2. apply good_bind; [now apply ensure_ok|]. intros s1 u1 E1 _. destruct (set_bo_ensure _ _ _ _ E1 Hs) as (H1 & R1 & U1 & I1); [lia|]. clear E1 u1.
  pose proof (proj1 (proj2 (proj2 H1))) as (B1 & B2 & B3).
  match goal with |- good _ (let! (s, u) := on_obuf _ _ _ _ _ ?s0 ?f in _) => pose proof (on_obuf_good s0 f H1) as G end.
  match type of G with ?X -> _ => assert X as GX end.
  { intros x Hx. apply good_bind; [apply ctr_enc_dec_good; [exact Hx|lia..|rewrite I1; lia]|]. intros x1 u _ Hx1. apply mac_good; [exact Hx1|lia..|]. destruct Hx1 as (_ & E). rewrite E, U1. lia. }
  specialize (G GX). clear GX. destruct (on_obuf _ _ _ _ _ _ _) as [s2 [[]|e| |]]; cbn [bind]; destruct G as ((G1 & G2 & G3 & G4 & G5) & G6); cbn [fst snd] in *;
    [|now apply good_raise|now destruct G6|split; [exact G1|discriminate]].
  apply on_obuf_good'; [apply adv_good; [exact G1|rewrite G4; lia|lia]|]. intros x Hx. apply check_good. exact Hx.
Qed.
Lemma dec_finish_good hl e0 s : zlen e0 = 16 -> CI C J s -> good (CI C J) (gcm_dec_finish fresh A C get put h hl e0 s).
Proof.
  intros He Hs. unfold gcm_dec_finish. apply good_bind; [|intros s1 u1 _ H1; now apply tag_good]. destruct (_ >? 0) eqn:Eu; [|now apply good_ret].
  pose proof Hs as (L1 & L2 & _). rewrite C_16 in L1, L2.
  match goal with |- good _ (let! (s, u) := on_obuf _ _ _ _ _ ?s0 ?f in _) => pose proof (on_obuf_good s0 f Hs) as G end.
  match type of G with ?X -> _ => assert X as GX end.
  { intros x Hx. apply mac_good; [exact Hx|lia..]. }
  specialize (G GX). clear GX. destruct (on_obuf _ _ _ _ _ _ _) as [s0 [[]|e| |]]; cbn [bind]; destruct G as ((G1 & G2 & G3 & G4 & G5) & G6); cbn [fst snd] in *;
    [|now apply good_raise|now destruct G6|split; [exact G1|discriminate]].
  apply good_bind; [now apply ensure_ok|]. intros s1 u1 E1 _. destruct (set_bo_ensure _ _ _ _ E1 G1) as (H1 & R1 & U1 & I1); [lia|]. clear E1 u1.
  pose proof (proj1 (proj2 (proj2 H1))) as (B1 & B2 & B3).
  match goal with |- good _ (let! (s, u) := on_obuf _ _ _ _ _ ?s0 ?f in _) => pose proof (on_obuf_good s0 f H1) as G end.
  match type of G with ?X -> _ => assert X as GX end.
  { intros x Hx. apply ctr_enc_dec_good; [exact Hx|lia..|rewrite I1, G5; lia]. }
  specialize (G GX). clear GX. destruct (on_obuf _ _ _ _ _ _ _) as [s2 [[]|e| |]]; cbn [bind]; destruct G as ((K1 & K2 & K3 & K4 & K5) & K6); cbn [fst snd] in *;
    [|now apply good_raise|now destruct K6|split; [exact K1|discriminate]].
  apply on_obuf_good'; [apply adv_good; [exact K1|rewrite K4; lia|lia]|]. intros x Hx. apply good_ret. exact Hx.
Qed.
End Finish.
End Gcm.

Lemma setup_ok A I accel header iv aes h e0 g : bc_good A I -> bc_blocksize A = 16 -> I aes -> gcm_setup fresh A accel header iv aes = Ret (h, e0, g) -> gh_ok h /\ zlen e0 = 16 /\ GI A I g.
Proof.
  intros G B HI E. unfold gcm_setup in E. pose proof (fresh_len 16 ltac:(lia)) as F. unfold ghash_multiplier in E. cbv zeta in E.
  destruct (G aes (zeros 16) 0 (zeros 16) 0 HI) as ((K1 & K2) & K3); rewrite ?zlen_zeros in * by lia; try lia.
  destruct (bc_transform A aes (zeros 16) 0 (zeros 16) 0) as [[aes1 b1] [[]|e| |]]; cbn [fst snd bind obind] in *; try discriminate E.
  destruct (ghash_init accel b1) as [hh|e| |] eqn:Eh; cbn [obind] in E; try discriminate E.
  assert (gh_ok hh) as Hh. { unfold ghash_init in Eh. destruct accel; [apply ret_inj in Eh; subst hh; exact K2|]. destruct (_ <? _); [discriminate Eh|]. apply ret_inj in Eh. subst hh. exact Logic.I. }
  destruct (counter0 hh iv) as [ctr|e| |] eqn:Ec; cbn [obind] in E; try discriminate E.
  assert (zlen ctr = 16) as Lc.
  { unfold counter0 in Ec. destruct (_ =? 12) eqn:E12; [apply ret_inj in Ec; subst ctr; rewrite zlen_app; change (zlen [0; 0; 0; 1]) with 4; lia|].
    destruct (string_ok hh iv Hh) as (S1 & S2). destruct (ghash_string hh iv) as [mac|e| |]; cbn [obind] in Ec; try discriminate Ec. specialize (S2 mac eq_refl).
    destruct (set64be_ok (zeros 16) 8 (zlen iv * 8)) as (b2 & E2 & L2); rewrite ?zlen_zeros by lia; try lia. rewrite E2 in Ec. cbn [obind] in Ec. rewrite zlen_zeros in L2 by lia.
    destruct (block_ok hh mac b2 0 16 Hh S2) as (r & Er & Lr); try lia. congruence. }
  unfold enc_initial_counter in E. cbv zeta in E. destruct (G aes1 ctr 0 (fresh 16) 0 K1) as ((J1 & J2) & J3); try lia.
  destruct (bc_transform A aes1 ctr 0 (fresh 16) 0) as [[aes2 b2] [[]|e| |]]; cbn [fst snd bind obind] in *; try discriminate E.
  destruct (string_ok hh header Hh) as (S1 & S2). destruct (ghash_string hh header) as [mac|e| |]; cbn [obind] in E; try discriminate E. specialize (S2 mac eq_refl).
  apply ret_inj in E. injection E as <- <- <-. split; [exact Hh|split; [lia|]]. split; [exact J1|split; [exact Lc|split; [exact F|exact S2]]].
Qed.
Lemma gcm_obj_safe c accel nb header iv key d o : nb key = Ret c -> b_good false c -> bc_blocksize (b_bc c) = 16 -> aes_gcm fresh accel nb header iv key d = Ret o -> auth_memory_safe false (ao_class o) (ao_st o).
Proof.
  intros Ec (I & G & HI & _ & _) B E. unfold aes_gcm in E. rewrite Ec in E. cbn [obind] in E. cbv zeta in E. destruct c as [A aes]. cbn [b_bc b_st] in *.
  destruct (gcm_setup fresh A accel header iv aes) as [[[h e0] g]|e| |] eqn:Es; cbn [obind] in E; try discriminate E. apply (setup_ok A I) in Es; try assumption. destruct Es as (Hh & He & Hg). apply ret_inj in E. subst o.
  destruct d.
  - set (C := gcm_enc_wrapped A h). apply (a_safe_safe false (auth_of (cipher fresh C) 16 _) (CI C (GI A I))).
    + apply auth_of_safe; [|intros s Hs; apply (enc_finish_good A I G B h Hh C (fun x => x) (fun x => x) (GI A I)); [reflexivity|intros x Hx; exact Hx|intros x Hx; exact Hx|exact He|exact Hs]].
      apply cipher_safe; [exact fresh_len|now apply enc_wrapped_good|cbn; lia| |discriminate]. intros s Hs. apply (flush_good fresh fresh_len); [now apply enc_wrapped_good|cbn; lia|exact Hs].
    + apply cipher_new_good; [exact fresh_len|cbn; lia|exact Hg|cbn; lia].
  - set (C := gcm_dec_wrapped A h). apply (a_safe_safe false (auth_of (cipher fresh C) 16 _) (CI C (GI A I))).
    + apply auth_of_safe; [|intros s Hs; apply (dec_finish_good A I G B h Hh C (fun x => x) (fun x => x) (GI A I)); [reflexivity|intros x Hx; exact Hx|intros x Hx; exact Hx|exact He|exact Hs]].
      apply cipher_safe; [exact fresh_len|now apply dec_wrapped_good|cbn; lia| |discriminate]. intros s Hs. apply (flush_good fresh fresh_len); [now apply dec_wrapped_good|cbn; lia|exact Hs].
    + apply cipher_new_good; [exact fresh_len|cbn; lia|exact Hg|cbn; lia].
Qed.
Lemma lib_auth_memory w o : lib_auth fresh w o -> auth_memory_safe w (ao_class o) (ao_st o).
Proof.
  intros [tr h HT HH|tr h HT HH|P header iv key o0 HP HL E|accel nb header iv key d o0 Hw HA HB E].
  - destruct (lib_tr_safe fresh fresh_len w tr HT) as (P & G & Hs). pose proof (lib_h_safe fresh fresh_len w h HH) as Hh.
    apply (a_safe_safe w (transform_then_hash fresh (o_tr tr) (ho_class h)) (THI w (o_tr tr) (ho_class h) P)); [now apply (then_safe fresh fresh_len)|]. split; [exact Hs|split; [exact Hh|]].
    apply bo_new_inv; [exact fresh_len|unfold max_string_length; lia].
  - destruct (lib_tr_safe fresh fresh_len w tr HT) as (P & G & Hs). pose proof (lib_h_safe fresh fresh_len w h HH) as Hh.
    apply (a_safe_safe w (transform_and_hash (o_tr tr) (ho_class h)) (AHI w (o_tr tr) (ho_class h) P)); [now apply (and_safe)|]. now split.
  - apply auth_safe_weaken. now apply (chapoly_safe fresh fresh_len P header iv key).
  - subst w. assert (exists c, nb key = Ret c) as (c & Ec). { unfold aes_gcm in E. destruct (nb key) as [c|e| |]; try discriminate E. now exists c. }
    apply (gcm_obj_safe c accel nb header iv key d o0 Ec); [| |exact E].
    + destruct HA as [->| ->]; [exact (rijndael_good fresh fresh_len (new_aes fresh) key (or_introl eq_refl) HB Encrypt c Ec)|exact (rijndael_good fresh fresh_len (new_aesni fresh) key (or_intror eq_refl) HB Encrypt c Ec)].
    + clear E. destruct HA as [->| ->]; [unfold new_aes in Ec|unfold new_aesni in Ec]; destruct (aes_key_ok key); try discriminate Ec; [apply ret_inj in Ec; subst c; reflexivity|].
      destruct (aesniKeySetupEnc _ _ _); try discriminate Ec. apply ret_inj in Ec. subst c. reflexivity.
Qed.
End Fresh.
