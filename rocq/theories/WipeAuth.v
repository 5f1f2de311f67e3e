(* Memory safety of the authenticated transforms *)
From Verif Require Import Prelude PreludeFacts SpecTransducer BufOutModel BufOut TransformModel BlockModel CipherModel EncModel HashModel MacModel AuthModel AeadModel PolyModel BytesNum
  SpecWipe SpecWipe2 WipeSafe CipherSpec WipeCipher WipeHash WipeMac WipeApi WipeComp StreamModel AeadApi.

Definition a_safe (w : bool) (a : auth) (P : a_st a -> Prop) : Prop :=
  (forall s o, P s -> op_possible o -> o <> Flush -> o <> Finish -> P (fst (t_step (data_view a) s o)) /\ snd (t_step (data_view a) s o) <> OUndef) /\
  (forall s, P s -> good P (a_finish a s)) /\ (w = true -> forall s, P s -> good P (a_wipe a s)).
Lemma a_safe_run w a P : a_safe w a P -> forall l s, P s -> Forall aop_possible l -> w = true \/ ~ In AWipe l -> P (fst (a_run a s l)) /\ ~ In OUndef (snd (a_run a s l)).
Proof.
  intros (HT & HF & HW). induction l as [|x l IH]; intros s Hs Hl Hw; cbn [a_run]; [now split|]. inversion Hl; subst.
  assert (P (fst (a_step a s x)) /\ snd (a_step a s x) <> OUndef) as (G1 & G2).
  { destruct x as [o| |]; cbn [a_step].
    - match goal with H : aop_possible _ |- _ => destruct H as (K1 & K2 & K3) end. now apply HT.
    - apply bytes_obs_good. now apply HF.
    - apply unit_obs_good, HW; [|exact Hs]. destruct Hw as [Hw|Hw]; [exact Hw|]. elim Hw. now left. }
  destruct (a_step a s x) as [s1 ob]. cbn [fst snd] in *.
  destruct (IH s1 G1) as (I1 & I2); [assumption|destruct Hw as [Hw|Hw]; [now left|right; intros Hi; apply Hw; now right]|]. destruct (a_run a s1 l) as [s2 obs]. cbn [fst snd] in *. split; [exact I1|].
  intros [E|E]; [now apply G2|now apply I2].
Qed.
Lemma a_safe_safe w a P s : a_safe w a P -> P s -> auth_memory_safe w a s.
Proof. intros G Hs l Hl Hw. now apply (a_safe_run w _ P G). Qed.

(* a class that inherits a transform *)
Lemma auth_of_safe w T size fin P : t_safe w T P -> (forall s, P s -> good P (fin s)) -> a_safe w (auth_of T size fin) P.
Proof.
  intros (A1 & A2 & A3) Hf. split; [|split; [exact Hf|exact A2]]. intros s o Hs Ho N1 N2. pose proof (A1 s o Hs Ho) as G. destruct o; try exact G; [now destruct N1|now destruct N2].
Qed.

Section Fresh.
Variable fresh : Z -> bytes.
Hypothesis fresh_len : forall n, 0 <= n -> zlen (fresh n) = n.

(* ---------------- transform_then_hash ---------------- *)
Section Then.
Variables (w : bool) (T : transform) (H : hash) (P : t_st T -> Prop).
Hypothesis T_safe : t_safe w T P.
Definition THI (s : ths T H) : Prop := P (th_tr s) /\ hash_safe w H (th_h s) /\ bo_inv (th_bo s).
Lemma th_on_tr_good {A} s (r : t_st T * out A) : THI s -> good P r -> good THI (th_on_tr T H s r).
Proof. intros (H1 & H2 & H3) (G1 & G2). split; [now split; [|split]|exact G2]. Qed.
Lemma th_on_h_good {A} s (r : h_st H * out A) : THI s -> good (hash_safe w H) r -> good THI (th_on_h T H s r).
Proof. intros (H1 & H2 & H3) (G1 & G2). split; [now split; [|split]|exact G2]. Qed.
Lemma th_on_bo_good {A} s (r : bo * out A) : THI s -> good bo_inv r -> good THI (th_on_bo T H s r).
Proof. intros (H1 & H2 & H3) (G1 & G2). split; [now split; [|split]|exact G2]. Qed.
Lemma th_transfer_good s : THI s -> good THI (th_transfer fresh T H s).
Proof.
  destruct T_safe as (A1 & A2 & A3). intros Hs. unfold th_transfer. apply good_bind; [apply th_on_tr_good; [exact Hs|apply call_get_substring; [exact A1|apply Hs]]|].
  intros s1 [[b o] n] E Hs1. destruct (t_get_substring T (th_tr s)) as [t1 x] eqn:Es. unfold th_on_tr in E. cbn [fst snd] in E. injection E as <- ->.
  destruct (A3 _ _ _ _ _ (proj1 Hs) Es) as (K1 & K2 & K3).
  apply good_bind; [apply th_on_h_good; [exact Hs1|apply hcall_sub; try assumption; apply Hs1]|]. intros s2 u2 _ Hs2.
  apply good_bind; [apply th_on_bo_good; [exact Hs2|apply ensure_good; [exact fresh_len|apply Hs2]]|]. intros s3 u3 E3 Hs3. cbv zeta.
  apply good_bind; [split; [exact Hs3|apply blit_not_undef]|]. intros s4 ob E4 Hs4. injection E4 as <- Eb. apply good_ret.
  destruct Hs3 as (I1 & I2 & I3). split; [exact I1|split; [exact I2|]]. cbn [th_bo]. pose proof (blit_len _ _ _ _ _ _ Eb) as L. pose proof (blit_range _ _ _ _ _ _ Eb) as R.
  destruct I3 as (J1 & J2 & J3). unfold bo_inv. cbn [obuf obeg oend]. rewrite L. lia.
Qed.
Lemma then_safe : a_safe w (transform_then_hash fresh T H) THI.
Proof.
  pose proof T_safe as (A1 & A2 & A3).
  assert (U : forall s (r : t_st T * out unit), THI s -> good P r -> good THI (let! (s, u) := th_on_tr T H s r in th_transfer fresh T H s)).
  { intros s r Hs Hr. apply good_bind; [now apply th_on_tr_good|]. intros s' u _ Hs'. now apply th_transfer_good. }
  split; [|split].
  - intros s o Hs Hp N1 N2. pose proof Hs as (H1 & H2 & H3).
    destruct o as [b ofs len|str|c|n| | | | | | |]; cbn [t_step data_view transform_then_hash t_put_substring t_put_string t_put_char t_put_byte t_available t_get_string t_get_substring t_get_char t_get_byte
      a_put_substring a_put_string a_put_char a_put_byte a_available a_get_string a_get_substring a_get_char a_get_byte].
    + apply unit_obs_good. apply U; [exact Hs|]. destruct Hp as (K1 & K2 & K3). now apply call_put_substring.
    + apply unit_obs_good. apply U; [exact Hs|]. now apply call_put_string.
    + apply unit_obs_good. apply U; [exact Hs|]. now apply call_put_char.
    + apply unit_obs_good. apply U; [exact Hs|]. now apply call_put_byte.
    + now destruct N1.
    + now destruct N2.
    + split; [exact Hs|discriminate].
    + apply bytes_obs_good. apply th_on_bo_good; [exact Hs|now apply get_string_good].
    + apply substring_obs_good. apply th_on_bo_good; [exact Hs|now apply get_substring_good].
    + apply int_obs_good. apply th_on_bo_good; [exact Hs|now apply (get_char_good fresh fresh_len)].
    + apply int_obs_good. apply th_on_bo_good; [exact Hs|now apply (get_char_good fresh fresh_len)].
  - intros s Hs. cbn [transform_then_hash a_finish]. apply good_bind; [apply th_on_tr_good; [exact Hs|apply call_finish; [exact A1|apply Hs]]|]. intros s1 u1 _ Hs1.
    apply good_bind; [now apply th_transfer_good|]. intros s2 u2 _ Hs2. apply th_on_h_good; [exact Hs2|apply hcall_result, Hs2].
  - intros Hw s (H1 & H2 & H3). cbn [transform_then_hash a_wipe]. cbv zeta. assert (THI (TH (th_tr s) (th_h s) (bo_wipe (th_bo s)))) as Hs by (split; [exact H1|split; [exact H2|now apply bo_wipe_good]]).
    apply good_bind; [apply th_on_tr_good; [exact Hs|now apply A2]|]. intros s1 u1 _ Hs1. apply th_on_h_good; [exact Hs1|apply hcall_wipe; [exact Hw|apply Hs1]].
Qed.
End Then.

(* ---------------- transform_and_hash ---------------- *)
Section And.
Variables (w : bool) (T : transform) (H : hash) (P : t_st T -> Prop).
Hypothesis T_safe : t_safe w T P.
Definition AHI : ahs T H -> Prop := both P (hash_safe w H).
Lemma ah_on_tr_good {A} s (r : t_st T * out A) : AHI s -> good P r -> good AHI (ah_on_tr T H s r).
Proof. intros (H1 & H2) (G1 & G2). split; [now split|exact G2]. Qed.
Lemma ah_on_h_good {A} s (r : h_st H * out A) : AHI s -> good (hash_safe w H) r -> good AHI (ah_on_h T H s r).
Proof. intros (H1 & H2) (G1 & G2). split; [now split|exact G2]. Qed.
Lemma and_safe : a_safe w (transform_and_hash T H) AHI.
Proof.
  pose proof T_safe as (A1 & A2 & A3).
  assert (U : forall s (r : t_st T * out unit) (k : h_st H -> h_st H * out unit), AHI s -> good P r -> (forall x, hash_safe w H x -> good (hash_safe w H) (k x)) ->
    good AHI (let! (s, u) := ah_on_tr T H s r in ah_on_h T H s (k (snd s)))).
  { intros s r k Hs Hr Hk. apply good_bind; [now apply ah_on_tr_good|]. intros s' u _ Hs'. apply ah_on_h_good; [exact Hs'|apply Hk, Hs']. }
  split; [|split].
  - intros s o Hs Hp N1 N2. pose proof Hs as (H1 & H2).
    destruct o as [b ofs len|str|c|n| | | | | | |]; cbn [t_step data_view transform_and_hash t_put_substring t_put_string t_put_char t_put_byte t_available t_get_string t_get_substring t_get_char t_get_byte
      a_put_substring a_put_string a_put_char a_put_byte a_available a_get_string a_get_substring a_get_char a_get_byte].
    + apply unit_obs_good. destruct Hp as (K1 & K2 & K3). apply (U s _ (fun x => h_add_substring H x b ofs len)); [exact Hs|now apply call_put_substring|]. intros x Hx. now apply hcall_sub.
    + apply unit_obs_good. apply (U s _ (fun x => h_add_string H x str)); [exact Hs|now apply call_put_string|]. intros x Hx. now apply hcall_str.
    + apply unit_obs_good. apply (U s _ (fun x => h_add_char H x c)); [exact Hs|now apply call_put_char|]. intros x Hx. now apply hcall_char.
    + apply unit_obs_good. apply (U s _ (fun x => h_add_byte H x n)); [exact Hs|now apply call_put_byte|]. intros x Hx. now apply hcall_byte.
    + now destruct N1.
    + now destruct N2.
    + split; [exact Hs|discriminate].
    + apply bytes_obs_good. apply ah_on_tr_good; [exact Hs|now apply call_get_string].
    + apply substring_obs_good. apply ah_on_tr_good; [exact Hs|now apply call_get_substring].
    + apply int_obs_good. apply ah_on_tr_good; [exact Hs|now apply call_get_char].
    + apply int_obs_good. apply ah_on_tr_good; [exact Hs|now apply call_get_byte].
  - intros s Hs. cbn [transform_and_hash a_finish]. apply good_bind; [apply ah_on_tr_good; [exact Hs|apply call_finish; [exact A1|apply Hs]]|]. intros s1 u1 _ Hs1.
    apply ah_on_h_good; [exact Hs1|apply hcall_result, Hs1].
  - intros Hw s Hs. cbn [transform_and_hash a_wipe]. apply good_bind; [apply ah_on_tr_good; [exact Hs|apply A2; [exact Hw|apply Hs]]|]. intros s1 u1 _ Hs1. apply ah_on_h_good; [exact Hs1|apply hcall_wipe; [exact Hw|apply Hs1]].
Qed.
End And.

(* ---------------- a stream cipher that relies on the range of its source ---------------- *)
Section InRange.
Variable C : stream_cipher.
Variable I : sc_st C -> Prop.
Definition sc_good_in : Prop := forall s src so dst d len, I s -> in_range src so len = true ->
  good (fun r => I (fst r) /\ zlen (snd r) = zlen dst) (sc_transform C s src so dst d len) /\
  (snd (sc_transform C s src so dst d len) = Ret tt -> 0 <= len /\ 0 <= d /\ d + len <= zlen dst).
Hypothesis C_good : sc_good_in.
Notation SI := (SI C I).
Lemma sct_put_in s src ofs len : SI s -> in_range src ofs len = true -> good SI (
  let! (s, u) := sct_ensure fresh C s len in
  let! (s, u) := sct_transform C s src ofs len in
  (sct_adv C s len, Ret tt)).
Proof.
  intros (H1 & H2 & H3) HR. apply good_bind.
  - unfold sct_ensure. apply (good_lift bo_inv); [now apply ensure_good|]. intros x Hx. now apply SI_intro.
  - intros s1 u _ (G1 & G2 & G3). destruct (C_good (sct_c _ s1) src ofs (obuf (sct_bo _ s1)) (oend (sct_bo _ s1)) len G3 HR) as ((K1 & K2) & K3).
    unfold sct_transform. destruct (sc_transform C _ _ _ _ _ _) as [[c' dst'] o]. cbn [fst snd] in *.
    assert (bo_inv (BO dst' (obeg (sct_bo _ s1)) (oend (sct_bo _ s1)))) as Hb.
    { destruct G2 as (P1 & P2 & P3), K1 as (_ & K1). unfold bo_inv. cbn [obeg oend obuf]. rewrite K1. lia. }
    apply good_bind.
    + split; [|exact K2]. cbn [fst]. apply SI_intro; try assumption. apply K1.
    + intros s2 u2 E2 (L1 & L2 & L3). injection E2 as <- E2. subst o. destruct u2. specialize (K3 eq_refl). apply good_ret.
      unfold sct_adv. apply SI_intro; try assumption. unfold bo_inv in *. cbn [obeg oend obuf sct_bo] in *. destruct K1 as (_ & K1). rewrite K1 in *. lia.
Qed.
Lemma sct_put_char_in s c : SI s -> good SI (sct_put_char fresh C s c).
Proof.
  intros H. unfold sct_put_char. apply good_bind; [|intros s1 u _ H1; apply (sct_put_in s1 (sct_buf C s1)); [exact H1|apply in_range_true; destruct H1; lia]].
  destruct H as (H1 & H2 & H3). destruct (bytes_set _ _ _) eqn:E.
  - apply good_ret. apply SI_intro; try assumption. cbn [sct_buf]. rewrite (bytes_set_len _ _ _ _ E). exact H1.
  - apply good_raise. now apply SI_intro.
  - now apply bytes_set_not_undef in E.
  - split; [now apply SI_intro|discriminate].
Qed.
Variable fin : sct C -> sct C * out bytes.
Hypothesis fin_good : forall s, SI s -> good SI (fin s).
Hypothesis wipe_good : forall s, I s -> I (sc_wipe C s).
Lemma in_range_step size s x : SI s -> aop_possible x -> aop_in_range x -> let a := auth_of (stream_transform fresh C) size fin in SI (fst (a_step a s x)) /\ snd (a_step a s x) <> OUndef.
Proof.
  intros H Hp Hr. pose proof H as (H1 & H2 & H3). cbv zeta. destruct x as [o| |]; cbn [a_step].
  - destruct Hp as (_ & N1 & N2). destruct o as [b ofs len|str|c|n| | | | | | |]; cbn [t_step].
    + apply unit_obs_good. apply sct_put_in; [exact H|]. apply in_range_true. cbn in Hr. lia.
    + apply unit_obs_good. apply sct_put_in; [exact H|]. apply in_range_true. pose proof (zlen_nonneg str). lia.
    + apply unit_obs_good. now apply sct_put_char_in.
    + apply unit_obs_good. now apply sct_put_char_in.
    + now destruct N1.
    + now destruct N2.
    + split; [exact H|discriminate].
    + apply bytes_obs_good. destruct (get_string_good _ H2) as (G1 & G2). split; [now apply SI_intro|exact G2].
    + apply substring_obs_good. destruct (get_substring_good _ H2) as (G1 & G2). split; [now apply SI_intro|exact G2].
    + apply int_obs_good. destruct (get_char_good fresh fresh_len _ H2) as (G1 & G2). split; [now apply SI_intro|exact G2].
    + apply int_obs_good. destruct (get_char_good fresh fresh_len _ H2) as (G1 & G2). split; [now apply SI_intro|exact G2].
  - apply bytes_obs_good. now apply fin_good.
  - apply unit_obs_good. apply good_ret. cbn [fst]. apply SI_intro; cbn [sct_buf sct_bo sct_c].
    + rewrite zlen_zeros by apply zlen_nonneg. exact H1.
    + now apply bo_wipe_good.
    + now apply wipe_good.
Qed.
Lemma in_range_safe size : forall l s, SI s -> Forall aop_possible l -> Forall aop_in_range l -> ~ In OUndef (snd (a_run (auth_of (stream_transform fresh C) size fin) s l)).
Proof.
  induction l as [|x l IH]; intros s Hs Hl Hr; [easy|]. inversion Hl; subst. inversion Hr; subst. cbn [a_run].
  destruct (in_range_step size s x Hs) as (G1 & G2); [assumption..|]. destruct (a_step (auth_of (stream_transform fresh C) size fin) s x) as [s1 ob]. cbn [fst snd] in *. pose proof (IH s1 G1 ltac:(assumption) ltac:(assumption)) as I2.
  destruct (a_run (auth_of (stream_transform fresh C) size fin) s1 l) as [s2 obs]. cbn [snd] in *. intros [E|E]; [now apply G2|now apply I2].
Qed.
End InRange.

(* ---------------- ChaCha20-Poly1305 ---------------- *)
Section ChaPoly.
Variable P : poly_impl.
Definition PI (c : pctx P) : Prop := 0 <= pc_left c < 16 /\ zlen (pc_buf c) = 16.
Lemma poly_rest_ok c m : PI c -> pc_left c = 0 -> exists c', poly_rest P c m = Ret c' /\ PI c'.
Proof.
  intros (H1 & H2) H0. unfold poly_rest. cbv zeta. set (want := if 16 <=? zlen m then _ else _). assert (0 <= zlen m - want < 16 /\ 0 <= want <= zlen m) as Hw.
  { subst want. pose proof (zlen_nonneg m). destruct (16 <=? zlen m) eqn:E; [|lia]. pose proof (Z.div_mod (zlen m) 16 ltac:(lia)). pose proof (Z.mod_pos_bound (zlen m) 16 ltac:(lia)). lia. }
  assert (zlen (skipn (Z.to_nat want) m) = zlen m - want) as L by (unfold zlen in *; rewrite skipn_length; lia).
  destruct (_ =? 0) eqn:E; [eexists; split; [reflexivity|]; now split|].
  destruct (memcpy_in (pc_buf c) (pc_left c) (skipn (Z.to_nat want) m)) as (r & Er & Lr); [lia|lia|]. rewrite Er. cbn [obind]. eexists. split; [reflexivity|]. split; cbn [pc_left pc_buf]; lia.
Qed.
Lemma poly_update_ok c m : PI c -> exists c', poly_update P c m = Ret c' /\ PI c'.
Proof.
  intros H. pose proof H as (H1 & H2). unfold poly_update. destruct (pc_left c =? 0) eqn:E0; [apply poly_rest_ok; [exact H|lia]|]. cbv zeta.
  set (want := Z.min (16 - pc_left c) (zlen m)). pose proof (zlen_nonneg m). assert (zlen (firstn (Z.to_nat want) m) = want) as L by (unfold zlen in *; rewrite firstn_length; lia).
  destruct (memcpy_in (pc_buf c) (pc_left c) (firstn (Z.to_nat want) m)) as (r & Er & Lr); [lia|lia|]. rewrite Er. cbn [obind].
  destruct (_ <? 16) eqn:E; [eexists; split; [reflexivity|]; split; cbn [pc_left pc_buf]; lia|]. apply poly_rest_ok; [|reflexivity]. split; cbn [pc_left pc_buf]; lia.
Qed.
Lemma poly1305_update_good c m o n : PI c -> in_range m o n = true -> good PI (poly1305_update P c m o n).
Proof. intros H R. unfold poly1305_update. rewrite R. destruct (poly_update_ok c (sub m o n) H) as (c' & -> & H'). now apply good_ret. Qed.
Lemma poly_finish_good c : PI c -> good PI (poly_finish P c).
Proof.
  intros (H1 & H2). unfold poly_finish. destruct (_ =? 0) eqn:E; [apply good_ret; split; cbn [pc_left pc_buf]; [lia|exact H2]|].
  destruct (memcpy_in (pc_buf c) (pc_left c) (1 :: zeros (15 - pc_left c))) as (r & Er & Lr); [lia|rewrite zlen_cons, zlen_zeros by lia; lia|]. rewrite Er. apply good_ret. split; cbn [pc_left pc_buf]; lia.
Qed.
Lemma update_pad_good c n : PI c -> good PI (poly1305_update_pad P c n).
Proof.
  intros H. unfold poly1305_update_pad. cbv zeta. destruct (_ >? 0) eqn:E; [|now apply good_ret]. apply poly1305_update_good; [exact H|]. apply in_range_true. rewrite zlen_zeros by lia. lia.
Qed.
Lemma set64_ok b o x : 0 <= o -> o + 8 <= zlen b -> exists r, set_int64_le b o x = Ret r /\ zlen r = zlen b.
Proof.
  intros H1 H2. unfold set_int64_le. rewrite (proj2 (in_range_true _ _ _)) by lia. eexists. split; [reflexivity|]. apply zlen_splice; [lia|]. rewrite zlen_to_le. lia.
Qed.
Lemma finish_tag_good c hl cl : PI c -> good PI (poly1305_finish_and_get_tag fresh P c hl cl).
Proof.
  intros H. unfold poly1305_finish_and_get_tag. pose proof (fresh_len 16 ltac:(lia)) as F. apply good_bind; [now apply update_pad_good|]. intros c1 u1 _ H1.
  destruct (set64_ok (fresh 16) 0 hl ltac:(lia) ltac:(lia)) as (r & -> & L). cbn [bind]. destruct (set64_ok r 8 cl ltac:(lia) ltac:(lia)) as (r2 & -> & L2). cbn [bind].
  apply good_bind; [apply poly1305_update_good; [exact H1|apply in_range_true; lia]|]. intros c2 u2 _ H2. now apply poly_finish_good.
Qed.
Notation C := chacha20_class.
Definition CPI (s : cpst P C) : Prop := cc_inv (cp_cha s) /\ PI (cp_h s).
Lemma cp_wipe_inv s : CPI s -> CPI (cp_wipe P C s).
Proof. intros (H1 & H2). split; [now apply chacha_wipe_inv|]. split; cbn; [lia|reflexivity]. Qed.
(* put at the end of a buffer *)
Lemma chapoly_enc_good maxlen : sc_good (chapoly_enc P C maxlen) CPI.
Proof.
  intros m src so dst d len (H1 & H2). cbn [chapoly_enc sc_transform]. unfold cp_transform. destruct (chacha_good fresh fresh_len (cp_cha m) src so dst d len H1) as ((G1 & G2) & G3). cbn [fst snd].
  destruct (sc_transform C (cp_cha m) src so dst d len) as [[c' dst'] [[]|e| |]]; cbn [fst snd bind] in *; try (split; [split; [now split|first [discriminate|exact G2]]|discriminate]).
  specialize (G3 eq_refl). destruct G1 as (G1 & L). unfold cp_update. cbn [fst snd cp_h cp_cha cp_clen]. destruct (poly1305_update_good (cp_h m) dst' d len H2) as (K1 & K2); [apply in_range_true; lia|].
  destruct (poly1305_update P (cp_h m) dst' d len) as [h' [[]|e| |]]; cbn [fst snd bind] in *; [|split; [split; [now split|discriminate]|discriminate]|now destruct K2|split; [split; [now split|discriminate]|discriminate]].
  destruct (_ >? _); split; try discriminate; [apply good_raise; now split|apply good_ret; now split|]. intros _. lia.
Qed.
Lemma init_hash_ok cha header : cc_inv cha -> zlen header <= max_string_length -> good (fun _ => True) (poly1305_init_hash fresh P C cha header) /\
  cc_inv (fst (poly1305_init_hash fresh P C cha header)) /\ forall h, snd (poly1305_init_hash fresh P C cha header) = Ret h -> PI h.
Proof.
  intros H HL. unfold poly1305_init_hash. destruct (chacha_good fresh fresh_len cha (zeros 64) 0 (zeros 64) 0 64 H) as ((G1 & G2) & G3).
  destruct (sc_transform C cha (zeros 64) 0 (zeros 64) 0 64) as [[c' dst'] [[]|e| |]]; cbn [fst snd bind] in *; [|split; [now split|split; [apply G1|discriminate]]|now destruct G2|split; [now split|split; [apply G1|discriminate]]].
  destruct G1 as (G1 & L). unfold poly1305_init. rewrite zlen_zeros in L by lia. rewrite L. change (64 <? 32) with false. cbn [bind fst snd].
  set (h0 := PC (pi_init P dst') 0 (fresh 16) false). assert (PI h0) as H0 by (split; cbn; [lia|apply fresh_len; lia]).
  destruct (poly1305_update_good h0 header 0 (zlen header) H0) as (K1 & K2); [apply in_range_true; pose proof (zlen_nonneg header); lia|].
  destruct (poly1305_update P h0 header 0 (zlen header)) as [h1 [[]|e| |]]; cbn [fst snd bind] in *; [|split; [now split|split; [exact G1|discriminate]]|now destruct K2|split; [now split|split; [exact G1|discriminate]]].
  destruct (update_pad_good h1 (Z.land (zlen header) 15) K1) as (J1 & J2).
  destruct (poly1305_update_pad P h1 (Z.land (zlen header) 15)) as [h2 [[]|e| |]]; cbn [fst snd bind] in *; [|split; [now split|split; [exact G1|discriminate]]|now destruct J2|split; [now split|split; [exact G1|discriminate]]].
  split; [now split|split; [exact G1|]]. intros h E. apply ret_inj in E. now subst h.
Qed.
Lemma chapoly_finish_good W get put hl (I : sc_st W -> Prop) : (forall x, I x -> CPI (get x)) -> (forall y, CPI y -> I (put y)) ->
  forall s, SI W I s -> good (SI W I) (chapoly_finish fresh P C W get put hl s).
Proof.
  intros Hg Hp s (H1 & H2 & H3). unfold chapoly_finish. cbv zeta. destruct (Hg _ H3) as (K1 & K2). destruct (finish_tag_good (cp_h (get (sct_c W s))) hl (cp_clen (get (sct_c W s))) K2) as (G1 & G2).
  destruct (poly1305_finish_and_get_tag fresh P _ hl _) as [h' r]. split; [|exact G2]. split; [exact H1|split; [exact H2|]]. cbn [fst sct_c]. apply Hp. now split.
Qed.
Lemma chapoly_obj_safe maxlen hl s0 : CPI s0 -> let W := chapoly_enc P C maxlen in
  auth_memory_safe true (auth_of (stream_transform fresh W) 16 (chapoly_finish fresh P C W (fun x => x) (fun x => x) hl)) (stream_new fresh W s0).
Proof.
  intros H0. cbv zeta. set (W := chapoly_enc P C _). apply (a_safe_safe true (auth_of (stream_transform fresh W) 16 _) (SI W CPI)).
  - apply auth_of_safe; [|apply chapoly_finish_good; intros x Hx; exact Hx]. pose proof (stream_good fresh fresh_len W CPI (chapoly_enc_good _) cp_wipe_inv) as G. split; [|split].
    + intros s x Hs Hx. exact (G s (Call x) Hs Hx).
    + intros _ s Hs. destruct (G s Wipe Hs Logic.I) as (G4 & _). split; [exact G4|discriminate].
    + intros s s' b x n (K1 & K2 & K3) E. cbn [stream_transform t_get_substring] in E. destruct (bo_get_substring (sct_bo W s)) as [b' r] eqn:Eb. cbn [fst snd] in E. injection E as _ ->. now apply (substring_small _ _ _ _ _ K2 Eb).
  - apply stream_new_good; [exact fresh_len|exact H0].
Qed.
Lemma new_chacha_inv iv key cha : new_chacha20 fresh iv 0 key = Ret cha -> exists c, cha = SObj C c /\ cc_inv c.
Proof.
  unfold new_chacha20. destruct (negb _); [discriminate|]. destruct (match iv with None => _ | Some _ => _ end) as [v|e| |]; cbn [obind]; try discriminate. intros E. apply ret_inj in E. subst cha.
  exists (chacha20_init fresh key v 0). split; [reflexivity|]. apply (chacha_init_inv fresh fresh_len).
Qed.
Lemma chapoly_safe header iv key o : zlen header <= max_string_length -> chacha20_poly1305 fresh P header iv key Encrypt = Ret o -> auth_memory_safe true (ao_class o) (ao_st o).
Proof.
  intros HL E. unfold chacha20_poly1305 in E. destruct (new_chacha20 fresh (Some iv) 0 key) as [cha|e| |] eqn:Ec; cbn [obind] in E; try discriminate E.
  destruct (new_chacha_inv _ _ _ Ec) as (c & -> & Hc). clear Ec. cbn [so_sc so_st] in E. destruct (init_hash_ok c header Hc HL) as (G1 & G2 & G3).
  destruct (poly1305_init_hash fresh P C c header) as [c0 [h|e| |]]; cbn [fst snd obind] in *; try discriminate E. apply ret_inj in E. subst o.
  apply chapoly_obj_safe. split; [exact G2|]. now apply G3.
Qed.
Lemma chapoly_dec_good : sc_good_in (chapoly_dec P C) CPI.
Proof.
  intros m src so dst d len (H1 & H2) HR. cbn [chapoly_dec sc_transform]. unfold cp_update. cbn [fst snd]. destruct (poly1305_update_good (cp_h m) src so len H2 HR) as (K1 & K2).
  destruct (poly1305_update P (cp_h m) src so len) as [h' [[]|e| |]]; cbn [fst snd bind] in *; [|split; [split; [now split|discriminate]|discriminate]|now destruct K2|split; [split; [now split|discriminate]|discriminate]].
  unfold cp_transform. cbn [fst snd cp_h cp_cha cp_clen]. destruct (chacha_good fresh fresh_len (cp_cha m) src so dst d len H1) as ((G1 & G2) & G3).
  destruct (sc_transform C (cp_cha m) src so dst d len) as [[c' dst'] [[]|e| |]]; cbn [fst snd bind] in *; try (split; [split; [now split|first [discriminate|exact G2]]|discriminate]).
  split; [apply good_ret; now split|]. intros _. exact (G3 eq_refl).
Qed.
Lemma chapoly_dec_safe header iv key o : zlen header <= max_string_length -> chacha20_poly1305 fresh P header iv key Decrypt = Ret o -> auth_safe_in_range (ao_class o) (ao_st o).
Proof.
  intros HL E. unfold chacha20_poly1305 in E. destruct (new_chacha20 fresh (Some iv) 0 key) as [cha|e| |] eqn:Ec; cbn [obind] in E; try discriminate E.
  destruct (new_chacha_inv _ _ _ Ec) as (c & -> & Hc). clear Ec. cbn [so_sc so_st] in E. destruct (init_hash_ok c header Hc HL) as (G1 & G2 & G3).
  destruct (poly1305_init_hash fresh P C c header) as [c0 [h|e| |]]; cbn [fst snd obind] in *; try discriminate E. apply ret_inj in E. subst o.
  intros l Hl Hr. apply (in_range_safe (chapoly_dec P C) CPI chapoly_dec_good _ (chapoly_finish_good (chapoly_dec P C) (fun x => x) (fun x => x) (zlen header) CPI (fun x Hx => Hx) (fun x Hx => Hx)) cp_wipe_inv 16 l); try assumption.
  apply stream_new_good; [exact fresh_len|]. split; [exact G2|]. now apply G3.
Qed.
End ChaPoly.

Lemma auth_safe_weaken (w : bool) a s : auth_memory_safe true a s -> auth_memory_safe w a s.
Proof. intros H l Hl _. apply H; [exact Hl|now left]. Qed.
End Fresh.
