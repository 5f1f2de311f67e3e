(* Memory safety of encoders, compositions and authenticated transforms *)
From Verif Require Import Prelude PreludeFacts SpecTransducer BufOutModel BufOut TransformModel BlockModel CipherModel EncModel HashModel AuthModel
  SpecWipe SpecWipe2 WipeSafe CipherSpec WipeCipher WipeHash WipeMac WipeApi StreamModel MacModel ShaModel.

(* a transform whose calls stay in bounds, w: also after wipe, and whose get_substring gives numbers that can exist *)
Definition t_safe (w : bool) (T : transform) (P : t_st T -> Prop) : Prop :=
  t_calls T P /\ (w = true -> forall s, P s -> good P (t_wipe T s)) /\
  (forall s s' b o n, P s -> t_get_substring T s = (s', Ret (b, o, n)) -> zlen b <= max_string_length /\ is_int o /\ is_int n).
Definition obj_safe (w : bool) (o : tobj) : Prop := exists P, t_safe w (o_tr o) P /\ P (o_st o).

Lemma t_safe_run w T P : t_safe w T P -> forall l s, P s -> Forall wop_possible l -> w = true \/ ~ In Wipe l -> P (fst (w_run T s l)) /\ ~ In OUndef (snd (w_run T s l)).
Proof.
  intros (HT & HW & _). induction l as [|x l IH]; intros s Hs Hl Hw; cbn [w_run]; [now split|]. inversion Hl; subst.
  assert (P (fst (w_step T s x)) /\ snd (w_step T s x) <> OUndef) as (G1 & G2).
  { destruct x as [o|]; cbn [w_step]; [now apply HT|]. apply unit_obs_good, HW; [|exact Hs]. destruct Hw as [Hw|Hw]; [exact Hw|]. elim Hw. now left. }
  destruct (w_step T s x) as [s1 ob]. cbn [fst snd] in *.
  destruct (IH s1 G1) as (I1 & I2); [assumption|destruct Hw as [Hw|Hw]; [now left|right; intros Hi; apply Hw; now right]|]. destruct (w_run T s1 l) as [s2 obs]. cbn [fst snd] in *. split; [exact I1|].
  intros [E|E]; [now apply G2|now apply I2].
Qed.
Lemma obj_safe_safe w o : obj_safe w o -> transform_memory_safe w (o_tr o) (o_st o).
Proof. intros (P & G & Hs) l Hl Hw. now apply (t_safe_run w _ P G). Qed.
Lemma obj_safe_weaken w o : obj_safe true o -> obj_safe w o.
Proof. intros (P & (G1 & G2 & G3) & Hs). exists P. split; [|exact Hs]. split; [exact G1|]. split; [|exact G3]. intros _. now apply G2. Qed.

Lemma is_int_small n : - 2 ^ 60 <= n <= 2 ^ 60 -> is_int n.
Proof. unfold is_int. lia. Qed.
Lemma substring_small b b' x o n : bo_inv b -> bo_get_substring b = (b', Ret (x, o, n)) -> zlen x <= max_string_length /\ is_int o /\ is_int n.
Proof.
  intros (H1 & H2 & H3) E. unfold bo_get_substring in E. injection E as _ <- <- <-. unfold max_string_length in *. split; [lia|]. split; apply is_int_small; lia.
Qed.

(* ---------------- calls of a safe transform, as [good] ---------------- *)
Section Calls.
Variables (T : transform) (P : t_st T -> Prop).
Hypothesis HT : t_calls T P.
Lemma obs_good {A} (r : t_st T * out A) (f : out A -> obs) : (f Undef = OUndef) -> P (fst r) /\ f (snd r) <> OUndef -> good P r.
Proof. intros Hf (H1 & H2). split; [exact H1|]. intros E. rewrite E in H2. now apply H2. Qed.
Lemma call_put_substring s b o n : P s -> zlen b <= max_string_length -> is_int o -> is_int n -> good P (t_put_substring T s b o n).
Proof. intros Hs H1 H2 H3. apply (obs_good _ (fun o => match o with Ret _ => OUnit | Raise e => OExn e | Undef => OUndef | Hang => OHang end) eq_refl). exact (HT s (PutSubstring b o n) Hs (conj H1 (conj H2 H3))). Qed.
Lemma call_put_string s b : P s -> zlen b <= max_string_length -> good P (t_put_string T s b).
Proof. intros Hs H1. apply (obs_good _ (fun o => match o with Ret _ => OUnit | Raise e => OExn e | Undef => OUndef | Hang => OHang end) eq_refl). exact (HT s (PutString b) Hs H1). Qed.
Lemma call_put_char s c : P s -> good P (t_put_char T s c).
Proof. intros Hs. apply (obs_good _ (fun o => match o with Ret _ => OUnit | Raise e => OExn e | Undef => OUndef | Hang => OHang end) eq_refl). exact (HT s (PutChar c) Hs I). Qed.
Lemma call_put_byte s c : P s -> is_int c -> good P (t_put_byte T s c).
Proof. intros Hs Hc. apply (obs_good _ (fun o => match o with Ret _ => OUnit | Raise e => OExn e | Undef => OUndef | Hang => OHang end) eq_refl). exact (HT s (PutByte c) Hs Hc). Qed.
Lemma call_flush s : P s -> good P (t_flush T s).
Proof. intros Hs. apply (obs_good _ (fun o => match o with Ret _ => OUnit | Raise e => OExn e | Undef => OUndef | Hang => OHang end) eq_refl). exact (HT s Flush Hs I). Qed.
Lemma call_finish s : P s -> good P (t_finish T s).
Proof. intros Hs. apply (obs_good _ (fun o => match o with Ret _ => OUnit | Raise e => OExn e | Undef => OUndef | Hang => OHang end) eq_refl). exact (HT s Finish Hs I). Qed.
Lemma call_get_string s : P s -> good P (t_get_string T s).
Proof. intros Hs. apply (obs_good _ (fun o => match o with Ret b => OBytes b | Raise e => OExn e | Undef => OUndef | Hang => OHang end) eq_refl). exact (HT s GetString Hs I). Qed.
Lemma call_get_char s : P s -> good P (t_get_char T s).
Proof. intros Hs. apply (obs_good _ (fun o => match o with Ret b => OInt b | Raise e => OExn e | Undef => OUndef | Hang => OHang end) eq_refl). exact (HT s GetChar Hs I). Qed.
Lemma call_get_byte s : P s -> good P (t_get_byte T s).
Proof. intros Hs. apply (obs_good _ (fun o => match o with Ret b => OInt b | Raise e => OExn e | Undef => OUndef | Hang => OHang end) eq_refl). exact (HT s GetByte Hs I). Qed.
Lemma call_get_substring s : P s -> good P (t_get_substring T s).
Proof.
  intros Hs. pose proof (HT s GetSubstring Hs I) as (H1 & H2). cbn [t_step] in *. unfold substring_obs in *. cbn [fst snd] in *. split; [exact H1|]. intros E. rewrite E in H2. now apply H2.
Qed.
End Calls.

(* ---------------- compose ---------------- *)
Definition both {A B} (P1 : A -> Prop) (P2 : B -> Prop) (s : A * B) : Prop := P1 (fst s) /\ P2 (snd s).
Lemma on1_good T1 T2 (P1 : t_st T1 -> Prop) (P2 : t_st T2 -> Prop) A s (r : t_st T1 * out A) : P2 (snd s) -> good P1 r -> good (both P1 P2) (on1 T1 T2 s r).
Proof. intros H (G1 & G2). split; [split; [exact G1|exact H]|exact G2]. Qed.
Lemma on2_good T1 T2 (P1 : t_st T1 -> Prop) (P2 : t_st T2 -> Prop) A s (r : t_st T2 * out A) : P1 (fst s) -> good P2 r -> good (both P1 P2) (on2 T1 T2 s r).
Proof. intros H (G1 & G2). split; [split; [exact H|exact G1]|exact G2]. Qed.

Lemma compose_safe w T1 T2 P1 P2 : t_safe w T1 P1 -> t_safe w T2 P2 -> t_safe w (compose T1 T2) (both P1 P2).
Proof.
  intros (A1 & A2 & A3) (B1 & B2 & B3). set (P := both P1 P2).
  assert (Tr : forall s, P s -> good P (comp_transfer T1 T2 s)).
  { intros s (H1 & H2). unfold comp_transfer. apply good_bind; [apply on1_good; [exact H2|now apply call_get_substring]|]. intros s' [[b o] n] E (G1 & G2).
    apply on2_good; [exact G1|]. destruct (t_get_substring T1 (fst s)) as [s1 x] eqn:Es. unfold on1 in E. cbn [fst snd] in E. injection E as <- ->.
    destruct (A3 _ _ _ _ _ H1 Es) as (K1 & K2 & K3). now apply call_put_substring. }
  assert (U : forall s (r : t_st T1 * out unit), P s -> good P1 r -> good P (let! (s, u) := on1 T1 T2 s r in comp_transfer T1 T2 s)).
  { intros s r (H1 & H2) Hr. apply good_bind; [now apply on1_good|]. intros s' u _ Hs. now apply Tr. }
  split; [|split].
  - intros s o H Hp. pose proof H as (H1 & H2). destruct o as [b ofs len|str|c|n| | | | | | |]; cbn [t_step compose t_put_substring t_put_string t_put_char t_put_byte t_flush t_finish t_available t_get_string t_get_substring t_get_char t_get_byte].
    + apply unit_obs_good. apply U; [exact H|]. destruct Hp as (K1 & K2 & K3). now apply call_put_substring.
    + apply unit_obs_good. apply U; [exact H|]. now apply call_put_string.
    + apply unit_obs_good. apply U; [exact H|]. now apply call_put_char.
    + apply unit_obs_good. apply U; [exact H|]. now apply call_put_byte.
    + apply unit_obs_good. apply good_bind; [apply on1_good; [exact H2|now apply call_flush]|]. intros s1 u _ G1. apply good_bind; [now apply Tr|]. intros s2 u2 _ (G2 & G3). apply on2_good; [exact G2|now apply call_flush].
    + apply unit_obs_good. apply good_bind; [apply on1_good; [exact H2|now apply call_finish]|]. intros s1 u _ G1. apply good_bind; [now apply Tr|]. intros s2 u2 _ (G2 & G3). apply on2_good; [exact G2|now apply call_finish].
    + split; [exact H|discriminate].
    + apply bytes_obs_good. apply on2_good; [exact H1|now apply call_get_string].
    + apply substring_obs_good. apply on2_good; [exact H1|now apply call_get_substring].
    + apply int_obs_good. apply on2_good; [exact H1|now apply call_get_char].
    + apply int_obs_good. apply on2_good; [exact H1|now apply call_get_byte].
  - intros Hw s (H1 & H2). cbn [compose t_wipe]. apply good_bind; [apply on1_good; [exact H2|now apply A2]|]. intros s1 u _ (G1 & G2). apply on2_good; [exact G1|now apply B2].
  - intros s s' b o n (H1 & H2) E. cbn [compose t_get_substring] in E. destruct (t_get_substring T2 (snd s)) as [s2 x] eqn:E2. unfold on2 in E. cbn [fst snd] in E. injection E as _ ->. now apply (B3 (snd s) s2).
Qed.
Lemma obj_compose_safe w o1 o2 : obj_safe w o1 -> obj_safe w o2 -> obj_safe w (TObj (compose (o_tr o1) (o_tr o2)) (o_st o1, o_st o2)).
Proof. intros (P1 & G1 & H1) (P2 & G2 & H2). exists (both P1 P2). split; [now apply compose_safe|]. now split. Qed.

Section Fresh.
Variable fresh : Z -> bytes.
Hypothesis fresh_len : forall n, 0 <= n -> zlen (fresh n) = n.

(* ---------------- block and stream ciphers ---------------- *)
Lemma cipher_safe w C I fin : bc_good C I -> 0 < bc_blocksize C <= 2 ^ 60 -> (forall s, CI C I s -> good (CI C I) (fin s)) -> (w = true -> forall s, I s -> I (bc_wipe C s)) ->
  t_safe w (cipher_with_finish fresh C fin) (CI C I).
Proof.
  intros HC Hb Hf Hw. split; [now apply cipher_calls|]. split.
  - intros W s Hs. pose proof (cipher_good fresh fresh_len C I HC Hb fin Hf (Hw W) s Wipe Hs Logic.I) as (G1 & _). cbn [w_step] in G1. split; [exact G1|discriminate].
  - intros s s' b o n (H1 & H2 & H3 & H4) E. cbn [cipher_with_finish t_get_substring] in E. destruct (bo_get_substring (c_bo C s)) as [b' r] eqn:Eb. unfold lift in E. injection E as _ ->. now apply (substring_small _ _ _ _ _ H3 Eb).
Qed.
Lemma block_obj_safe (w : bool) m p iv d c o : b_good w c -> make_block_cipher fresh m (option_map scheme_of p) iv d c = Ret o -> obj_safe w o.
Proof.
  intros G E. unfold make_block_cipher in E. destruct (chain _ _ _ _ _) as [cc|e| |] eqn:Ec; cbn [obind] in E; try discriminate E.
  apply (chain_good fresh fresh_len w) in Ec; [|exact G]. destruct Ec as (I & Gc & HI & Hbs & Hw). destruct cc as [C c0]. cbn [b_bc b_st] in *.
  assert (0 < bc_blocksize C <= 2 ^ 60) as Hb by lia.
  pose proof (cipher_new_good fresh fresh_len C I Hb c0 HI ltac:(lia)) as Hn.
  assert (forall fin, (forall s, CI C I s -> good (CI C I) (fin s)) -> obj_safe w (TObj (cipher_with_finish fresh C fin) (cipher_new fresh C c0))) as H.
  { intros fin Hf. exists (CI C I). cbn [o_tr o_st]. split; [now apply cipher_safe|exact Hn]. }
  destruct p as [p|]; [destruct d|]; cbn [option_map] in E; injection E as <-; apply H; intros s Hs.
  - apply padded_encrypt_good; try assumption. apply scheme_of_good.
  - apply padded_decrypt_good; try assumption. apply scheme_of_good.
  - now apply flush_good.
Qed.
Lemma make_obj_safe w nb m p iv key d o : (forall d c, nb d key = Ret c -> b_good w c) -> make_cipher fresh nb m (option_map scheme_of p) iv key d = Ret o -> obj_safe w o.
Proof.
  intros G E. unfold make_cipher in E. destruct (nb _ _) as [c|e| |] eqn:Ec; cbn [obind] in E; try discriminate E.
  eapply block_obj_safe; [|exact E]. now apply (G _ _ Ec).
Qed.
Lemma stream_safe C I c : sc_good C I -> (forall s, I s -> I (sc_wipe C s)) -> I c -> obj_safe true (TObj (stream_transform fresh C) (stream_new fresh C c)).
Proof.
  intros HC Hw Hc. exists (SI C I). cbn [o_tr o_st]. split; [|now apply stream_new_good]. pose proof (stream_good fresh fresh_len C I HC Hw) as G. split; [|split].
  - intros s o Hs Ho. exact (G s (Call o) Hs Ho).
  - intros _ s Hs. destruct (G s Wipe Hs Logic.I) as (G1 & _). split; [exact G1|discriminate].
  - intros s s' b o n (H1 & H2 & H3) E. cbn [stream_transform t_get_substring] in E. destruct (bo_get_substring (sct_bo C s)) as [b' r] eqn:Eb. cbn [fst snd] in E. injection E as _ ->. now apply (substring_small _ _ _ _ _ H2 Eb).
Qed.

(* ---------------- encoders ---------------- *)
Section Encoder.
Variables (X : Type) (W : X -> Prop).
Definition EI (s : X * bo) : Prop := W (fst s) /\ bo_inv (snd s).
Lemma on_bo_good {A} s (r : bo * out A) : EI s -> good bo_inv r -> good EI (on_bo X s r).
Proof. intros (H1 & H2) (G1 & G2). split; [split; [exact H1|exact G1]|exact G2]. Qed.
Lemma c_ensure_good s n : EI s -> good EI (c_ensure fresh s n).
Proof. intros H. apply on_bo_good; [exact H|]. apply ensure_good; [exact fresh_len|apply H]. Qed.
Lemma c_set_good s k c : EI s -> good EI (c_set s k c) /\ forall s', c_set s k c = (s', Ret tt) -> oend (snd s') = oend (snd s) /\ obeg (snd s') = obeg (snd s) /\ 0 <= oend (snd s) + k < zlen (obuf (snd s')) /\ fst s' = fst s.
Proof.
  intros H. pose proof H as (H1 & H2 & H3 & H4). unfold c_set. destruct (bytes_set _ _ _) as [ob|e| |] eqn:E.
  - pose proof (bytes_set_len _ _ _ _ E) as L. split.
    + apply good_ret. split; [exact H1|]. unfold bo_inv. cbn [snd obuf obeg oend]. rewrite L. auto.
    + intros s' Es. injection Es as <-. cbn [fst snd obuf obeg oend]. unfold bytes_set in E. destruct (_ && _) eqn:B; [|discriminate]. rewrite L. repeat split; try reflexivity; lia.
  - split; [now apply good_raise|discriminate].
  - now apply bytes_set_not_undef in E.
  - split; [split; [exact H|discriminate]|discriminate].
Qed.
Lemma c_sets_good l : forall s k, EI s -> Forall (fun v => v <> Undef) l -> good EI (c_sets s k l) /\
  forall s', c_sets s k l = (s', Ret tt) -> oend (snd s') = oend (snd s) /\ obeg (snd s') = obeg (snd s) /\ (l = [] \/ 0 <= oend (snd s) + k + zlen l <= zlen (obuf (snd s'))) /\ fst s' = fst s.
Proof.
  induction l as [|v l IH]; intros s k H F; cbn [c_sets].
  - split; [now apply good_ret|]. intros s' E. injection E as <-. repeat split; auto.
  - inversion F as [|? ? F1 F2]; subst. split.
    + apply good_bind; [split; [exact H|exact F1]|]. intros s1 c E H1. apply good_bind; [now apply c_set_good|]. intros s2 u _ H2. now apply IH.
    + intros s' E. destruct v as [c|e| |]; cbn [bind] in E; try discriminate E. destruct (c_set_good s k c H) as (G & K). destruct (c_set s k c) as [s1 r]. destruct r as [[]|e| |]; cbn [bind] in E; try discriminate E.
      destruct (K s1 eq_refl) as (K1 & K2 & K3 & K4). destruct G as (G & _). cbn [fst] in G. destruct (IH s1 (k + 1) G F2) as (_ & J). destruct (J s' E) as (J1 & J2 & J3 & J4).
      split; [congruence|]. split; [congruence|]. split; [|congruence]. right. rewrite zlen_cons. destruct J3 as [->|J3]; [|lia].
      cbn [c_sets] in E. injection E as <-. change (zlen []) with 0. lia.
Qed.
(* ensure_capacity, the values, the new end *)
Lemma c_emit_good (s : X * bo) l n : EI s -> Forall (fun v => v <> Undef) l -> n = zlen l -> 0 < n ->
  forall k : X * bo -> X * bo * out unit, (forall s, EI s -> good EI (k s)) ->
  good EI (let! (s, u) := c_sets s 0 l in k (c_adv s n)).
Proof.
  intros H F -> Hn k Hk. destruct (c_sets_good l s 0 H F) as (G & K). apply good_bind; [exact G|]. intros s' [] E (W' & B1 & B2 & B3). destruct (K s' E) as (K1 & K2 & K3 & K4).
  apply Hk. split; [exact W'|]. destruct H as (_ & (H1 & _)). unfold bo_inv, c_adv. cbn [snd obuf obeg oend]. destruct K3 as [->|K3]; [change (zlen []) with 0 in Hn; lia|]. lia.
Qed.
Variables (put_char put_byte : X * bo -> Z -> (X * bo) * out unit) (flush finish : X * bo -> (X * bo) * out unit) (wipe : X -> X).
Hypothesis put_char_good : forall s c, EI s -> good EI (put_char s c).
Hypothesis put_byte_good : forall s c, EI s -> good EI (put_byte s c).
Hypothesis flush_good : forall s, EI s -> good EI (flush s).
Hypothesis finish_good : forall s, EI s -> good EI (finish s).
Hypothesis wipe_good : forall x, W x -> W (wipe x).
Lemma put_loop_good n : forall s str i, EI s -> good EI (put_loop X put_char n s str i).
Proof.
  induction n as [|n IH]; intros s str i H; cbn [put_loop]; [now apply good_ret|]. apply good_bind; [split; [exact H|apply bytes_get_not_undef]|].
  intros s1 c _ H1. apply good_bind; [now apply put_char_good|]. intros s2 u _ H2. now apply IH.
Qed.
Lemma put_iter_good str : forall s, EI s -> good EI (put_iter X put_char s str).
Proof.
  induction str as [|c l IH]; intros s H; cbn [put_iter]; [now apply good_ret|]. apply good_bind; [now apply put_char_good|]. intros s2 u _ H2. now apply IH.
Qed.
Lemma charwise_safe : t_safe true (charwise X put_char put_byte flush finish wipe) EI.
Proof.
  split; [|split].
  - intros s o H Hp. destruct o as [b ofs len|str|c|n| | | | | | |]; cbn [t_step charwise t_put_substring t_put_string t_put_char t_put_byte t_flush t_finish t_available t_get_string t_get_substring t_get_char t_get_byte].
    + apply unit_obs_good. now apply put_loop_good.
    + apply unit_obs_good. now apply put_iter_good.
    + apply unit_obs_good. now apply put_char_good.
    + apply unit_obs_good. now apply put_byte_good.
    + apply unit_obs_good. now apply flush_good.
    + apply unit_obs_good. now apply finish_good.
    + split; [exact H|discriminate].
    + apply bytes_obs_good. apply on_bo_good; [exact H|apply get_string_good, H].
    + apply substring_obs_good. apply on_bo_good; [exact H|apply get_substring_good, H].
    + apply int_obs_good. apply on_bo_good; [exact H|apply (get_char_good fresh fresh_len), H].
    + apply int_obs_good. apply on_bo_good; [exact H|apply (get_char_good fresh fresh_len), H].
  - intros _ s (H1 & H2). apply good_ret. split; [now apply wipe_good|now apply bo_wipe_good].
  - intros s s' b o n (H1 & H2) E. cbn [charwise t_get_substring] in E. unfold on_bo in E. destruct (bo_get_substring (snd s)) as [b' r] eqn:Eb. cbn [fst snd] in E. injection E as _ ->. now apply (substring_small _ _ _ _ _ H2 Eb).
Qed.
Lemma put_byte_chr_good s c : EI s -> good EI (put_byte_chr X put_char s c).
Proof. intros H. unfold put_byte_chr. destruct (_ && _); [now apply put_char_good|now apply good_raise]. Qed.
End Encoder.

Lemma tbl_not_undef i : tbl i <> Undef. Proof. apply bytes_get_not_undef. Qed.
Lemma chr_not_undef i : chr i <> Undef. Proof. unfold chr. destruct (_ && _); discriminate. Qed.
Lemma obind_not_undef {A B} (r : out A) (k : A -> out B) : r <> Undef -> (forall a, k a <> Undef) -> obind r k <> Undef.
Proof. intros H1 H2. destruct r; cbn [obind]; [apply H2|discriminate|now destruct H1|discriminate]. Qed.
Lemma get_good {X} (W : X -> Prop) (s : X * bo) b i : EI X W s -> good (EI X W) (s, bytes_get b i).
Proof. intros H. split; [exact H|apply bytes_get_not_undef]. Qed.

Ltac not_undef := repeat first [apply Forall_nil|apply Forall_cons|apply tbl_not_undef|apply bytes_get_not_undef|apply chr_not_undef|apply obind_not_undef; [|intros ?]].
(* Base64 encoder *)
Definition bew (x : b64e) : Prop := zlen (be_ibuf x) = 3.
Notation BE := (EI b64e bew).
Lemma BE_upd s i c : BE s -> BE (be_upd s i c). Proof. intros (H1 & H2). split; [exact H1|exact H2]. Qed.
Lemma b64e_newline_good s (k : b64e * bo -> b64e * bo * out unit) : BE s -> (forall s, BE s -> good BE (k s)) -> 
  good BE (let! (s, u) := c_ensure fresh s 1 in let! (s, u) := c_set s 0 10 in k (c_adv s 1)).
Proof.
  intros H Hk. apply good_bind; [now apply c_ensure_good|]. intros s1 u _ H1. destruct (c_set_good _ bew s1 0 10 H1) as (G & K). apply good_bind; [exact G|]. intros s2 [] E (W2 & B1 & B2 & B3). destruct (K s2 E) as (K1 & K2 & K3 & K4).
  apply Hk. split; [exact W2|]. destruct H1 as (_ & (H1 & _)). unfold bo_inv, c_adv. cbn [snd obuf obeg oend]. lia.
Qed.
Lemma b64e_put_char_good ml s c : BE s -> good BE (b64e_put_char fresh ml s c).
Proof.
  intros H. unfold b64e_put_char. apply good_bind.
  { unfold be_set_char. destruct (bytes_set _ _ _) as [ob|e| |] eqn:E; [|now apply good_raise|now apply bytes_set_not_undef in E|split; [exact H|discriminate]].
    apply good_ret. split; [|apply H]. unfold bew. cbn [fst be_ibuf]. rewrite (bytes_set_len _ _ _ _ E). apply H. }
  intros s1 u _ H1. apply (BE_upd s1 (be_ipos (fst s1) + 1) (be_col (fst s1))) in H1. cbv zeta. destruct (_ =? 3); [|now apply good_ret].
  apply good_bind; [now apply get_good|]. intros s2 b0 _ H2. apply good_bind; [now apply get_good|]. intros s3 b1 _ H3. apply good_bind; [now apply get_good|]. intros s4 b2 _ H4.
  apply good_bind; [now apply c_ensure_good|]. intros s5 u5 _ H5. apply (c_emit_good _ bew s5 _ 4 H5) with (k := fun s => let s := be_upd s 0 (be_col (fst s) + 4) in
    if ml && (be_col (fst s) >=? 72) then
      let! (s, u) := c_ensure fresh s 1 in
      let! (s, u) := c_set s 0 10 in
      let s := c_adv s 1 in
      (be_upd s (be_ipos (fst s)) 0, Ret tt)
    else (s, Ret tt)); [not_undef|reflexivity|lia|].
  intros s6 H6. apply (BE_upd s6 0 (be_col (fst s6) + 4)) in H6. cbv zeta. destruct (_ && _); [|now apply good_ret].
  apply (b64e_newline_good _ (fun s => (be_upd s (be_ipos (fst s)) 0, Ret tt)) H6). intros s7 H7. apply good_ret. now apply BE_upd.
Qed.
Lemma b64e_finish_good ml pad s : BE s -> good BE (b64e_finish fresh ml pad s).
Proof.
  intros H. unfold b64e_finish. apply good_bind.
  { destruct (_ =? 1); [|destruct (_ =? 2); [|now apply good_ret]].
    - apply good_bind; [now apply c_ensure_good|]. intros s1 u1 _ H1. apply good_bind; [now apply get_good|]. intros s2 b0 _ H2.
      apply (c_emit_good _ bew s2 _ 2 H2) with (k := fun s => (s, Ret tt)); [not_undef|reflexivity|lia|]. intros s3 H3. now apply good_ret.
    - apply good_bind; [now apply c_ensure_good|]. intros s1 u1 _ H1. apply good_bind; [now apply get_good|]. intros s2 b0 _ H2. apply good_bind; [now apply get_good|]. intros s3 b1 _ H3.
      apply (c_emit_good _ bew s3 _ 3 H3) with (k := fun s => (s, Ret tt)); [not_undef|reflexivity|lia|]. intros s4 H4. now apply good_ret. }
  intros s1 u1 _ H1. apply good_bind.
  { destruct (_ || _); [|now apply good_ret]. cbv zeta. set (n := if be_ipos (fst s1) =? 1 then 2 else if be_ipos (fst s1) =? 2 then 1 else 0). apply good_bind; [now apply c_ensure_good|]. intros s2 u2 _ H2.
    destruct (bytes_fill _ _ _ _) as [ob|e| |] eqn:E; [|now apply good_raise|unfold bytes_fill in E; destruct (in_range _ _ _); discriminate|split; [exact H2|discriminate]].
    apply good_ret. destruct H2 as (W2 & B1 & B2 & B3). split; [exact W2|]. pose proof (bytes_fill_len _ _ _ _ _ E) as L. unfold bytes_fill in E. destruct (in_range _ _ _) eqn:R; [|discriminate]. apply in_range_true in R.
    unfold bo_inv, c_adv. cbn [snd obuf obeg oend]. rewrite L. lia. }
  intros s2 u2 _ H2. apply good_bind.
  { destruct (_ && _); [|now apply good_ret]. apply (b64e_newline_good _ (fun s => (s, Ret tt)) H2). intros s3 H3. now apply good_ret. }
  intros s3 u3 _ H3. apply good_ret. now apply BE_upd.
Qed.
Lemma base64_encode_t ml pad : t_safe true (base64_encode fresh ml pad) BE.
Proof.
  apply charwise_safe.
    + intros. now apply b64e_put_char_good.
    + intros s c H. apply put_byte_chr_good; [|exact H]. intros. now apply b64e_put_char_good.
    + intros. now apply good_raise.
    + intros. now apply b64e_finish_good.
    + intros x Hx. unfold bew, b64e_wipe. cbn [be_ibuf]. rewrite zlen_zeros by apply zlen_nonneg. exact Hx.
Qed.
Lemma base64_encode_new_ok : BE (base64_encode_new fresh).
Proof.
  split; [apply fresh_len; lia|]. apply bo_new_inv; [exact fresh_len|unfold max_string_length; lia].
Qed.
Lemma base64_encode_safe ml pad : obj_safe true (TObj (base64_encode fresh ml pad) (base64_encode_new fresh)).
Proof. exists BE. exact (conj (base64_encode_t ml pad) base64_encode_new_ok). Qed.

(* Base64 decoder *)
Definition bdw (x : b64d) : Prop := zlen (bd_ibuf x) = 4.
Notation BD := (EI b64d bdw).
Lemma BD_upd s i c : BD s -> BD (bd_upd s i c). Proof. intros (H1 & H2). split; [exact H1|exact H2]. Qed.
Lemma decode_char_not_undef c : base64_decode_char c <> Undef.
Proof. unfold base64_decode_char. repeat match goal with |- context [if ?b then _ else _] => destruct b end; discriminate. Qed.
Lemma b64d_put_char_good s c : BD s -> good BD (b64d_put_char fresh s c).
Proof.
  intros H. unfold b64d_put_char. destruct (_ =? 61); [apply good_ret; now apply BD_upd|]. apply good_bind; [split; [exact H|apply decode_char_not_undef]|]. intros s1 n _ H1.
  destruct (_ >=? 0); [|now apply good_ret]. destruct (bd_fin _); [now apply good_raise|]. apply good_bind.
  { unfold bd_set. destruct (bytes_set _ _ _) as [ob|e| |] eqn:E; [|now apply good_raise|now apply bytes_set_not_undef in E|split; [exact H1|discriminate]].
    apply good_ret. split; [|apply H1]. unfold bdw. cbn [fst bd_ibuf]. rewrite (bytes_set_len _ _ _ _ E). apply H1. }
  intros s2 u2 _ H2. apply (BD_upd s2 (bd_ipos (fst s2) + 1) (bd_fin (fst s2))) in H2. cbv zeta. destruct (_ =? 4); [|now apply good_ret].
  apply good_bind; [now apply c_ensure_good|]. intros s3 u3 _ H3. apply (c_emit_good _ bdw s3 _ 3 H3) with (k := fun s => (bd_upd s 0 (bd_fin (fst s)), Ret tt)); [unfold bd_c0, bd_c1, bd_c2; not_undef|reflexivity|lia|].
  intros s4 H4. apply good_ret. now apply BD_upd.
Qed.
Lemma b64d_finish_good s : BD s -> good BD (b64d_finish fresh s).
Proof.
  intros H. unfold b64d_finish. apply (BD_upd s (bd_ipos (fst s)) true) in H. cbv zeta. destruct (_ =? 1); [now apply good_raise|]. destruct (_ =? 2); [|destruct (_ =? 3); [|now apply good_ret]].
  - apply good_bind; [now apply c_ensure_good|]. intros s3 u3 _ H3. apply (c_emit_good _ bdw s3 _ 1 H3) with (k := fun s => (s, Ret tt)); [unfold bd_c0, bd_c1, bd_c2; not_undef|reflexivity|lia|]. intros s4 H4. now apply good_ret.
  - apply good_bind; [now apply c_ensure_good|]. intros s3 u3 _ H3. apply (c_emit_good _ bdw s3 _ 2 H3) with (k := fun s => (s, Ret tt)); [unfold bd_c0, bd_c1, bd_c2; not_undef|reflexivity|lia|]. intros s4 H4. now apply good_ret.
Qed.
Lemma base64_decode_t : t_safe true (base64_decode fresh) BD.
Proof.
  apply charwise_safe.
    + intros. now apply b64d_put_char_good.
    + intros s c H. apply put_byte_chr_good; [|exact H]. intros. now apply b64d_put_char_good.
    + intros. now apply good_raise.
    + intros. now apply b64d_finish_good.
    + intros x Hx. reflexivity.
Qed.
Lemma base64_decode_new_ok : BD (base64_decode_new fresh).
Proof.
  split; [reflexivity|]. apply bo_new_inv; [exact fresh_len|unfold max_string_length; lia].
Qed.
Lemma base64_decode_safe : obj_safe true (TObj (base64_decode fresh) (base64_decode_new fresh)).
Proof. exists BD. exact (conj (base64_decode_t) base64_decode_new_ok). Qed.

(* hexadecimal *)
Notation HE := (EI unit (fun _ => True)).
Lemma hexe_put_byte_good s c : HE s -> good HE (hexe_put_byte fresh s c).
Proof.
  intros H. unfold hexe_put_byte. apply good_bind; [now apply c_ensure_good|]. intros s3 u3 _ H3. apply (c_emit_good _ (fun _ => True) s3 _ 2 H3) with (k := fun s => (s, Ret tt)); [not_undef|reflexivity|lia|]. intros s4 H4. now apply good_ret.
Qed.
Lemma hexa_encode_t : t_safe true (hexa_encode fresh) HE.
Proof.
  apply charwise_safe; try (intros; now apply hexe_put_byte_good); try (intros; now apply good_ret). trivial.
Qed.
Lemma hexa_encode_new_ok : HE (hexa_encode_new fresh).
Proof.
  split; [exact Logic.I|]. apply bo_new_inv; [exact fresh_len|unfold max_string_length; lia].
Qed.
Lemma hexa_encode_safe : obj_safe true (TObj (hexa_encode fresh) (hexa_encode_new fresh)).
Proof. exists HE. exact (conj (hexa_encode_t) hexa_encode_new_ok). Qed.
Definition hdw (x : hexd) : Prop := zlen (hd_ibuf x) = 2.
Notation HD := (EI hexd hdw).
Lemma HD_upd s i : HD s -> HD (hd_upd s i). Proof. intros (H1 & H2). split; [exact H1|exact H2]. Qed.
Lemma hex_char_not_undef c : hex_decode_char c <> Undef.
Proof. unfold hex_decode_char. repeat match goal with |- context [if ?b then _ else _] => destruct b end; discriminate. Qed.
Lemma hexd_put_char_good s c : HD s -> good HD (hexd_put_char fresh s c).
Proof.
  intros H. unfold hexd_put_char. apply good_bind; [split; [exact H|apply hex_char_not_undef]|]. intros s1 n _ H1. destruct (_ >=? 0); [|now apply good_ret]. apply good_bind.
  { unfold hd_set. destruct (bytes_set _ _ _) as [ob|e| |] eqn:E; [|now apply good_raise|now apply bytes_set_not_undef in E|split; [exact H1|discriminate]].
    apply good_ret. split; [|apply H1]. unfold hdw. cbn [fst hd_ibuf]. rewrite (bytes_set_len _ _ _ _ E). apply H1. }
  intros s2 u2 _ H2. apply (HD_upd s2 (hd_ipos (fst s2) + 1)) in H2. cbv zeta. destruct (_ =? 2); [|now apply good_ret].
  apply good_bind; [now apply c_ensure_good|]. intros s3 u3 _ H3. apply (c_emit_good _ hdw s3 _ 1 H3) with (k := fun s => (hd_upd s 0, Ret tt)); [unfold hd_c; not_undef|reflexivity|lia|].
  intros s4 H4. apply good_ret. now apply HD_upd.
Qed.
Lemma hexa_decode_t : t_safe true (hexa_decode fresh) HD.
Proof.
  apply charwise_safe.
    + intros. now apply hexd_put_char_good.
    + intros s c H. apply put_byte_chr_good; [|exact H]. intros. now apply hexd_put_char_good.
    + intros s H. unfold hexd_flush. destruct (negb _); [now apply good_raise|now apply good_ret].
    + intros s H. unfold hexd_finish. destruct (negb _); [now apply good_raise|now apply good_ret].
    + intros x Hx. reflexivity.
Qed.
Lemma hexa_decode_new_ok : HD (hexa_decode_new fresh).
Proof.
  split; [reflexivity|]. apply bo_new_inv; [exact fresh_len|unfold max_string_length; lia].
Qed.
Lemma hexa_decode_safe : obj_safe true (TObj (hexa_decode fresh) (hexa_decode_new fresh)).
Proof. exists HD. exact (conj (hexa_decode_t) hexa_decode_new_ok). Qed.

Lemma arcfour_tr_safe key d o : Cipher_arcfour fresh key d = Ret o -> obj_safe true o.
Proof.
  unfold Cipher_arcfour, new_arcfour. destruct (_ && _); [|discriminate]. cbn [obind]. intros E. apply ret_inj in E. subst o.
  exact (stream_safe arcfour_class arc_inv _ (arcfour_good fresh fresh_len) (fun s => arc_wipe_inv s) (arc_cook_inv fresh fresh_len key)).
Qed.
Lemma chacha_tr_safe iv ctr key d o : Cipher_chacha20 fresh iv ctr key d = Ret o -> obj_safe true o.
Proof.
  unfold Cipher_chacha20, new_chacha20. destruct (negb _); [discriminate|]. destruct (match iv with None => _ | Some _ => _ end) as [v|e| |]; cbn [obind]; try discriminate.
  intros E. apply ret_inj in E. subst o.
  exact (stream_safe chacha20_class cc_inv _ (chacha_good fresh fresh_len) (fun s => chacha_wipe_inv s) (chacha_init_inv fresh fresh_len key v ctr)).
Qed.
Lemma lib_tr_safe w o : lib_tr fresh w o -> obj_safe w o.
Proof.
  induction 1 as [nb m p iv key d o Hn E|nb m p iv key d o Hw Hn B E|key d o E|iv ctr key d o E|ml pad| | | |o1 o2 _ IH1 _ IH2].
  - apply obj_safe_weaken. apply (make_obj_safe true nb m p iv key d o); [exact (feistel_good fresh fresh_len nb key Hn)|exact E].
  - subst w. apply (make_obj_safe false nb m p iv key d o); [exact (rijndael_good fresh fresh_len nb key Hn B)|exact E].
  - apply obj_safe_weaken. exact (arcfour_tr_safe key d o E).
  - apply obj_safe_weaken. exact (chacha_tr_safe iv ctr key d o E).
  - apply obj_safe_weaken, base64_encode_safe.
  - apply obj_safe_weaken, base64_decode_safe.
  - apply obj_safe_weaken, hexa_encode_safe.
  - apply obj_safe_weaken, hexa_decode_safe.
  - now apply obj_compose_safe.
Qed.
Lemma lib_tr_memory w o : lib_tr fresh w o -> transform_memory_safe w (o_tr o) (o_st o).
Proof. intros H. now apply obj_safe_safe, lib_tr_safe. Qed.

(* ---------------- hashes ---------------- *)
Lemma hash_safe_weaken (w : bool) H s : hash_memory_safe H s -> hash_safe w H s.
Proof. intros G l Hl _. now apply G. Qed.
Lemma lib_h_safe w o : lib_h fresh w o -> hash_safe w (ho_class o) (ho_st o).
Proof.
  intros [o0 B H|o0 B key m H L E|sz key o0 E|sz key o0 E|nb iv p key o0 H E|iv p key o0 E|nb iv p key o0 Hw H B E|sz b o0 Hw E].
  - apply hash_safe_weaken. exact (md_safe fresh fresh_len o0 B H).
  - apply hash_safe_weaken. exact (hmac_safe fresh fresh_len o0 B key m H L E).
  - apply hash_safe_weaken. destruct E as [E|E]; [exact (blake2b_safe fresh fresh_len sz key o0 E)|exact (blake2s_safe fresh fresh_len sz key o0 E)].
  - apply hash_safe_weaken. exact (sip_good fresh sz key o0 fresh_len E).
  - apply hash_safe_weaken. exact (feistel_mac_safe fresh fresh_len nb iv p key o0 H E).
  - apply hash_safe_weaken. exact (des_triple_good fresh fresh_len iv p key o0 E).
  - subst w. intros l Hl [Hw|Hw]; [discriminate Hw|]. destruct E as [E|E]; [exact (rijndael_mac_unwiped fresh fresh_len nb iv p key o0 H B E l Hl Hw)|exact (rijndael_cmac_unwiped fresh fresh_len nb iv key o0 H B E l Hl Hw)].
  - subst w. intros l Hl [Hw|Hw]; [discriminate Hw|]. exact (sha3_good fresh sz b o0 fresh_len E l Hl Hw).
Qed.
Lemma hash_safe_step (w : bool) H s o : hash_safe w H s -> hop_possible o -> w = true \/ o <> HWipe -> hash_safe w H (fst (h_step H s o)) /\ snd (h_step H s o) <> OUndef.
Proof.
  intros G Ho Hw. split.
  - intros l Hl Hl2 Hi. apply (G (o :: l)); [now constructor| |].
    + destruct Hw as [Hw|Hw]; [now left|]. destruct Hl2 as [Hl2|Hl2]; [now left|]. right. intros [E|E]; [now apply Hw|now apply Hl2].
    + cbn [h_run]. destruct (h_step H s o) as [s1 ob]. cbn [fst] in Hi. destruct (h_run H s1 l) as [s2 obs]. now right.
  - intros E. apply (G [o]); [now constructor| |].
    + destruct Hw as [Hw|Hw]; [now left|]. right. intros [E'|[]]. now apply Hw.
    + cbn [h_run]. destruct (h_step H s o) as [s1 ob]. now left.
Qed.
Section HCalls.
Variables (w : bool) (H : hash).
Notation Q := (hash_safe w H).
Ltac hcall o := match goal with HS : Q ?s |- _ => destruct (hash_safe_step w H s o HS) as (G1 & G2) end.
Lemma hcall_sub s b o n : Q s -> zlen b <= max_string_length -> is_int o -> is_int n -> good Q (h_add_substring H s b o n).
Proof. intros Hs H1 H2 H3. hcall (AddSubstring b o n); [exact (conj H1 (conj H2 H3))|right; discriminate|]. split; [exact G1|]. intros E. apply G2. cbn [h_step]. unfold unit_obs. cbn [snd]. now rewrite E. Qed.
Lemma hcall_str s b : Q s -> zlen b <= max_string_length -> good Q (h_add_string H s b).
Proof. intros Hs H1. hcall (AddString b); [exact H1|right; discriminate|]. split; [exact G1|]. intros E. apply G2. cbn [h_step]. unfold unit_obs. cbn [snd]. now rewrite E. Qed.
Lemma hcall_char s c : Q s -> good Q (h_add_char H s c).
Proof. intros Hs. hcall (AddChar c); [exact Logic.I|right; discriminate|]. split; [exact G1|]. intros E. apply G2. cbn [h_step]. unfold unit_obs. cbn [snd]. now rewrite E. Qed.
Lemma hcall_byte s c : Q s -> good Q (h_add_byte H s c).
Proof. intros Hs. hcall (AddByte c); [exact Logic.I|right; discriminate|]. split; [exact G1|]. intros E. apply G2. cbn [h_step]. unfold unit_obs. cbn [snd]. now rewrite E. Qed.
Lemma hcall_result s : Q s -> good Q (h_result H s).
Proof. intros Hs. hcall Result; [exact Logic.I|right; discriminate|]. split; [exact G1|]. intros E. apply G2. cbn [h_step]. unfold bytes_obs. cbn [snd]. now rewrite E. Qed.
Lemma hcall_wipe s : w = true -> Q s -> good Q (h_wipe H s).
Proof. intros Hw Hs. hcall HWipe; [exact Logic.I|now left|]. split; [exact G1|]. intros E. apply G2. cbn [h_step]. unfold unit_obs. cbn [snd]. now rewrite E. Qed.
End HCalls.
End Fresh.
