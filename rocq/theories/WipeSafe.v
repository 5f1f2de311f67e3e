(* Memory safety of objects for any sequence of calls, wipe included *)
From Verif Require Import Prelude PreludeFacts SpecTransducer BufOutModel BufOut TransformModel BlockModel CipherModel EncModel HashModel SpecWipe.

Definition good {S A} (P : S -> Prop) (r : S * out A) : Prop := P (fst r) /\ snd r <> Undef.
Lemma good_bind {S A B} (P : S -> Prop) (r : S * out A) (k : S -> A -> S * out B) :
  good P r -> (forall s a, r = (s, Ret a) -> P s -> good P (k s a)) -> good P (let! (s, a) := r in k s a).
Proof.
  intros (H1 & H2) H. destruct r as [s [a|e| |]]; cbn [bind fst snd] in *; try (split; [exact H1|discriminate]); [|now destruct H2].
  apply H; [reflexivity|exact H1].
Qed.
Lemma good_weaken {S A} (P Q : S -> Prop) (r : S * out A) : good P r -> (P (fst r) -> Q (fst r)) -> good Q r.
Proof. intros (H1 & H2) H. split; [now apply H|exact H2]. Qed.
Lemma good_lift {S X A} (Q : X -> Prop) (P : S -> Prop) (f : X -> S) (r : X * out A) :
  good Q r -> (forall x, Q x -> P (f x)) -> good P (lift f r).
Proof. intros (H1 & H2) H. destruct r as [x o]. split; cbn [lift fst snd] in *; [now apply H|exact H2]. Qed.
Lemma good_ret {S A} (P : S -> Prop) s (a : A) : P s -> good P (s, Ret a).
Proof. intros H. split; [exact H|discriminate]. Qed.
Lemma good_raise {S A} (P : S -> Prop) s e : P s -> good P (s, @Raise A e).
Proof. intros H. split; [exact H|discriminate]. Qed.

Lemma blit_not_undef src so dst d n : blit src so dst d n <> Undef.
Proof. unfold blit. destruct (_ && _); discriminate. Qed.
Lemma blit_len src so dst d n r : blit src so dst d n = Ret r -> zlen r = zlen dst.
Proof.
  unfold blit. destruct (in_range src so n) eqn:E1; [|discriminate]. destruct (in_range dst d n) eqn:E2; [|discriminate]. cbn [andb].
  intros E. injection E as <-. apply in_range_true in E1. apply in_range_true in E2. apply zlen_splice; [lia|]. rewrite zlen_sub by lia. lia.
Qed.
Lemma blit_range src so dst d n r : blit src so dst d n = Ret r -> 0 <= so /\ 0 <= n /\ so + n <= zlen src /\ 0 <= d /\ d + n <= zlen dst.
Proof.
  unfold blit. destruct (in_range src so n) eqn:E1; [|discriminate]. destruct (in_range dst d n) eqn:E2; [|discriminate]. intros _.
  apply in_range_true in E1. apply in_range_true in E2. lia.
Qed.
Lemma bytes_set_len l i c r : bytes_set l i c = Ret r -> zlen r = zlen l.
Proof.
  unfold bytes_set. destruct (_ && _) eqn:E; [|discriminate]. apply andb_true_iff in E as [E1 E2]. apply Z.leb_le in E1. apply Z.ltb_lt in E2.
  intros H. injection H as <-. apply zlen_splice; [lia|]. rewrite zlen_one. lia.
Qed.
Lemma bytes_set_not_undef l i c : bytes_set l i c <> Undef.
Proof. unfold bytes_set. destruct (_ && _); discriminate. Qed.
Lemma bytes_get_not_undef l i : bytes_get l i <> Undef.
Proof. unfold bytes_get. destruct (_ && _); discriminate. Qed.
Lemma bytes_sub_not_undef l o n : bytes_sub l o n <> Undef.
Proof. unfold bytes_sub. destruct (in_range _ _ _); discriminate. Qed.
Lemma xor_bytes_safe src so dst d n : 0 <= so -> 0 <= n -> so + n <= zlen src -> 0 <= d -> d + n <= zlen dst ->
  exists r, xor_bytes src so dst d n = Ret r /\ zlen r = zlen dst.
Proof.
  intros H1 H2 H3 H4 H5. unfold xor_bytes. rewrite !(proj2 (in_range_true _ _ _)) by lia. cbn [andb]. eexists. split; [reflexivity|].
  apply zlen_splice; [lia|]. rewrite zlen_xorb; rewrite ?zlen_sub; lia.
Qed.
Lemma increment_counter_safe c lim pos : increment_counter c lim pos <> Undef /\ (forall r, increment_counter c lim pos = Ret r -> zlen r = zlen c).
Proof.
  unfold increment_counter. generalize (S (S (length c))). intros fuel. revert c pos. induction fuel as [|f IH]; intros c pos; cbn [increment_counter_loop]; [split; discriminate|].
  destruct (pos >=? lim); [|split; [discriminate|congruence]].
  unfold bytes_get, bytes_set. destruct (_ && _) eqn:E; [|split; discriminate].
  set (c' := splice c pos _). assert (zlen c' = zlen c) as El.
  { apply andb_true_iff in E as [E1 E2]. apply Z.leb_le in E1. apply Z.ltb_lt in E2. apply zlen_splice; [lia|]. rewrite zlen_one. lia. }
  destruct (_ =? 256); [|split; [discriminate|congruence]]. destruct (IH c' (pos - 1)) as (H1 & H2). split; [exact H1|].
  intros r Hr. rewrite (H2 r Hr). exact El.
Qed.

(* ------------------------------------------------------------------ *)
(* a block cipher that stays in bounds, I: an invariant of its state *)
Definition bc_good (C : block_cipher) (I : bc_st C -> Prop) : Prop :=
  forall s src so dst d, I s -> 0 <= so -> so + bc_blocksize C <= zlen src -> 0 <= d -> d + bc_blocksize C <= zlen dst ->
  good (fun r => I (fst r) /\ zlen (snd r) = zlen dst) (bc_transform C s src so dst d).

Lemma raw_good K bs prim wipe (I : K -> Prop) : (forall k b, I k -> zlen b = bs -> prim k b <> Undef /\ forall r, prim k b = Ret r -> zlen r = bs) -> 0 <= bs ->
  bc_good (raw_cipher K bs prim wipe) I.
Proof.
  intros H Hbs k src so dst d HI H1 H2 H3 H4. cbn [raw_cipher bc_transform bc_blocksize] in *.
  destruct (_ || _); [apply good_raise; now split|].
  assert (zlen (sub src so bs) = bs) as Hl by (rewrite zlen_sub; lia).
  destruct (H k _ HI Hl) as (Hu & Hr). destruct (prim k (sub src so bs)) as [r|e| |]; [| | now destruct Hu|].
  - apply good_ret. split; [exact HI|]. cbn [snd]. specialize (Hr r eq_refl). apply zlen_splice; lia.
  - apply good_raise; now split.
  - split; [now split|discriminate].
Qed.

Section Modes.
Variable fresh : Z -> bytes.
Hypothesis fresh_len : forall n, 0 <= n -> zlen (fresh n) = n.
Variable C : block_cipher.
Variable I : bc_st C -> Prop.
Hypothesis C_good : bc_good C I.
Hypothesis C_bs : 0 < bc_blocksize C.
Local Notation bs := (bc_blocksize C).
Definition MI (m : mode_st C) : Prop := zlen (ms_iv m) = bs /\ zlen (ms_tmp m) = bs /\ I (ms_c m).
Definition PI L (s : mode_st C * bytes) : Prop := MI (fst s) /\ zlen (snd s) = L.

Lemma to_iv_good L s r : PI L s -> r <> Undef -> (forall x, r = Ret x -> zlen x = bs) -> good (PI L) (to_iv C s r).
Proof.
  intros ((H1 & H2 & H3) & H4) Hu Hl. unfold to_iv. destruct r as [x|e| |]; [|apply good_raise; now repeat split|now destruct Hu|split; [now repeat split|discriminate]].
  apply good_ret. split; [|exact H4]. split; [exact (Hl x eq_refl)|now split].
Qed.
Lemma to_tmp_good L s r : PI L s -> r <> Undef -> (forall x, r = Ret x -> zlen x = bs) -> good (PI L) (to_tmp C s r).
Proof.
  intros ((H1 & H2 & H3) & H4) Hu Hl. unfold to_tmp. destruct r as [x|e| |]; [|apply good_raise; now repeat split|now destruct Hu|split; [now repeat split|discriminate]].
  apply good_ret. split; [|exact H4]. split; [exact H1|split; [exact (Hl x eq_refl)|exact H3]].
Qed.
Lemma to_dst_good L s r : PI L s -> r <> Undef -> (forall x, r = Ret x -> zlen x = L) -> good (PI L) (to_dst C s r).
Proof.
  intros ((H1 & H2 & H3) & H4) Hu Hl. unfold to_dst. destruct r as [x|e| |]; [|apply good_raise; now repeat split|now destruct Hu|split; [now repeat split|discriminate]].
  apply good_ret. split; [now split|exact (Hl x eq_refl)].
Qed.
Lemma c_dst_good L s src so d : PI L s -> 0 <= so -> so + bs <= zlen src -> 0 <= d -> d + bs <= L -> good (PI L) (c_transform_dst C s src so d).
Proof.
  intros ((H1 & H2 & H3) & H4) A1 A2 A3 A4. unfold c_transform_dst.
  destruct (C_good (ms_c (fst s)) src so (snd s) d H3 A1 A2 A3 ltac:(lia)) as ((G1 & G2) & G3).
  split; [|exact G3]. cbn [fst snd]. split; [|cbn [snd]; congruence]. split; [exact H1|split; [exact H2|exact G1]].
Qed.
Lemma c_iv_tmp_good L s : PI L s -> good (PI L) (c_transform_iv_tmp C s).
Proof.
  intros ((H1 & H2 & H3) & H4). unfold c_transform_iv_tmp.
  destruct (C_good (ms_c (fst s)) (ms_iv (fst s)) 0 (ms_tmp (fst s)) 0 H3 ltac:(lia) ltac:(lia) ltac:(lia) ltac:(lia)) as ((G1 & G2) & G3).
  split; [|exact G3]. cbn [fst snd]. split; [|exact H4]. split; [exact H1|split; [cbn [ms_tmp set_tmp set_c fst]; congruence|exact G1]].
Qed.
Lemma c_iv_iv_good L s : PI L s -> good (PI L) (c_transform_iv_iv C s).
Proof.
  intros ((H1 & H2 & H3) & H4). unfold c_transform_iv_iv.
  destruct (C_good (ms_c (fst s)) (ms_iv (fst s)) 0 (ms_iv (fst s)) 0 H3 ltac:(lia) ltac:(lia) ltac:(lia) ltac:(lia)) as ((G1 & G2) & G3).
  split; [|exact G3]. cbn [fst snd]. split; [|exact H4]. split; [cbn [ms_iv set_iv set_c fst]; congruence|split; [exact H2|exact G1]].
Qed.
Lemma blit_iv_good L s src so d n : PI L s -> good (PI L) (to_iv C s (blit src so (ms_iv (fst s)) d n)).
Proof. intros H. apply to_iv_good; [exact H|apply blit_not_undef|]. intros x Hx. rewrite (blit_len _ _ _ _ _ _ Hx). apply H. Qed.
Lemma blit_tmp_good L s src so d n : PI L s -> good (PI L) (to_tmp C s (blit src so (ms_tmp (fst s)) d n)).
Proof. intros H. apply to_tmp_good; [exact H|apply blit_not_undef|]. intros x Hx. rewrite (blit_len _ _ _ _ _ _ Hx). apply H. Qed.
Lemma blit_dst_good L s src so d n : PI L s -> good (PI L) (to_dst C s (blit src so (snd s) d n)).
Proof. intros H. apply to_dst_good; [exact H|apply blit_not_undef|]. intros x Hx. rewrite (blit_len _ _ _ _ _ _ Hx). apply H. Qed.
Lemma xor_iv_good L s src so n : PI L s -> 0 <= so -> 0 <= n <= bs -> so + n <= zlen src -> good (PI L) (to_iv C s (xor_bytes src so (ms_iv (fst s)) 0 n)).
Proof.
  intros H A1 A2 A3. pose proof H as ((H1 & _) & _). destruct (xor_bytes_safe src so (ms_iv (fst s)) 0 n) as (r & E & El); try lia.
  apply to_iv_good; [exact H|rewrite E; discriminate|]. intros x Hx. congruence.
Qed.
Lemma xor_dst_good L s src d n : PI L s -> zlen src = bs -> 0 <= n <= bs -> 0 <= d -> d + n <= L -> good (PI L) (to_dst C s (xor_bytes src 0 (snd s) d n)).
Proof.
  intros H A1 A2 A3 A4. pose proof H as (_ & H4). destruct (xor_bytes_safe src 0 (snd s) d n) as (r & E & El); try lia.
  apply to_dst_good; [exact H|rewrite E; discriminate|]. intros x Hx. congruence.
Qed.

Ltac nxt := apply good_bind; [|let s := fresh "s" in let u := fresh "u" in let H := fresh "HP" in intros s u _ H].
Lemma cbc_encrypt_good : bc_good (cbc_encrypt C) MI.
Proof.
  intros m src so dst d HI H1 H2 H3 H4. cbn [cbc_encrypt bc_transform bc_blocksize] in *.
  assert (PI (zlen dst) (m, dst)) as HP by (split; [exact HI|reflexivity]).
  apply (good_weaken (PI (zlen dst))); [|intros HH; exact HH].
  nxt. { apply xor_iv_good; try assumption; lia. }
  nxt. { apply c_dst_good; try assumption; try lia. destruct HP0 as ((E & _) & _). lia. }
  now apply blit_iv_good.
Qed.

Lemma cbc_decrypt_good : bc_good (cbc_decrypt C) MI.
Proof.
  intros m src so dst d HI H1 H2 H3 H4. cbn [cbc_decrypt bc_transform bc_blocksize] in *.
  assert (PI (zlen dst) (m, dst)) as HP by (split; [exact HI|reflexivity]).
  apply (good_weaken (PI (zlen dst))); [|intros HH; exact HH].
  nxt. { now apply blit_tmp_good. }
  nxt. { apply c_dst_good; try assumption; lia. }
  nxt. { apply xor_dst_good; try assumption; try lia. apply HP1. }
  now apply blit_iv_good.
Qed.
Lemma cfb_encrypt_good chunk : 0 < chunk <= bs -> bc_good (cfb_encrypt C chunk) MI.
Proof.
  intros Hc m src so dst d HI H1 H2 H3 H4. cbn [cfb_encrypt bc_transform bc_blocksize] in *.
  assert (PI (zlen dst) (m, dst)) as HP by (split; [exact HI|reflexivity]).
  apply (good_weaken (PI (zlen dst))); [|intros HH; exact HH].
  nxt. { now apply c_iv_tmp_good. }
  nxt. { now apply blit_dst_good. }
  nxt. { apply xor_dst_good; try assumption; try lia. apply HP1. }
  nxt. { now apply blit_iv_good. }
  now apply blit_iv_good.
Qed.
Lemma cfb_decrypt_good chunk : 0 < chunk <= bs -> bc_good (cfb_decrypt C chunk) MI.
Proof.
  intros Hc m src so dst d HI H1 H2 H3 H4. cbn [cfb_decrypt bc_transform bc_blocksize] in *.
  assert (PI (zlen dst) (m, dst)) as HP by (split; [exact HI|reflexivity]).
  apply (good_weaken (PI (zlen dst))); [|intros HH; exact HH].
  nxt. { now apply c_iv_tmp_good. }
  nxt. { now apply blit_iv_good. }
  nxt. { now apply blit_iv_good. }
  nxt. { now apply blit_dst_good. }
  apply xor_dst_good; try assumption; try lia. apply HP3.
Qed.
Lemma ofb_good chunk : 0 < chunk <= bs -> bc_good (ofb C chunk) MI.
Proof.
  intros Hc m src so dst d HI H1 H2 H3 H4. cbn [ofb bc_transform bc_blocksize] in *.
  assert (PI (zlen dst) (m, dst)) as HP by (split; [exact HI|reflexivity]).
  apply (good_weaken (PI (zlen dst))); [|intros HH; exact HH].
  nxt. { now apply c_iv_iv_good. }
  nxt. { now apply blit_dst_good. }
  apply xor_dst_good; try assumption; try lia. apply HP1.
Qed.
Lemma ctr_good n : bc_good (ctr C n) MI.
Proof.
  intros m src so dst d HI H1 H2 H3 H4. cbn [ctr bc_transform bc_blocksize] in *.
  assert (PI (zlen dst) (m, dst)) as HP by (split; [exact HI|reflexivity]).
  apply (good_weaken (PI (zlen dst))); [|intros HH; exact HH].
  nxt. { now apply c_iv_tmp_good. }
  nxt. { now apply blit_dst_good. }
  nxt. { apply xor_dst_good; try assumption; try lia. apply HP1. }
  nxt. { destruct (increment_counter_safe (ms_iv (fst s1)) (bs - n) (bs - 1)) as (E1 & E2).
         apply to_iv_good; [exact HP2|exact E1|]. intros x Hx. rewrite (E2 x Hx). apply HP2. }
  cbv zeta. destruct (_ =? 0); [now apply good_raise|]. apply good_ret. destruct HP3 as ((E1 & E2 & E3) & E4). now repeat split.
Qed.

Lemma mode_wipe_good : (forall s, I s -> I (bc_wipe C s)) -> forall m, MI m -> MI (mode_wipe C m).
Proof.
  intros H m (H1 & H2 & H3). unfold mode_wipe, MI. cbn [ms_iv ms_tmp ms_c]. rewrite !zlen_zeros by apply zlen_nonneg. repeat split; try assumption. now apply H.
Qed.

Lemma mode_init_good max iv c m : I c -> mode_init fresh C max iv c = Ret m -> MI m.
Proof.
  intros HI. unfold mode_init, make_initial_iv. destruct iv as [v|].
  - destruct (Z.eqb_spec (zlen v) bs) as [E|_]; [|discriminate]. cbn [obind]. intros H. injection H as <-.
    unfold MI. cbn [ms_iv ms_tmp ms_c]. rewrite fresh_len by lia. now repeat split.
  - cbn [obind]. intros H. injection H as <-. unfold MI. cbn [ms_iv ms_tmp ms_c]. rewrite fresh_len, zlen_zeros by lia. now repeat split.
Qed.
End Modes.

Section Objects.
Variable fresh : Z -> bytes.
Hypothesis fresh_len : forall n, 0 <= n -> zlen (fresh n) = n.

Lemma grow_loop_ge fuel : forall need newlen r, grow_loop fuel need newlen = Some r -> need <= r.
Proof.
  induction fuel as [|f IH]; intros need newlen r; cbn [grow_loop]; [discriminate|].
  rewrite Z.gtb_ltb. destruct (Z.ltb_spec newlen need); [apply IH|]. intros E. injection E as <-. lia.
Qed.

Lemma ensure_good b n : bo_inv b -> good bo_inv (ensure_capacity fresh b n).
Proof.
  intros Hb. pose proof Hb as (H1 & H2 & H3). unfold ensure_capacity.
  destruct (_ >? _); [|now apply good_ret].
  set (need := wrap63 (oend b - obeg b + n)).
  destruct (Z.ltb_spec need (zlen (obuf b))) as [L|L].
  - destruct (blit _ _ _ _ _) as [r|e| |] eqn:E; [|now apply good_raise|now apply blit_not_undef in E|split; [exact Hb|discriminate]].
    apply good_ret. unfold bo_inv. cbn [obeg oend obuf]. rewrite (blit_len _ _ _ _ _ _ E). lia.
  - destruct (grow_loop _ _ _) as [r|] eqn:G; [|split; [exact Hb|discriminate]]. apply grow_loop_ge in G.
    assert (forall nl, 0 < nl <= max_string_length -> good bo_inv (match blit (obuf b) (obeg b) (fresh nl) 0 (oend b - obeg b) with
        | Ret ob => (BO ob 0 (oend b - obeg b), Ret tt) | Raise e => (b, Raise e) | Undef => (b, Undef) | Hang => (b, Hang) end)) as Ha.
    { intros nl Hn. destruct (blit _ _ _ _ _) as [x|e| |] eqn:E; [|now apply good_raise|now apply blit_not_undef in E|split; [exact Hb|discriminate]].
      apply good_ret. unfold bo_inv. cbn [obeg oend obuf]. pose proof (blit_range _ _ _ _ _ _ E) as R. rewrite (blit_len _ _ _ _ _ _ E).
      rewrite fresh_len in * by lia. lia. }
    rewrite Z.gtb_ltb. destruct (Z.ltb_spec max_string_length r).
    + destruct (Z.leb_spec need max_string_length); [apply Ha; unfold max_string_length; lia|now apply good_raise].
    + apply Ha. lia.
Qed.
Lemma ensure_room b n b' : bo_inv b -> 0 <= n <= 2 ^ 60 -> ensure_capacity fresh b n = (b', Ret tt) -> oend b' + n <= zlen (obuf b').
Proof.
  intros Hb Hn E. pose proof Hb as (H1 & H2 & H3). pose proof (bo_contents_len b Hb) as Hc. pose proof max_small as Hm.
  destruct (Z_le_gt_dec (zlen (bo_contents b) + n) max_string_length) as [L|G].
  - destruct (ensure_capacity_ok fresh fresh_len b n Hb ltac:(lia) L) as (b1 & E1 & _ & _ & R). congruence.
  - rewrite (ensure_capacity_overflow fresh fresh_len b n Hb ltac:(lia) ltac:(clear - H1 H2 H3 Hn Hm; lia) G) in E. discriminate.
Qed.
Lemma get_string_good b : bo_inv b -> good bo_inv (bo_get_string b).
Proof.
  intros Hb. unfold bo_get_string. destruct (bytes_sub _ _ _) eqn:E; [|now apply good_raise|now apply bytes_sub_not_undef in E|split; [exact Hb|discriminate]].
  apply good_ret. destruct Hb as (H1 & H2 & H3). unfold bo_inv. cbn [obeg oend obuf]. lia.
Qed.
Lemma get_substring_good b : bo_inv b -> good bo_inv (bo_get_substring b).
Proof. intros (H1 & H2 & H3). apply good_ret. unfold bo_inv. cbn [obeg oend obuf]. lia. Qed.
Lemma get_char_good b : bo_inv b -> good bo_inv (bo_get_char b).
Proof.
  intros Hb. unfold bo_get_char. rewrite Z.geb_leb. destruct (Z.leb_spec (oend b) (obeg b)); [now apply good_raise|].
  destruct (bytes_get _ _) eqn:E; [|now apply good_raise|now apply bytes_get_not_undef in E|split; [exact Hb|discriminate]].
  apply good_ret. destruct Hb as (H1 & H2 & H3). unfold bo_inv. cbn [obeg oend obuf]. lia.
Qed.
Lemma bo_wipe_good b : bo_inv b -> bo_inv (bo_wipe b).
Proof. intros (H1 & H2 & H3). unfold bo_inv, bo_wipe. cbn [obeg oend obuf]. rewrite zlen_zeros by lia. lia. Qed.

(* ---------------- transforms in general ---------------- *)
Definition t_good (T : transform) (P : t_st T -> Prop) : Prop :=
  forall s w, P s -> wop_possible w -> P (fst (w_step T s w)) /\ snd (w_step T s w) <> OUndef.
Lemma t_good_run T P : t_good T P -> forall l s, P s -> Forall wop_possible l -> P (fst (w_run T s l)) /\ ~ In OUndef (snd (w_run T s l)).
Proof.
  intros HT. induction l as [|w l IH]; intros s Hs Hl; cbn [w_run]; [now split|]. inversion Hl; subst.
  destruct (HT s w Hs) as (G1 & G2); [assumption|]. destruct (w_step T s w) as [s1 ob]. cbn [fst snd] in *.
  destruct (IH s1 G1) as (I1 & I2); [assumption|]. destruct (w_run T s1 l) as [s2 obs]. cbn [fst snd] in *. split; [exact I1|].
  intros [E|E]; [now apply G2|now apply I2].
Qed.
(* without wipe *)
Definition t_calls (T : transform) (P : t_st T -> Prop) : Prop :=
  forall s o, P s -> op_possible o -> P (fst (t_step T s o)) /\ snd (t_step T s o) <> OUndef.
Lemma t_calls_safe T P : t_calls T P -> forall l s, P s -> Forall op_possible l -> ~ In OUndef (snd (w_run T s (map Call l))).
Proof.
  intros HT. induction l as [|w l IH]; intros s Hs Hl; cbn [map w_run w_step]; [now intros []|]. inversion Hl; subst.
  destruct (HT s w Hs) as (G1 & G2); [assumption|]. destruct (t_step T s w) as [s1 ob]. cbn [fst snd] in *.
  pose proof (IH s1 G1) as I2. destruct (w_run T s1 (map Call l)) as [s2 obs]. cbn [fst snd] in *.
  intros [E|E]; [now apply G2|now apply I2].
Qed.
Lemma t_good_safe T P s : t_good T P -> P s -> memory_safe T s.
Proof. intros HT Hs l Hl. now apply (t_good_run T P HT). Qed.
Lemma unit_obs_good {S} (P : S -> Prop) (r : S * out unit) : good P r -> P (fst (unit_obs r)) /\ snd (unit_obs r) <> OUndef.
Proof. intros (H1 & H2). split; [exact H1|]. cbn. destruct (snd r); try discriminate. now destruct H2. Qed.
Lemma int_obs_good {S} (P : S -> Prop) (r : S * out Z) : good P r -> P (fst (int_obs r)) /\ snd (int_obs r) <> OUndef.
Proof. intros (H1 & H2). split; [exact H1|]. cbn. destruct (snd r); try discriminate. now destruct H2. Qed.
Lemma bytes_obs_good {S} (P : S -> Prop) (r : S * out bytes) : good P r -> P (fst (bytes_obs r)) /\ snd (bytes_obs r) <> OUndef.
Proof. intros (H1 & H2). split; [exact H1|]. cbn. destruct (snd r); try discriminate. now destruct H2. Qed.
Lemma substring_obs_good {S} (P : S -> Prop) (r : S * out (bytes * Z * Z)) : good P r -> P (fst (substring_obs r)) /\ snd (substring_obs r) <> OUndef.
Proof. intros (H1 & H2). split; [exact H1|]. cbn. destruct (snd r) as [[[b o] n]|e| |]; try discriminate; [|now destruct H2]. destruct (in_range b o n); discriminate. Qed.

(* ---------------- the class cipher ---------------- *)
Section Cipher.
Variable C : block_cipher.
Variable I : bc_st C -> Prop.
Hypothesis C_good : bc_good C I.
Hypothesis C_bs : 0 < bc_blocksize C <= 2 ^ 60.
Local Notation bs := (bc_blocksize C).
Definition CI (s : cs C) : Prop := zlen (c_ibuf _ s) = bs /\ 0 <= c_used _ s <= bs /\ bo_inv (c_bo _ s) /\ I (c_c _ s).

Lemma CI_intro s : zlen (c_ibuf _ s) = bs -> 0 <= c_used _ s <= bs -> bo_inv (c_bo _ s) -> I (c_c _ s) -> CI s.
Proof. intros. split; [assumption|split; [assumption|split; assumption]]. Qed.
Lemma CI_bo s b : CI s -> bo_inv b -> CI (set_bo C s b).
Proof. intros (H1 & H2 & H3 & H4) H. now apply CI_intro. Qed.
Lemma process_block_good s : CI s -> good CI (process_block fresh C s).
Proof.
  intros (H1 & H2 & H3 & H4). unfold process_block. pose proof (ensure_good (c_bo _ s) bs H3) as He. pose proof (ensure_room (c_bo _ s) bs) as Hr.
  destruct (ensure_capacity fresh (c_bo _ s) bs) as [b o]. apply good_bind.
  - apply (good_lift bo_inv); [exact He|]. intros x Hx. apply CI_bo; [now apply CI_intro|exact Hx].
  - intros s0 [] E (G1 & G2 & G3 & G4). cbn [lift] in E. injection E as <- ->. specialize (Hr b H3 ltac:(lia) eq_refl). clear He.
    cbn [c_bo set_bo c_ibuf c_used c_c] in *.
    destruct (C_good (c_c _ s) (c_ibuf _ s) 0 (obuf b) (oend b)) as ((K1 & K2) & K3); try assumption; try lia; [destruct G3; lia|].
    destruct (bc_transform C (c_c _ s) (c_ibuf _ s) 0 (obuf b) (oend b)) as [[c' dst'] o']. cbn [fst snd] in *.
    assert (bo_inv (BO dst' (obeg b) (oend b))) as Hb by (destruct G3 as (P1 & P2 & P3); unfold bo_inv; cbn [obeg oend obuf]; rewrite K2; lia).
    apply good_bind.
    + split; [|exact K3]. cbn [fst]. now apply CI_intro.
    + intros s2 u E2 _. injection E2 as <- _. apply good_ret. cbn [set_bo c_bo c_ibuf c_used c_c obuf obeg oend]. apply CI_intro; try assumption.
      unfold bo_inv in *. cbn [obeg oend obuf set_bo c_bo c_ibuf c_used c_c] in *. lia.
Qed.
Lemma to_ibuf_good s r : CI s -> r <> Undef -> (forall x, r = Ret x -> zlen x = bs) -> good CI (to_ibuf C s r).
Proof.
  intros (H1 & H2 & H3 & H4) Hu Hl. unfold to_ibuf. destruct r as [x|e| |]; [|apply good_raise; now apply CI_intro|now destruct Hu|split; [now apply CI_intro|discriminate]].
  apply good_ret. apply CI_intro; try assumption. exact (Hl x eq_refl).
Qed.
Lemma CI_used s n : CI s -> 0 <= n <= bs -> CI (set_used C s n).
Proof. intros (H1 & H2 & H3 & H4) H. now apply CI_intro. Qed.
Lemma blit_ibuf_good s src so d n : CI s -> good CI (to_ibuf C s (blit src so (c_ibuf _ s) d n)).
Proof. intros H. apply to_ibuf_good; [exact H|apply blit_not_undef|]. intros x Hx. rewrite (blit_len _ _ _ _ _ _ Hx). apply H. Qed.
Lemma set_ibuf_good s i c : CI s -> good CI (to_ibuf C s (bytes_set (c_ibuf _ s) i c)).
Proof. intros H. apply to_ibuf_good; [exact H|apply bytes_set_not_undef|]. intros x Hx. rewrite (bytes_set_len _ _ _ _ Hx). apply H. Qed.

Lemma put_loop_good fuel : forall s src ofs len, CI s -> good CI (BlockModel.put_loop fresh C fuel s src ofs len).
Proof.
  induction fuel as [|f IH]; intros s src ofs len H; cbn [BlockModel.put_loop]; [split; [exact H|discriminate]|].
  destruct (len <=? 0); [now apply good_ret|]. destruct (_ <=? bs).
  - apply good_bind; [now apply blit_ibuf_good|]. intros s' u E Hs'. apply good_ret.
    unfold to_ibuf in E. destruct (blit _ _ _ _ _) as [x|e| |] eqn:Eb; try discriminate. injection E as <- _.
    apply blit_range in Eb. destruct H as (H1 & H2 & H3 & H4). apply CI_used; [exact Hs'|]. cbn [set_ibuf c_used]. lia.
  - apply good_bind; [now apply blit_ibuf_good|]. intros s1 u1 _ Hs1.
    apply good_bind; [now apply process_block_good|]. intros s2 u2 _ Hs2. apply IH. apply CI_used; [exact Hs2|lia].
Qed.
Lemma put_char_good s c : CI s -> good CI (cipher_put_char fresh C s c).
Proof.
  intros H. unfold cipher_put_char. destruct (Z.ltb_spec (c_used _ s) bs) as [L|L].
  - apply good_bind; [now apply set_ibuf_good|]. intros s1 u E H1. apply good_ret.
    unfold to_ibuf in E. destruct (bytes_set _ _ _) eqn:Eb; try discriminate. injection E as <- _. destruct H as (_ & H2 & _).
    apply CI_used; [exact H1|]. cbn [set_ibuf c_used]. lia.
  - apply good_bind; [now apply process_block_good|]. intros s1 u _ H1. apply good_bind; [now apply set_ibuf_good|]. intros s2 u2 _ H2.
    apply good_ret. apply CI_used; [exact H2|]. lia.
Qed.
Lemma flush_good s : CI s -> good CI (cipher_flush fresh C s).
Proof.
  intros H. unfold cipher_flush. destruct (_ =? 0); [now apply good_ret|]. destruct (_ =? bs); [|now apply good_raise].
  apply good_bind; [now apply process_block_good|]. intros s1 u _ H1. apply good_ret. apply CI_used; [exact H1|lia].
Qed.

Definition scheme_good (p : scheme) : Prop :=
  (forall b u, pad p b u <> Undef /\ forall r, pad p b u = Ret r -> zlen r = zlen b) /\ (forall b, strip p b <> Undef).

Lemma padded_encrypt_good p s : scheme_good p -> CI s -> good CI (padded_encrypt_finish fresh C p s).
Proof.
  intros (Hp & _) H. unfold padded_encrypt_finish. apply good_bind.
  - destruct (_ >=? _); [|now apply good_ret]. apply good_bind; [now apply process_block_good|]. intros s1 u _ H1. apply good_ret. apply CI_used; [exact H1|lia].
  - intros s1 u _ H1. apply good_bind; [|intros s2 u2 _ H2; now apply process_block_good].
    destruct (Hp (c_ibuf _ s1) (c_used _ s1)) as (P1 & P2). apply to_ibuf_good; [exact H1|exact P1|]. intros x Hx. rewrite (P2 x Hx). apply H1.
Qed.
Lemma padded_decrypt_good p s : scheme_good p -> CI s -> good CI (padded_decrypt_finish fresh C p s).
Proof.
  intros (_ & Hp) H. unfold padded_decrypt_finish. destruct (negb _); [now apply good_raise|]. pose proof H as (H1 & H2 & H3 & H4).
  destruct (C_good (c_c _ s) (c_ibuf _ s) 0 (c_ibuf _ s) 0) as ((K1 & K2) & K3); try assumption; try lia.
  destruct (bc_transform C _ _ _ _ _) as [[c' dst'] o']. cbn [fst snd] in *.
  apply good_bind; [split; [cbn [fst]; apply CI_intro; try assumption; cbn [c_ibuf]; lia|exact K3]|].
  intros s1 u1 E1 G1. injection E1 as <- _.
  apply good_bind; [split; [exact G1|apply Hp]|]. intros s2 valid E2 G2. injection E2 as <- _.
  apply good_bind; [apply (good_lift bo_inv); [apply ensure_good; apply G2|]; intros x Hx; now apply CI_bo|].
  intros s3 u3 _ G3. apply good_bind; [split; [exact G3|apply blit_not_undef]|]. intros s4 ob E4 G4. injection E4 as <- E4.
  apply good_ret. destruct G4 as (P1 & P2 & P3 & P4). pose proof (blit_len _ _ _ _ _ _ E4) as L. apply blit_range in E4.
  apply CI_intro; try assumption. unfold bo_inv in *. cbn [obeg oend obuf set_bo c_bo c_ibuf c_used c_c] in *. lia.
Qed.

Lemma cipher_calls fin : (forall s, CI s -> good CI (fin s)) -> t_calls (cipher_with_finish fresh C fin) CI.
Proof.
  intros Hf s o H Hp. destruct o as [b ofs len|str|c|n| | | | | | |]; cbn [t_step].
  + apply unit_obs_good. now apply put_loop_good.
  + apply unit_obs_good. now apply put_loop_good.
  + apply unit_obs_good. now apply put_char_good.
  + apply unit_obs_good. now apply put_char_good.
  + apply unit_obs_good. now apply flush_good.
  + apply unit_obs_good. now apply Hf.
  + split; [exact H|discriminate].
  + apply bytes_obs_good. apply (good_lift bo_inv); [apply get_string_good; apply H|]. intros x Hx. now apply CI_bo.
  + apply substring_obs_good. apply (good_lift bo_inv); [apply get_substring_good; apply H|]. intros x Hx. now apply CI_bo.
  + apply int_obs_good. apply (good_lift bo_inv); [apply get_char_good; apply H|]. intros x Hx. now apply CI_bo.
  + apply int_obs_good. apply (good_lift bo_inv); [apply get_char_good; apply H|]. intros x Hx. now apply CI_bo.
Qed.
Lemma cipher_good fin : (forall s, CI s -> good CI (fin s)) -> (forall s, I s -> I (bc_wipe C s)) -> t_good (cipher_with_finish fresh C fin) CI.
Proof.
  intros Hf Hw s w H Hp. destruct w as [o|]; cbn [w_step]; [now apply (cipher_calls fin Hf)|].
  apply unit_obs_good. apply good_ret. destruct H as (H1 & H2 & H3 & H4). cbn [fst]. apply CI_intro; cbn [c_ibuf c_used c_bo c_c].
  - rewrite zlen_zeros by apply zlen_nonneg. exact H1.
  - exact H2.
  - now apply bo_wipe_good.
  - now apply Hw.
Qed.
Lemma cipher_new_good c : I c -> bs <= 2 ^ 40 -> CI (cipher_new fresh C c).
Proof.
  intros H Hb. unfold cipher_new, CI. cbn [c_ibuf c_used c_bo c_c]. rewrite fresh_len by lia. split; [reflexivity|split; [lia|split; [|exact H]]].
  apply bo_new_inv; [exact fresh_len|unfold max_string_length; lia].
Qed.
End Cipher.

(* ---------------- stream ciphers ---------------- *)
Section Stream.
Variable C : stream_cipher.
Variable I : sc_st C -> Prop.
Definition sc_good : Prop := forall s src so dst d len, I s ->
  good (fun r => I (fst r) /\ zlen (snd r) = zlen dst) (sc_transform C s src so dst d len) /\
  (snd (sc_transform C s src so dst d len) = Ret tt -> 0 <= len /\ 0 <= d /\ d + len <= zlen dst).
Hypothesis C_good : sc_good.
Definition SI (s : sct C) : Prop := zlen (sct_buf _ s) = 1 /\ bo_inv (sct_bo _ s) /\ I (sct_c _ s).
Lemma SI_intro s : zlen (sct_buf _ s) = 1 -> bo_inv (sct_bo _ s) -> I (sct_c _ s) -> SI s.
Proof. intros. split; [assumption|split; assumption]. Qed.
Lemma sct_put_good s src ofs len : SI s -> good SI (
  let! (s, u) := sct_ensure fresh C s len in
  let! (s, u) := sct_transform C s src ofs len in
  (sct_adv C s len, Ret tt)).
Proof.
  intros (H1 & H2 & H3). apply good_bind.
  - unfold sct_ensure. apply (good_lift bo_inv); [now apply ensure_good|]. intros x Hx. now apply SI_intro.
  - intros s1 u _ (G1 & G2 & G3). destruct (C_good (sct_c _ s1) src ofs (obuf (sct_bo _ s1)) (oend (sct_bo _ s1)) len G3) as ((K1 & K2) & K3).
    unfold sct_transform. destruct (sc_transform C _ _ _ _ _ _) as [[c' dst'] o]. cbn [fst snd] in *.
    assert (bo_inv (BO dst' (obeg (sct_bo _ s1)) (oend (sct_bo _ s1)))) as Hb.
    { destruct G2 as (P1 & P2 & P3), K1 as (_ & K1). unfold bo_inv. cbn [obeg oend obuf]. rewrite K1. lia. }
    apply good_bind.
    + split; [|exact K2]. cbn [fst]. apply SI_intro; try assumption. apply K1.
    + intros s2 u2 E2 (L1 & L2 & L3). injection E2 as <- E2. subst o. destruct u2. specialize (K3 eq_refl). apply good_ret.
      unfold sct_adv. apply SI_intro; try assumption. unfold bo_inv in *. cbn [obeg oend obuf sct_bo] in *. destruct K1 as (_ & K1). rewrite K1 in *. lia.
Qed.
Lemma sct_put_char_good s c : SI s -> good SI (sct_put_char fresh C s c).
Proof.
  intros H. unfold sct_put_char. apply good_bind; [|intros s1 u _ H1; now apply (sct_put_good s1 (sct_buf C s1))].
  destruct H as (H1 & H2 & H3). destruct (bytes_set _ _ _) eqn:E.
  - apply good_ret. apply SI_intro; try assumption. cbn [sct_buf]. rewrite (bytes_set_len _ _ _ _ E). exact H1.
  - apply good_raise. now apply SI_intro.
  - now apply bytes_set_not_undef in E.
  - split; [now apply SI_intro|discriminate].
Qed.
Lemma stream_good : (forall s, I s -> I (sc_wipe C s)) -> t_good (stream_transform fresh C) SI.
Proof.
  intros Hw s w H Hp. pose proof H as (H1 & H2 & H3). destruct w as [o|]; cbn [w_step].
  - destruct o as [b ofs len|str|c|n| | | | | | |]; cbn [t_step].
    + apply unit_obs_good. now apply sct_put_good.
    + apply unit_obs_good. now apply sct_put_good.
    + apply unit_obs_good. now apply sct_put_char_good.
    + apply unit_obs_good. now apply sct_put_char_good.
    + apply unit_obs_good. now apply good_ret.
    + apply unit_obs_good. now apply good_ret.
    + split; [exact H|discriminate].
    + apply bytes_obs_good. destruct (get_string_good _ H2) as (G1 & G2). split; [now apply SI_intro|exact G2].
    + apply substring_obs_good. destruct (get_substring_good _ H2) as (G1 & G2). split; [now apply SI_intro|exact G2].
    + apply int_obs_good. destruct (get_char_good _ H2) as (G1 & G2). split; [now apply SI_intro|exact G2].
    + apply int_obs_good. destruct (get_char_good _ H2) as (G1 & G2). split; [now apply SI_intro|exact G2].
  - apply unit_obs_good. apply good_ret. cbn [fst]. apply SI_intro; cbn [sct_buf sct_bo sct_c].
    + rewrite zlen_zeros by apply zlen_nonneg. exact H1.
    + now apply bo_wipe_good.
    + now apply Hw.
Qed.
Lemma stream_new_good c : I c -> SI (stream_new fresh C c).
Proof.
  intros H. unfold stream_new. apply SI_intro; cbn [sct_buf sct_bo sct_c]; [apply fresh_len; lia| |exact H].
  apply bo_new_inv; [exact fresh_len|unfold max_string_length; lia].
Qed.
End Stream.
Lemma raw_stream_good K prim wipe (I : K -> Prop) : (forall k b, I k -> I (fst (prim k b)) /\ snd (prim k b) <> Undef /\ forall r, snd (prim k b) = Ret r -> zlen r = zlen b) ->
  sc_good (raw_stream K prim wipe) I.
Proof.
  intros H k src so dst d len HI. cbn [raw_stream sc_transform].
  destruct ((len <? 0) || (so <? 0) || (so >? zlen src - len) || (d <? 0) || (d >? zlen dst - len)) eqn:E; [split; [apply good_raise; now split|discriminate]|].
  assert (0 <= len /\ 0 <= so /\ so + len <= zlen src /\ 0 <= d /\ d + len <= zlen dst) as (L1 & L2 & L3 & L4 & L5) by lia.
  destruct (H k (sub src so len) HI) as (A1 & A2 & A3). destruct (prim k (sub src so len)) as [k' [r|e| |]]; cbn [fst snd] in *; [| | now destruct A2|].
  - split; [apply good_ret; split; [exact A1|]|intros _; lia]. cbn [snd]. specialize (A3 r eq_refl). rewrite zlen_sub in A3 by lia. apply zlen_splice; lia.
  - split; [apply good_raise; now split|discriminate].
  - split; [split; [now split|discriminate]|discriminate].
Qed.
End Objects.

(* ---------------- padding schemes ---------------- *)
Lemma bytes_fill_len l o n c r : bytes_fill l o n c = Ret r -> zlen r = zlen l.
Proof.
  unfold bytes_fill. destruct (in_range l o n) eqn:E; [|discriminate]. intros H. injection H as <-. apply in_range_true in E.
  apply zlen_splice; [lia|]. rewrite zlen_repeat. lia.
Qed.
Lemma length_check_not_undef cnt : forall b i n, length_check cnt b i n <> Undef.
Proof.
  induction cnt as [|c IH]; intros b i n; cbn [length_check]; [discriminate|].
  destruct (bytes_get b i) eqn:E; cbn [obind]; try discriminate; [|now apply bytes_get_not_undef in E]. destruct (_ =? _); [apply IH|discriminate].
Qed.
Lemma length_good : scheme_good padding_length.
Proof.
  split; cbn [padding_length pad strip].
  - intros b u. destruct (_ && _); [|split; discriminate]. split; [unfold bytes_fill; destruct (in_range _ _ _); discriminate|]. intros r. apply bytes_fill_len.
  - intros b. destruct (bytes_get _ _) eqn:E; cbn [obind]; try discriminate; [|now apply bytes_get_not_undef in E]. destruct (_ || _); [discriminate|].
    destruct (length_check _ _ _ _) eqn:E2; cbn [obind]; try discriminate. now apply length_check_not_undef in E2.
Qed.
Lemma zero_loop_good cnt : forall b i, zero_loop cnt b i <> Undef /\ forall r, zero_loop cnt b i = Ret r -> zlen r = zlen b.
Proof.
  induction cnt as [|c IH]; intros b i; cbn [zero_loop]; [split; [discriminate|congruence]|].
  destruct (bytes_set b i 0) eqn:E; cbn [obind]; try (split; discriminate); [|now apply bytes_set_not_undef in E].
  destruct (IH a (i + 1)) as (H1 & H2). split; [exact H1|]. intros r Hr. rewrite (H2 r Hr). now apply bytes_set_len in E.
Qed.
Lemma strip_loop_good fuel : forall b i, strip_loop fuel b i <> Undef.
Proof.
  induction fuel as [|f IH]; intros b i; cbn [strip_loop]; [discriminate|]. destruct (_ <? 0); [discriminate|].
  destruct (bytes_get b i) eqn:E; cbn [obind]; try discriminate; [|now apply bytes_get_not_undef in E].
  destruct (_ =? _); [discriminate|]. destruct (_ =? _); [apply IH|discriminate].
Qed.
Lemma p8000_good : scheme_good padding_8000.
Proof.
  split; cbn [padding_8000 pad strip].
  - intros b u. destruct (bytes_set b u 128) eqn:E; cbn [obind]; try (split; discriminate); [|now apply bytes_set_not_undef in E].
    match goal with |- zero_loop ?c ?x ?i <> _ /\ _ => destruct (zero_loop_good c x i) as (H1 & H2) end. split; [exact H1|].
    intros r Hr. rewrite (H2 r Hr). now apply bytes_set_len in E.
  - intros b. apply strip_loop_good.
Qed.
