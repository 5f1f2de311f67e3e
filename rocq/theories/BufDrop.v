(* Proofs of C87. *)
From Verif Require Import Prelude PreludeFacts SpecTransducer SpecDrop BufOutModel BufOut TransformModel BlockModel BlockBounds WipeSafe BufDropModel.

(* ---- sub under a frame ---- *)
Lemma nth_error_sub (l : bytes) o n i : 0 <= o -> Z.of_nat i < n -> o + n <= zlen l -> nth_error (sub l o n) i = nth_error l (Z.to_nat o + i).
Proof.
  intros Ho Hi Hn. unfold sub. rewrite <- (firstn_skipn (Z.to_nat o) l) at 2. unfold zlen in Hn.
  rewrite nth_error_app2 by (rewrite firstn_length; lia). rewrite firstn_length.
  replace (Z.to_nat o + i - Nat.min (Z.to_nat o) (length l))%nat with i by lia.
  rewrite <- (firstn_skipn (Z.to_nat n) (skipn (Z.to_nat o) l)) at 2.
  rewrite nth_error_app1 by (rewrite firstn_length, skipn_length; lia). reflexivity.
Qed.
Lemma list_ext (a b : bytes) : length a = length b -> (forall i, (i < length a)%nat -> nth_error a i = nth_error b i) -> a = b.
Proof.
  revert b. induction a as [|x a IH]; intros [|y b] Hl H; cbn in Hl; try lia; [reflexivity|].
  pose proof (H 0%nat ltac:(cbn; lia)) as H0. cbn in H0. injection H0 as ->. f_equal. apply IH; [lia|].
  intros i Hi. exact (H (S i) ltac:(cbn; lia)).
Qed.
Lemma frame_sub d n a b o k : frame d n a b -> 0 <= o -> 0 <= k -> o + k <= zlen a -> o + k <= d -> sub b o k = sub a o k.
Proof.
  intros (L & F) Ho Hk Hl Hd. assert (Hb : zlen b = zlen a) by (unfold zlen; lia).
  apply list_ext. { rewrite !length_sub by lia. reflexivity. }
  intros i Hi. rewrite length_sub in Hi by lia. rewrite !nth_error_sub by lia. apply F. lia.
Qed.
Lemma frame_zlen d n a b : frame d n a b -> zlen b = zlen a.
Proof. intros (L & _). unfold zlen. lia. Qed.

Lemma holds_sub (a : bytes) o n : 0 <= o -> 0 <= n -> o + n <= zlen a -> holds a (sub a o n).
Proof.
  intros Ho Hn Hl. exists (firstn (Z.to_nat o) a), (skipn (Z.to_nat n) (skipn (Z.to_nat o) a)).
  unfold sub. rewrite firstn_skipn, firstn_skipn. reflexivity.
Qed.

Lemma blit_zlen src so dst d n b : blit src so dst d n = Ret b -> zlen b = zlen dst.
Proof. intros H. exact (frame_zlen _ _ _ _ (frame_blit _ _ _ _ _ _ H)). Qed.
Lemma set_zlen l i c b : bytes_set l i c = Ret b -> zlen b = zlen l.
Proof.
  intros H. assert (E : 0 <= i < zlen l) by (unfold bytes_set in H; destruct ((0 <=? i) && (i <? zlen l)) eqn:E; [lia|discriminate]).
  rewrite bytes_set_ok in H by exact E. injection H as <-. rewrite zlen_splice; rewrite ?zlen_one; lia.
Qed.

Lemma get_string_inv b : bo_inv b -> bo_inv (fst (bo_get_string b)) /\ zlen (obuf (fst (bo_get_string b))) = zlen (obuf b).
Proof. intros H. unfold bo_get_string. destruct (bytes_sub _ _ _); cbn; split; try reflexivity; try exact H. destruct H as (? & ? & ?). unfold bo_inv. cbn [obuf obeg oend]. lia. Qed.
Lemma get_substring_inv b : bo_inv b -> bo_inv (fst (bo_get_substring b)) /\ zlen (obuf (fst (bo_get_substring b))) = zlen (obuf b).
Proof. intros (? & ? & ?). unfold bo_get_substring. cbn. split; [|reflexivity]. unfold bo_inv. cbn [obuf obeg oend]. lia. Qed.
Lemma get_char_inv b : bo_inv b -> bo_inv (fst (bo_get_char b)) /\ zlen (obuf (fst (bo_get_char b))) = zlen (obuf b).
Proof.
  intros H. unfold bo_get_char. destruct (_ >=? _) eqn:E; [split; [exact H|reflexivity]|].
  destruct (bytes_get _ _); cbn; split; try reflexivity; try exact H. destruct H as (? & ? & ?). unfold bo_inv. cbn [obuf obeg oend]. lia.
Qed.
Section Proofs.
Variable fresh : Z -> bytes.
Hypothesis fresh_len : forall n, 0 <= n -> zlen (fresh n) = n.

(* ---- ensure_capacity ---- *)
Lemma ecm_bo s n : (m_bo (fst (ensure_capacity_m fresh s n)), snd (ensure_capacity_m fresh s n)) = ensure_capacity fresh (m_bo s) n.
Proof.
  destruct s as [old b]. unfold ensure_capacity_m, ensure_capacity. cbn [m_bo m_old].
  destruct (_ >? _); [|reflexivity].
  destruct (_ <? _). { destruct (blit _ _ _ _ _); reflexivity. }
  destruct (grow_loop _ _ _) as [r|]; [|reflexivity].
  destruct (r >? _).
  - destruct (_ <=? _); [|reflexivity]. destruct (blit _ _ _ _ _); reflexivity.
  - destruct (blit _ _ _ _ _); reflexivity.
Qed.
Lemma ecm_old s n : bo_inv (m_bo s) -> 0 <= n <= 2 ^ 60 ->
  let s' := fst (ensure_capacity_m fresh s n) in
  (m_old s' = m_old s /\ zlen (obuf (m_bo s')) = zlen (obuf (m_bo s))) \/
  (m_old s' = obuf (m_bo s) :: m_old s /\ oend (m_bo s) - obeg (m_bo s) + n >= zlen (obuf (m_bo s))).
Proof.
  intros (H1 & H2 & H3) Hn. destruct s as [old b]. cbn [m_bo m_old] in *. unfold ensure_capacity_m. cbn [m_bo m_old].
  pose proof max_small.
  destruct (_ >? _); [|now left].
  rewrite (wrap63_id (oend b - obeg b + n)) by (unfold is_int; lia).
  destruct (oend b - obeg b + n <? zlen (obuf b)) eqn:E2.
  - rewrite blit_ok by lia. left. cbn [fst m_old m_bo obuf]. split; [reflexivity|]. apply zlen_splice; rewrite ?zlen_sub; lia.
  - destruct (grow_loop _ _ _) as [r|]; [|now left].
    destruct (r >? _).
    + destruct (_ <=? _); [|now left]. destruct (blit _ _ _ _ _); (now left) || (right; cbn; split; [reflexivity|lia]).
    + destruct (blit _ _ _ _ _); (now left) || (right; cbn; split; [reflexivity|lia]).
Qed.
Lemma ecm_any s n : bo_inv (m_bo s) -> let s' := fst (ensure_capacity_m fresh s n) in
  bo_inv (m_bo s') /\ exists l, m_old s' = l ++ m_old s.
Proof.
  intros Hi s'. split.
  - pose proof (ensure_good fresh fresh_len (m_bo s) n Hi) as G. rewrite <- ecm_bo in G. apply G.
  - unfold s'. clear. destruct s as [old b]. unfold ensure_capacity_m. cbn [m_bo m_old].
    destruct (_ >? _); [|now exists []]. destruct (_ <? _). { destruct (blit _ _ _ _ _); now exists []. }
    destruct (grow_loop _ _ _) as [r|]; [|now exists []]. destruct (r >? _).
    + destruct (_ <=? _); [|now exists []]. destruct (blit _ _ _ _ _); (now exists []) || (now exists [obuf b]).
    + destruct (blit _ _ _ _ _); (now exists []) || (now exists [obuf b]).
Qed.
Lemma ecm_fail s n : snd (ensure_capacity_m fresh s n) <> Ret tt -> fst (ensure_capacity_m fresh s n) = s.
Proof.
  destruct s as [old b]. unfold ensure_capacity_m. cbn [m_bo m_old].
  destruct (_ >? _); [|reflexivity]. destruct (_ <? _). { destruct (blit _ _ _ _ _); cbn; congruence. }
  destruct (grow_loop _ _ _) as [r|]; [|reflexivity]. destruct (r >? _).
  - destruct (_ <=? _); [|reflexivity]. destruct (blit _ _ _ _ _); cbn; congruence.
  - destruct (blit _ _ _ _ _); cbn; congruence.
Qed.
Definition cont (s : bm) : bytes := bo_contents (m_bo s).
Definition same_arrays (s s' : bm) : Prop := m_old s' = m_old s /\ zlen (obuf (m_bo s')) = zlen (obuf (m_bo s)).
(* n: the size of the request that made the buffer grow *)
Definition left_behind (n : Z) (s s' : bm) : Prop := exists a k, In a (m_old s') /\ holds a (sub (cont s') 0 k) /\
  zlen (cont s) <= k <= zlen (cont s') /\ zlen (obuf (m_bo s)) - n <= k.
Definition extends (s s' : bm) : Prop := exists l, m_old s' = l ++ m_old s.
(* what producing output does *)
Definition grows (n : Z) (s s' : bm) : Prop :=
  bo_inv (m_bo s') /\ extends s s' /\ (exists new, cont s' = cont s ++ new) /\ (same_arrays s s' \/ left_behind n s s').

Lemma extends_refl s : extends s s. Proof. exists []. reflexivity. Qed.
Lemma extends_trans a b c : extends a b -> extends b c -> extends a c.
Proof. intros (x & Hx) (y & Hy). exists (y ++ x). rewrite Hy, Hx. apply app_assoc. Qed.
Lemma extends_in a b x : extends a b -> In x (m_old a) -> In x (m_old b).
Proof. intros (l & ->) H. apply in_or_app. now right. Qed.
Lemma grows_refl n s : bo_inv (m_bo s) -> grows n s s.
Proof. intros H. split; [exact H|]. split; [apply extends_refl|]. split; [exists []; symmetry; apply app_nil_r|]. left. split; reflexivity. Qed.
Lemma sub_prefix (a b : bytes) k : 0 <= k <= zlen a -> sub (a ++ b) 0 k = sub a 0 k.
Proof. intros H. apply sub_app_l; lia. Qed.
Lemma grows_trans n a b c : grows n a b -> grows n b c -> grows n a c.
Proof.
  intros (Ia & Xa & (u & Hu) & Ga) (Ib & Xb & (v & Hv) & Gb).
  split; [exact Ib|]. split; [exact (extends_trans _ _ _ Xa Xb)|].
  split. { exists (u ++ v). rewrite Hv, Hu. symmetry. apply app_assoc. }
  assert (Lu : zlen (cont a) <= zlen (cont b)) by (rewrite Hu, zlen_app; pose proof (zlen_nonneg u); lia).
  assert (Lv : zlen (cont b) <= zlen (cont c)) by (rewrite Hv, zlen_app; pose proof (zlen_nonneg v); lia).
  destruct Ga as [(E1 & E2)|(x & k & K1 & K2 & K3 & K4)].
  - destruct Gb as [(F1 & F2)|(x & k & K1 & K2 & K3 & K4)].
    + left. split; congruence.
    + right. exists x, k. split; [exact K1|]. split; [exact K2|]. split; lia.
  - right. exists x, k. split; [exact (extends_in _ _ _ Xb K1)|].
    split. { rewrite Hv, sub_prefix by (pose proof (zlen_nonneg (cont a)); lia). exact K2. }
    split; lia.
Qed.
Lemma cont_len s : bo_inv (m_bo s) -> zlen (cont s) = oend (m_bo s) - obeg (m_bo s).
Proof. apply bo_contents_len. Qed.

Lemma ecm_ok s n : bo_inv (m_bo s) -> 0 <= n <= 2 ^ 60 ->
  let s' := fst (ensure_capacity_m fresh s n) in
  grows n s s' /\ cont s' = cont s /\
  (snd (ensure_capacity_m fresh s n) = Ret tt -> oend (m_bo s') + n <= zlen (obuf (m_bo s'))).
Proof.
  intros Hi Hn s'. pose proof (ecm_bo s n) as E. pose proof (ecm_old s n Hi Hn) as O. fold s' in E, O.
  pose proof (cont_len s Hi) as L. pose proof max_small.
  assert (B : bo_inv (m_bo s') /\ cont s' = cont s /\ (snd (ensure_capacity_m fresh s n) = Ret tt -> oend (m_bo s') + n <= zlen (obuf (m_bo s')))).
  { destruct (Z.le_gt_cases (zlen (bo_contents (m_bo s)) + n) max_string_length) as [F|F].
    - destruct (ensure_capacity_ok fresh fresh_len (m_bo s) n Hi ltac:(lia) F) as (b' & E1 & E2 & E3 & E4).
      rewrite E1 in E. injection E as E5 E6. unfold cont. rewrite E5. auto.
    - assert (2 * oend (m_bo s) <= 2 ^ 60) by (destruct Hi as (? & ? & ?); lia).
      assert (0 <= obeg (m_bo s)) by (destruct Hi as (? & ? & ?); lia).
      rewrite (ensure_capacity_overflow fresh fresh_len (m_bo s) n Hi ltac:(lia) ltac:(lia) ltac:(lia)) in E.
      injection E as E5 E6. unfold cont. rewrite E5, E6. split; [exact Hi|]. split; [reflexivity|discriminate]. }
  destruct B as (B1 & B2 & B3).
  split; [|split; [exact B2|exact B3]].
  split; [exact B1|].
  split. { destruct O as [(O1 & _)|(O1 & _)]; [exists []; exact O1|exists [obuf (m_bo s)]; exact O1]. }
  split. { exists []. rewrite app_nil_r. exact B2. }
  destruct O as [(O1 & O2)|(O1 & O2)]; [left; split; assumption|].
  right. exists (obuf (m_bo s)), (zlen (cont s)).
  split; [rewrite O1; now left|].
  split. { rewrite B2, sub_0_all by reflexivity. unfold cont, bo_contents. destruct Hi as (? & ? & ?). apply holds_sub; lia. }
  rewrite B2. split; lia.
Qed.

(* ---- writing after the pending output ---- *)
Lemma put_after old b ob n : bo_inv b -> 0 <= n -> oend b + n <= zlen (obuf b) -> frame (oend b) n (obuf b) ob -> forall m, 
  grows m (BM old b) (BM old (BO ob (obeg b) (oend b + n))) /\ grows m (BM old b) (BM old (BO ob (obeg b) (oend b))).
Proof.
  intros Hi Hn Hr F m. pose proof (frame_zlen _ _ _ _ F) as L. pose proof Hi as (H1 & H2 & H3).
  assert (P : sub ob (obeg b) (oend b - obeg b) = sub (obuf b) (obeg b) (oend b - obeg b)) by (apply (frame_sub (oend b) n); [exact F|lia|lia|lia|lia]).
  assert (X : forall e new, oend b <= e <= zlen (obuf b) -> cont (BM old (BO ob (obeg b) e)) = cont (BM old b) ++ new ->
    grows m (BM old b) (BM old (BO ob (obeg b) e))).
  { intros e new He Hc. split; [unfold bo_inv; cbn [m_bo obuf obeg oend]; lia|]. split; [exists []; reflexivity|]. split; [exists new; exact Hc|]. left. split; [reflexivity|exact L]. }
  split.
  - apply (X _ (sub ob (oend b) n)); [lia|]. unfold cont, bo_contents. cbn [m_bo obuf obeg oend].
    replace (oend b + n - obeg b) with ((oend b - obeg b) + n) by lia. rewrite sub_app_split by lia. rewrite P. do 2 f_equal. lia.
  - apply (X _ []); [lia|]. unfold cont, bo_contents. cbn [m_bo obuf obeg oend]. rewrite app_nil_r. exact P.
Qed.

(* on any frame that may reach outside: the pending output does not move *)
Lemma put_after_frame old b ob n : bo_inv b -> 0 <= n -> frame (oend b) n (obuf b) ob -> forall m, 
  grows m (BM old b) (BM old (BO ob (obeg b) (oend b))).
Proof.
  intros Hi Hn F m. pose proof (frame_zlen _ _ _ _ F) as L. pose proof Hi as (H1 & H2 & H3).
  split; [unfold bo_inv; cbn [m_bo obuf obeg oend]; lia|]. split; [exists []; reflexivity|]. split; [|left; split; [reflexivity|exact L]].
  exists []. rewrite app_nil_r. unfold cont, bo_contents. cbn [m_bo obuf obeg oend]. apply (frame_sub (oend b) n); [exact F|lia|lia|lia|lia].
Qed.

(* ---- class cipher ---- *)
Section Cipher.
Variable C : block_cipher.
Let bs := bc_blocksize C.
Hypothesis Hbs : 0 < bs <= 2 ^ 40.
Hypothesis HC : bc_frame C.
Let St := cm C.
Definition Inv (s : St) : Prop := bo_inv (c_bo C (cm_cs C s)) /\ zlen (c_ibuf C (cm_cs C s)) = bs.
Let g (s : St) : bm := get_bm C s.
Definition G (s s' : St) : Prop := Inv s' /\ grows bs (g s) (g s').
Lemma G_refl s : Inv s -> G s s.
Proof. intros H. split; [exact H|]. apply grows_refl. apply H. Qed.
Lemma G_trans a b c : G a b -> G b c -> G a c.
Proof. intros (I1 & G1) (I2 & G2). split; [exact I2|]. exact (grows_trans _ _ _ _ G1 G2). Qed.
Lemma G_inv a b : G a b -> Inv b. Proof. intros H. apply H. Qed.
Lemma G_bind {A B} s (r : St * out A) (k : St -> A -> St * out B) :
  G s (fst r) -> (forall s' x, r = (s', Ret x) -> G s (fst (k s' x))) -> G s (fst (bind r k)).
Proof. destruct r as [s' [x|e| |]]; cbn; intros H1 H2; try exact H1. exact (H2 s' x eq_refl). Qed.
(* a step that leaves the buffer as it is *)
Lemma G_same s s' : Inv s -> c_bo C (cm_cs C s') = c_bo C (cm_cs C s) -> cm_old C s' = cm_old C s -> zlen (c_ibuf C (cm_cs C s')) = bs -> G s s'.
Proof.
  intros (H1 & H2) Hb Ho Hz. split; [split; [rewrite Hb; exact H1|exact Hz]|].
  unfold g, get_bm. rewrite Hb, Ho. apply grows_refl. exact H1.
Qed.
Lemma G_to_ibuf s r : Inv s -> (forall b, r = Ret b -> zlen b = bs) -> G s (fst (lift (set_cs C s) (to_ibuf C (cm_cs C s) r))).
Proof.
  intros Hi Hr. apply G_same; try exact Hi; destruct r as [b|e| |]; try reflexivity; cbn; try apply Hi. apply Hr. reflexivity.
Qed.
Lemma lift_ec s n : Inv s -> 0 <= n <= bs ->
  let s' := fst (lift (set_bm C s) (ensure_capacity_m fresh (get_bm C s) n)) in
  G s s' /\ (snd (ensure_capacity_m fresh (get_bm C s) n) = Ret tt -> oend (c_bo C (cm_cs C s')) + n <= zlen (obuf (c_bo C (cm_cs C s')))).
Proof.
  intros (H1 & H2) Hn s'. destruct (ecm_ok (get_bm C s) n H1 ltac:(lia)) as (E1 & E2 & E3).
  assert (Eg : g s' = fst (ensure_capacity_m fresh (get_bm C s) n)).
  { unfold s', g, get_bm, set_bm, lift. cbn. destruct (fst (ensure_capacity_m _ _ _)) as [o b]. reflexivity. }
  split.
  - split; [split|].
    + exact (proj1 E1).
    + exact H2.
    + rewrite Eg. destruct E1 as (F1 & F2 & F3 & F4). split; [exact F1|]. split; [exact F2|]. split; [exact F3|].
      destruct F4 as [F4|(a & k & K1 & K2 & K3 & K4)]; [now left|right]. exists a, k. split; [exact K1|]. split; [exact K2|]. split; [exact K3|]. unfold g. lia.
  - exact E3.
Qed.

Lemma process_block_G s : Inv s -> G s (fst (process_block_m fresh C s)).
Proof.
  intros Hi. unfold process_block_m. fold bs. destruct (lift_ec s bs Hi ltac:(lia)) as (E1 & E2).
  apply G_bind; [exact E1|]. intros s1 x Hx. rewrite Hx in E1. cbn [fst] in E1.
  assert (Er : oend (c_bo C (cm_cs C s1)) + bs <= zlen (obuf (c_bo C (cm_cs C s1)))).
  { unfold lift in E2, Hx. injection Hx as <- Hx2. apply E2. rewrite Hx2. destruct x. reflexivity. }
  pose proof (G_inv _ _ E1) as (I1 & I2).
  pose proof (HC (c_c C (cm_cs C s1)) (c_ibuf C (cm_cs C s1)) 0 (obuf (c_bo C (cm_cs C s1))) (oend (c_bo C (cm_cs C s1)))) as F. fold bs in F.
  destruct (put_after (cm_old C s1) _ _ bs I1 ltac:(lia) Er F bs) as (P1 & P2).
  destruct (bc_transform _ _ _ _ _ _) as [[c1 ob] o1]. cbn [fst snd] in *.
  apply (G_trans _ s1); [exact E1|].
  apply G_bind.
  - split; [split; [exact (proj1 P2)|exact I2]|exact P2].
  - intros s2 y Hy. injection Hy as <- _. split; [split; [exact (proj1 P1)|exact I2]|exact P1].
Qed.

Lemma put_loop_G src : forall fuel s ofs len, Inv s -> G s (fst (put_loop_m fresh C fuel s src ofs len)).
Proof.
  induction fuel as [|f IH]; intros s ofs len Hi; cbn [put_loop_m]; [apply G_refl; exact Hi|].
  destruct (len <=? 0); [apply G_refl; exact Hi|]. fold bs.
  destruct (_ <=? bs).
  - apply G_bind. { apply G_to_ibuf; [exact Hi|]. intros b Hb. apply blit_zlen in Hb. rewrite Hb. apply Hi. }
    intros s1 x Hx. assert (H1 : G s s1). { replace s1 with (fst (s1, Ret x)) by reflexivity. rewrite <- Hx. apply G_to_ibuf; [exact Hi|]. intros b Hb. apply blit_zlen in Hb. rewrite Hb. apply Hi. }
    apply (G_trans _ s1); [exact H1|]. apply G_same; [exact (G_inv _ _ H1)|reflexivity|reflexivity|apply (G_inv _ _ H1)].
  - apply G_bind. { apply G_to_ibuf; [exact Hi|]. intros b Hb. apply blit_zlen in Hb. rewrite Hb. apply Hi. }
    intros s1 x Hx. assert (H1 : G s s1). { replace s1 with (fst (s1, Ret x)) by reflexivity. rewrite <- Hx. apply G_to_ibuf; [exact Hi|]. intros b Hb. apply blit_zlen in Hb. rewrite Hb. apply Hi. }
    apply (G_trans _ s1); [exact H1|].
    pose proof (process_block_G s1 (G_inv _ _ H1)) as H2.
    apply G_bind; [exact H2|]. intros s2 y Hy. rewrite Hy in H2. cbn [fst] in H2.
    apply (G_trans _ s2); [exact H2|].
    assert (H3 : G s2 (set_cs C s2 (set_used C (cm_cs C s2) 0))) by (apply G_same; [exact (G_inv _ _ H2)|reflexivity|reflexivity|apply (G_inv _ _ H2)]).
    apply (G_trans _ _ _ H3). apply IH. exact (G_inv _ _ H3).
Qed.
Lemma put_char_G s x : Inv s -> G s (fst (cipher_put_char_m fresh C s x)).
Proof.
  intros Hi. unfold cipher_put_char_m. fold bs. destruct (_ <? bs).
  - assert (H0 : G s (fst (lift (set_cs C s) (to_ibuf C (cm_cs C s) (bytes_set (c_ibuf C (cm_cs C s)) (c_used C (cm_cs C s)) x))))).
    { apply G_to_ibuf; [exact Hi|]. intros b Hb. apply set_zlen in Hb. rewrite Hb. apply Hi. }
    apply G_bind; [exact H0|]. intros s1 y Hy. rewrite Hy in H0. cbn [fst] in H0.
    apply (G_trans _ s1); [exact H0|]. apply G_same; [exact (G_inv _ _ H0)|reflexivity|reflexivity|apply (G_inv _ _ H0)].
  - pose proof (process_block_G s Hi) as H0.
    apply G_bind; [exact H0|]. intros s1 y Hy. rewrite Hy in H0. cbn [fst] in H0. apply (G_trans _ s1); [exact H0|].
    pose proof (G_inv _ _ H0) as Hi1.
    assert (H1 : G s1 (fst (lift (set_cs C s1) (to_ibuf C (cm_cs C s1) (bytes_set (c_ibuf C (cm_cs C s1)) 0 x))))).
    { apply G_to_ibuf; [exact Hi1|]. intros b Hb. apply set_zlen in Hb. rewrite Hb. apply Hi1. }
    apply G_bind; [exact H1|]. intros s2 z Hz. rewrite Hz in H1. cbn [fst] in H1.
    apply (G_trans _ s2); [exact H1|]. apply G_same; [exact (G_inv _ _ H1)|reflexivity|reflexivity|apply (G_inv _ _ H1)].
Qed.
Lemma process_then_used s k : Inv s ->
  G s (fst (let! (s, u) := process_block_m fresh C s in (set_cs C s (set_used C (cm_cs C s) k), Ret tt))).
Proof.
  intros Hi. pose proof (process_block_G s Hi) as H0.
  apply G_bind; [exact H0|]. intros s1 y Hy. rewrite Hy in H0. cbn [fst] in H0. apply (G_trans _ s1); [exact H0|].
  apply G_same; [exact (G_inv _ _ H0)|reflexivity|reflexivity|apply (G_inv _ _ H0)].
Qed.
Lemma flush_G s : Inv s -> G s (fst (cipher_flush_m fresh C s)).
Proof.
  intros Hi. unfold cipher_flush_m. fold bs. destruct (_ =? 0); [apply G_refl; exact Hi|].
  destruct (_ =? bs); [|apply G_refl; exact Hi]. apply process_then_used. exact Hi.
Qed.
Section Padding.
Variable p : scheme.
Hypothesis Hpad : forall b u r, pad p b u = Ret r -> zlen r = zlen b.
Lemma enc_finish_G s : Inv s -> G s (fst (padded_encrypt_finish_m fresh C p s)).
Proof.
  intros Hi. unfold padded_encrypt_finish_m. fold bs.
  match goal with |- G s (fst (bind ?r _)) => assert (H0 : G s (fst r)) end.
  { destruct (_ >=? bs); [|apply G_refl; exact Hi]. apply process_then_used. exact Hi. }
  apply G_bind; [exact H0|]. intros s1 y Hy. rewrite Hy in H0. cbn [fst] in H0. apply (G_trans _ s1); [exact H0|].
  pose proof (G_inv _ _ H0) as Hi1.
  match goal with |- G s1 (fst (bind ?r _)) => assert (H1 : G s1 (fst r)) end.
  { apply G_to_ibuf; [exact Hi1|]. intros b Hb. apply Hpad in Hb. rewrite Hb. apply Hi1. }
  apply G_bind; [exact H1|]. intros s2 z Hz. rewrite Hz in H1. cbn [fst] in H1. apply (G_trans _ s2); [exact H1|].
  apply process_block_G. exact (G_inv _ _ H1).
Qed.
(* strip returns at most the length of the array: true of arrays of bytes, see [bytes_get]; the blit would raise Invalid_argument *)
Lemma dec_finish_inv s : Inv s -> Inv (fst (padded_decrypt_finish_m fresh C p s)) /\ extends (g s) (g (fst (padded_decrypt_finish_m fresh C p s))).
Proof.
  intros Hi. unfold padded_decrypt_finish_m. fold bs. destruct (negb _); [split; [exact Hi|apply extends_refl]|].
  pose proof (HC (c_c C (cm_cs C s)) (c_ibuf C (cm_cs C s)) 0 (c_ibuf C (cm_cs C s)) 0) as F. apply frame_zlen in F.
  destruct (bc_transform _ _ _ _ _ _) as [[c1 ib] o1]. cbn [fst snd] in *.
  set (s1 := set_cs C s _).
  assert (Hi1 : Inv s1). { split; [apply Hi|]. cbn [s1 set_cs cm_cs c_ibuf]. rewrite F. apply Hi. }
  assert (X1 : extends (g s) (g s1)) by (exists []; reflexivity).
  destruct o1 as [[]|e| |]; try (split; [exact Hi1|exact X1]). cbn [bind].
  destruct (strip p (c_ibuf C (cm_cs C s1))) as [v|e| |]; try (split; [exact Hi1|exact X1]). cbn [bind].
  destruct (ecm_any (get_bm C s1) v (proj1 Hi1)) as (B1 & B2).
  unfold lift. destruct (ensure_capacity_m fresh (get_bm C s1) v) as [b r]. cbn [fst snd] in *.
  assert (Hi2 : Inv (set_bm C s1 b)) by (split; [exact B1|exact (proj2 Hi1)]).
  assert (X2 : extends (g s) (g (set_bm C s1 b))). { apply (extends_trans _ (g s1)); [exact X1|]. destruct B2 as (l & B2). exists l. exact B2. }
  destruct r as [[]|e| |]; try (split; [exact Hi2|exact X2]). cbn [bind].
  destruct (blit _ _ _ _ _) as [ob|e| |] eqn:E; try (split; [exact Hi2|exact X2]). cbn [bind fst].
  assert (R : 0 <= v /\ oend (m_bo b) + v <= zlen (obuf (m_bo b))). { pose proof (blit_range _ _ _ _ _ _ E) as R. cbn in R. lia. }
  apply blit_zlen in E. cbn in E. destruct B1 as (D1 & D2 & D3).
  split; [|exact X2]. split; [|exact (proj2 Hi2)]. cbn. unfold bo_inv. cbn [obuf obeg oend]. lia.
Qed.
Lemma dec_finish_G s : Inv s -> snd (padded_decrypt_finish_m fresh C p s) <> Raise Invalid_argument -> G s (fst (padded_decrypt_finish_m fresh C p s)).
Proof.
  intros Hi. unfold padded_decrypt_finish_m. fold bs. destruct (negb _); [intros _; apply G_refl; exact Hi|].
  pose proof (HC (c_c C (cm_cs C s)) (c_ibuf C (cm_cs C s)) 0 (c_ibuf C (cm_cs C s)) 0) as F. apply frame_zlen in F.
  destruct (bc_transform _ _ _ _ _ _) as [[c1 ib] o1]. cbn [fst snd] in *.
  set (s1 := set_cs C s _).
  assert (H1 : G s s1) by (apply G_same; [exact Hi|reflexivity|reflexivity|cbn [s1 set_cs cm_cs c_ibuf]; rewrite F; apply Hi]).
  pose proof (G_inv _ _ H1) as Hi1.
  destruct o1 as [[]|e| |]; try (intros _; exact H1). cbn [bind].
  destruct (strip p (c_ibuf C (cm_cs C s1))) as [v|e| |]; try (intros _; exact H1). cbn [bind].
  assert (Bad : forall w, w < 0 \/ bs < w ->
    snd (let! (s, u) := lift (set_bm C s1) (ensure_capacity_m fresh (get_bm C s1) w) in
         let b := c_bo C (cm_cs C s) in
         let! (s, ob) := (s, blit (c_ibuf C (cm_cs C s)) 0 (obuf b) (oend b) w) in
         (set_cs C s (set_bo C (cm_cs C s) (BO ob (obeg b) (oend b + w))), Ret tt)) <> Raise Invalid_argument ->
    G s (fst (let! (s, u) := lift (set_bm C s1) (ensure_capacity_m fresh (get_bm C s1) w) in
         let b := c_bo C (cm_cs C s) in
         let! (s, ob) := (s, blit (c_ibuf C (cm_cs C s)) 0 (obuf b) (oend b) w) in
         (set_cs C s (set_bo C (cm_cs C s) (BO ob (obeg b) (oend b + w))), Ret tt)))).
  { intros w Hw Ho. unfold lift in *. pose proof (ecm_fail (get_bm C s1) w) as Ef.
    destruct (ensure_capacity_m fresh (get_bm C s1) w) as [b r] eqn:Ev. cbn [fst snd] in *.
    destruct r as [[]|e| |]; cbn [bind fst snd] in *; try (rewrite Ef by discriminate; exact H1).
    exfalso. apply Ho. unfold blit.
    replace (in_range (c_ibuf C (cm_cs C (set_bm C s1 b))) 0 w) with false; [reflexivity|].
    symmetry. apply in_range_false. destruct Hi1 as (_ & Hz). change (c_ibuf C (cm_cs C (set_bm C s1 b))) with (c_ibuf C (cm_cs C s1)). rewrite Hz. lia. }
  destruct (Z_le_dec 0 v) as [Hv0|Hv0]; [destruct (Z_le_dec v bs) as [Hv1|Hv1]|].
  - destruct (lift_ec s1 v Hi1 (conj Hv0 Hv1)) as (E1 & E2). intros Ho. apply (G_trans _ s1); [exact H1|].
    apply G_bind; [exact E1|]. intros s2 x Hx. rewrite Hx in E1. cbn [fst] in E1. apply (G_trans _ s2); [exact E1|].
    pose proof (G_inv _ _ E1) as (J1 & J2).
    assert (Er : oend (c_bo C (cm_cs C s2)) + v <= zlen (obuf (c_bo C (cm_cs C s2)))).
    { destruct x. pose proof (f_equal fst Hx) as X1. pose proof (f_equal snd Hx) as X2. cbn [lift fst snd] in X1, X2, E2. rewrite <- X1. exact (E2 X2). }
    assert (G2 : G s2 s2) by (apply G_refl; split; assumption).
    cbn [bind]. destruct (blit (c_ibuf C (cm_cs C s2)) 0 _ _ v) as [ob|e| |] eqn:Hob; try exact G2. cbn [fst].
    apply frame_blit in Hob.
    destruct (put_after (cm_old C s2) _ _ v J1 ltac:(lia) Er Hob bs) as (P1 & _).
    split; [split; [exact (proj1 P1)|exact J2]|exact P1].
  - exact (Bad v ltac:(lia)).
  - exact (Bad v ltac:(lia)).
Qed.
End Padding.

(* ---- histories ---- *)
Section Object.
Variable fin : St -> St * out unit.
Hypothesis Hfin1 : forall s, Inv s -> Inv (fst (fin s)) /\ extends (g s) (g (fst (fin s))).
Hypothesis Hfin : forall s, Inv s -> snd (fin s) <> Raise Invalid_argument -> G s (fst (fin s)).
Let T := cipher_with_finish_m fresh C fin.

Lemma produce_G s o : produces o = true -> Inv s -> snd (t_step T s o) <> OExn Invalid_argument -> G s (fst (t_step T s o)).
Proof.
  intros Ho Hi He. destruct o; try discriminate; cbn [t_step unit_obs fst].
  - apply put_loop_G. exact Hi.
  - apply put_loop_G. exact Hi.
  - apply put_char_G. exact Hi.
  - apply put_char_G. exact Hi.
  - apply flush_G. exact Hi.
  - apply Hfin; [exact Hi|]. intros E. apply He. change (snd (unit_obs (fin s)) = OExn Invalid_argument). unfold unit_obs. cbn [snd]. rewrite E. reflexivity.
Qed.
Lemma gets_inv (s : St) {A} (r : bo * out A) : Inv s -> bo_inv (fst r) -> zlen (obuf (fst r)) = zlen (obuf (c_bo C (cm_cs C s))) ->
  let s' := fst (lift (set_bm C s) (on_cur (get_bm C s) r)) in Inv s' /\ same_arrays (g s) (g s').
Proof. intros (H1 & H2) Hb Hz. cbn. split; [split; [exact Hb|exact H2]|]. split; [reflexivity|exact Hz]. Qed.
Lemma fetch_inv s o : produces o = false -> Inv s -> Inv (fst (t_step T s o)) /\ same_arrays (g s) (g (fst (t_step T s o))).
Proof.
  intros Ho Hi. destruct o; try discriminate; cbn [t_step int_obs bytes_obs substring_obs fst].
  - split; [exact Hi|]. split; reflexivity.
  - apply gets_inv; [exact Hi| |]; apply (get_string_inv _ (proj1 Hi)).
  - apply gets_inv; [exact Hi| |]; apply (get_substring_inv _ (proj1 Hi)).
  - apply gets_inv; [exact Hi| |]; apply (get_char_inv _ (proj1 Hi)).
  - apply gets_inv; [exact Hi| |]; apply (get_char_inv _ (proj1 Hi)).
Qed.
Lemma step_inv s o : Inv s -> Inv (fst (t_step T s o)) /\ extends (g s) (g (fst (t_step T s o))).
Proof.
  intros Hi. destruct (produces o) eqn:E.
  - destruct o; try discriminate; try (match goal with |- Inv (fst (t_step T s ?o)) /\ _ => assert (X : G s (fst (t_step T s o))) end;
      [cbn [t_step unit_obs fst]; first [apply put_loop_G|apply put_char_G|apply flush_G]; exact Hi|split; [apply X|apply X]]).
    exact (Hfin1 s Hi).
  - destruct (fetch_inv s o E Hi) as (F1 & (F2 & _)). split; [exact F1|]. exists []. exact F2.
Qed.
End Object.
End Cipher.
End Proofs.
