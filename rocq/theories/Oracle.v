(* Proofs for C112. *)
From Verif Require Import Prelude PreludeFacts SpecTransducer SpecBlock SpecModes SpecPadding Padding TransformModel BlockModel CipherModel CipherSpec CipherFacts CipherApi BlockTotal EncModel EncApi SpecOracle.

Definition accepts (p : padding) (P : bytes) : bool := match unpad_fn p P with Some _ => true | None => false end.
Definition sized (p : padding) (B : nat) : Prop := match p with PLength => (2 <= B < 256)%nat | P8000 => True end.

Lemma accepts_spec p P : accepts p P = true <-> exists data, padded p P data.
Proof.
  assert (S : forall v, unpad_fn p P = Some v <-> exists data, padded p P data /\ v = zlen data) by (destruct p; intros v; [apply length_unpad_spec|apply zeros_unpad_spec]).
  unfold accepts. split.
  - destruct (unpad_fn p P) as [v|]; [|discriminate]. intros _. destruct (proj1 (S v) eq_refl) as (data & H & _). eauto.
  - intros (data & H). rewrite (proj2 (S (zlen data)) (ex_intro _ data (conj H eq_refl))). reflexivity.
Qed.

Lemma repeat_snoc {A} (x : A) n : repeat x (S n) = repeat x n ++ [x].
Proof. apply repeat_cons. Qed.

Lemma last_accept data n P y : (0 < n)%nat -> P ++ [y] = data ++ repeat (Z.of_nat n) n -> y = Z.of_nat n /\ P = data ++ repeat (Z.of_nat n) (n - 1).
Proof.
  intros Hn E. destruct n as [|n]; [lia|]. rewrite repeat_snoc, app_assoc in E. apply app_inj_tail in E. destruct E as (-> & ->).
  replace (S n - 1)%nat with n by lia. auto.
Qed.

Lemma xorb_known k known : xorb known (map (fun y => Z.lxor y k) known) = repeat k (length known).
Proof.
  induction known as [|y l IH]; [reflexivity|]. cbn [map length repeat]. rewrite xorb_cons, IH, <- Z.lxor_assoc, Z.lxor_nilpotent, Z.lxor_0_l. reflexivity.
Qed.
Lemma xorb_app2 a b c d : length a = length c -> xorb (a ++ b) (c ++ d) = xorb a c ++ xorb b d.
Proof. intros H. unfold xorb. revert c H. induction a as [|x a IH]; intros [|y c] H; try discriminate; [reflexivity|]. cbn [app combine map]. f_equal. apply IH. now inversion H. Qed.

Lemma front_length n a : length (front n a) = n.
Proof. destruct n; [reflexivity|]. cbn [front]. rewrite app_length, repeat_length. cbn. lia. Qed.

Lemma two_fronts pre (Q : Z -> Prop) : (forall z, Q z -> ~ Q (Z.lxor z 1)) ->
  (exists q z, xorb pre (front (length pre) 0) = q ++ [z] /\ Q z) -> (exists q z, xorb pre (front (length pre) 1) = q ++ [z] /\ Q z) -> False.
Proof.
  intros HQ (q0 & z0 & E0 & Q0) (q1 & z1 & E1 & Q1).
  destruct (@exists_last _ pre) as (r & e & Ep). { intros ->. destruct q0; discriminate. }
  rewrite Ep in E0, E1. assert (Lp : length (r ++ [e]) = S (length r)) by (rewrite app_length; cbn; lia). rewrite Lp in E0, E1. cbn [front] in E0, E1.
  rewrite xorb_app2 in E0, E1 by (rewrite repeat_length; reflexivity). apply app_inj_tail in E0, E1. destruct E0 as (_ & E0), E1 as (_ & E1).
  rewrite Z.lxor_0_r in E0. rewrite <- E0 in Q0. rewrite <- E1 in Q1. exact (HQ _ Q0 Q1).
Qed.

Lemma zeros_cases L : forall P y data n, P ++ [y] ++ repeat 0 L = data ++ 128 :: repeat 0 n -> y = 128 \/ exists q z, P = q ++ [z] /\ (z = 0 \/ z = 128).
Proof.
  induction L as [|L IH]; intros P y data n H.
  - cbn [repeat] in H. rewrite app_nil_r in H. destruct n as [|n].
    + apply app_inj_tail in H. left. apply H.
    + right. rewrite repeat_snoc, app_comm_cons, app_assoc in H. apply app_inj_tail in H. destruct H as (-> & _).
      destruct n as [|n]; [exists data, 128; auto|]. exists (data ++ 128 :: repeat 0 n), 0. split; [|auto]. rewrite repeat_snoc, app_comm_cons, app_assoc. reflexivity.
  - rewrite repeat_snoc, !app_assoc in H. destruct n as [|n].
    + apply app_inj_tail in H. destruct H as (_ & H). discriminate.
    + rewrite repeat_snoc, app_comm_cons, app_assoc in H. apply app_inj_tail in H. destruct H as (H & _). rewrite <- app_assoc in H. exact (IH _ _ _ _ H).
Qed.

Section Next.
Variables (p : padding) (pre known : bytes) (d : Z).
Let B := length (pre ++ [d] ++ known).
Let k := Z.of_nat (S (length known)).
Let v a x := front (B - S (length known)) a ++ [x] ++ map (fun y => Z.lxor y (pad_rest p k)) known.
Hypothesis HB : sized p B.

Lemma query a x : xorb (pre ++ [d] ++ known) (v a x) = xorb pre (front (length pre) a) ++ [Z.lxor d x] ++ repeat (pad_rest p k) (length known).
Proof.
  unfold v. replace (B - S (length known))%nat with (length pre) by (unfold B; rewrite !app_length; cbn [length]; lia).
  rewrite xorb_app2 by (rewrite front_length; reflexivity). f_equal. rewrite xorb_app2 by reflexivity. rewrite xorb_known. reflexivity.
Qed.

Lemma query_true a x : Z.lxor d x = pad_first p k -> accepts p (xorb (pre ++ [d] ++ known) (v a x)) = true.
Proof.
  intros H. rewrite query, H. apply accepts_spec. exists (xorb pre (front (length pre) a)). destruct p; cbn [pad_first pad_rest padded].
  - exists (S (length known)). split; [lia|]. reflexivity.
  - exists (length known). reflexivity.
Qed.

Lemma query_only x : accepts p (xorb (pre ++ [d] ++ known) (v 0 x)) = true -> accepts p (xorb (pre ++ [d] ++ known) (v 1 x)) = true -> Z.lxor d x = pad_first p k.
Proof.
  rewrite !query. intros H0 H1. apply accepts_spec in H0, H1. destruct p; cbn [pad_first pad_rest padded] in *.
  - destruct H0 as (D0 & n0 & N0 & E0). destruct H1 as (D1 & n1 & N1 & E1).
    assert (Ck : known = [] \/ exists y l, known = y :: l) by (destruct known; eauto). destruct Ck as [Ek|(y & l & Ek)].
    + rewrite Ek in E0, E1. cbn [length repeat] in E0, E1. rewrite app_nil_r in E0, E1. apply last_accept in E0, E1; try assumption. destruct E0 as (L0 & E0), E1 as (L1 & E1).
      assert (n1 = n0) by lia. subst n1. unfold k. rewrite Ek. cbn [length]. rewrite L0.
      destruct n0 as [|[|n]]; [lia|reflexivity|]. exfalso.
      replace (S (S n) - 1)%nat with (S n) in * by lia. rewrite repeat_snoc, app_assoc in E0, E1.
      apply (two_fronts pre (fun z => z = Z.of_nat (S (S n)))); [|eauto|eauto].
      intros z -> Hz. apply (f_equal (Z.lxor (Z.of_nat (S (S n))))) in Hz. rewrite <- ?Z.lxor_assoc, !Z.lxor_nilpotent in Hz. discriminate.
    + assert (Lk : length known = S (length l)) by (rewrite Ek; reflexivity). rewrite Lk in E0.
      rewrite repeat_snoc, !app_assoc in E0. apply last_accept in E0; [|assumption]. destruct E0 as (L0 & E0).
      unfold k in L0. assert (n0 = S (length known)) by lia. subst n0. rewrite Lk in E0. replace (S (S (length l)) - 1)%nat with (S (length l)) in E0 by lia.
      rewrite <- app_assoc in E0. cbn [app] in E0. change (repeat (Z.of_nat (S (S (length l)))) (S (length l))) with (Z.of_nat (S (S (length l))) :: repeat (Z.of_nat (S (S (length l)))) (length l)) in E0.
      assert (G : forall (a b : bytes) x y u w, length u = length w -> a ++ x :: u = b ++ y :: w -> x = y).
      { intros a b x' y' u w Lu E. assert (La : length a = length b) by (apply (f_equal (@length Z)) in E; rewrite !app_length in E; cbn [length] in E; lia).
        apply (f_equal (skipn (length a))) in E. rewrite La in E at 2. rewrite !skipn_app, !skipn_all, !Nat.sub_diag in E. cbn in E. now inversion E. }
      apply G in E0; [|rewrite !repeat_length; reflexivity]. rewrite E0. unfold k. rewrite Lk. reflexivity.
  - destruct H0 as (D0 & n0 & E0). destruct H1 as (D1 & n1 & E1). apply zeros_cases in E0, E1.
    destruct E0 as [E0|E0]; [exact E0|]. destruct E1 as [E1|E1]; [exact E1|]. exfalso.
    apply (two_fronts pre (fun z => z = 0 \/ z = 128)); [|exact E0|exact E1]. intros z [-> | ->] [H|H]; discriminate.
Qed.

Lemma pad_bytes : byte_ok (pad_first p k) /\ byte_ok (pad_rest p k).
Proof. unfold byte_ok. unfold sized, B in HB. rewrite !app_length in HB. cbn [length] in HB. destruct p; cbn [pad_first pad_rest]; unfold k; lia. Qed.

Lemma next_byte_ok : bytes_ok (pre ++ [d] ++ known) ->
  next_byte p (fun w => accepts p (xorb (pre ++ [d] ++ known) w)) B known = d.
Proof.
  intros Hb. unfold next_byte. fold k.
  assert (Hd : byte_ok d). { apply Forall_app in Hb. destruct Hb as (_ & Hb). apply Forall_app in Hb. destruct Hb as (Hb & _). now inversion Hb. }
  destruct pad_bytes as (Hk & _). set (t := pad_first p k) in *.
  destruct (find _ all_bytes) as [x|] eqn:F.
  - apply find_some in F. destruct F as (_ & F). apply andb_true_iff in F. destruct F as (F0 & F1).
    unfold t. rewrite <- (query_only x F0 F1). rewrite Z.lxor_comm, Z.lxor_assoc, Z.lxor_nilpotent. apply Z.lxor_0_r.
  - exfalso. pose proof (find_none _ _ F (Z.lxor d t)) as G. cbn beta in G.
    assert (Hx : Z.lxor d (Z.lxor d t) = t) by (rewrite <- Z.lxor_assoc, Z.lxor_nilpotent; apply Z.lxor_0_l).
    assert (I : In (Z.lxor d t) all_bytes).
    { pose proof (lxor_byte d t Hd Hk) as R. unfold byte_ok in R. unfold all_bytes. apply in_map_iff. exists (Z.to_nat (Z.lxor d t)). split; [lia|]. apply in_seq. lia. }
    specialize (G I). change (accepts p (xorb (pre ++ [d] ++ known) (v 0 (Z.lxor d t))) && accepts p (xorb (pre ++ [d] ++ known) (v 1 (Z.lxor d t))) = false) in G.
    rewrite (query_true 0 _ Hx), (query_true 1 _ Hx) in G. discriminate.
Qed.
End Next.

Lemma more_bytes_ok p b : bytes_ok b -> sized p (length b) -> forall n known, (exists pre, b = pre ++ known /\ length pre = n) ->
  more_bytes p (fun w => accepts p (xorb b w)) (length b) n known = b.
Proof.
  intros Hb HB. induction n as [|n IH]; intros known (pre & E & L).
  - destruct pre; [|discriminate]. symmetry. exact E.
  - destruct (@exists_last _ pre) as (r & d & Ep); [intros ->; discriminate|]. cbn [more_bytes]. apply IH. exists r.
    subst pre. rewrite app_length in L. cbn [length] in L. split; [|lia].
    rewrite <- app_assoc in E. pose proof (next_byte_ok p r known d) as N. rewrite <- E in N. rewrite N by assumption. rewrite E. reflexivity.
Qed.
Lemma secret_block_ok p b : bytes_ok b -> sized p (length b) -> secret_block p (fun w => accepts p (xorb b w)) (length b) = b.
Proof. intros Hb HB. apply more_bytes_ok; try assumption. exists b. rewrite app_nil_r. auto. Qed.

Lemma find_ext_in {A} (f g : A -> bool) l : (forall x, In x l -> f x = g x) -> find f l = find g l.
Proof. induction l as [|x l IH]; intros H; [reflexivity|]. cbn [find]. rewrite (H x (or_introl eq_refl)). destruct (g x); [reflexivity|]. apply IH. intros y Hy. apply H. right. exact Hy. Qed.

Lemma in_all_bytes x : In x all_bytes -> byte_ok x.
Proof. unfold all_bytes, byte_ok. intros H. apply in_map_iff in H. destruct H as (n & <- & H). apply in_seq in H. lia. Qed.

Lemma next_byte_ext p o1 o2 B known : (forall v, length v = B -> bytes_ok v -> o1 v = o2 v) -> (length known < B)%nat -> sized p B -> bytes_ok known ->
  next_byte p o1 B known = next_byte p o2 B known /\ byte_ok (next_byte p o1 B known).
Proof.
  intros H HB HS Hk. unfold next_byte. set (k := Z.of_nat (S (length known))).
  assert (Ok : byte_ok (pad_rest p k) /\ byte_ok (pad_first p k)) by (unfold byte_ok, sized in *; destruct p; cbn [pad_rest pad_first]; unfold k; lia).
  destruct Ok as (Ok & Ok1).
  split.
  - erewrite find_ext_in; [reflexivity|]. intros x Hx. apply in_all_bytes in Hx. cbn beta.
    assert (G : forall a, byte_ok a -> o1 (front (B - S (length known)) a ++ [x] ++ map (fun y => Z.lxor y (pad_rest p k)) known) = o2 (front (B - S (length known)) a ++ [x] ++ map (fun y => Z.lxor y (pad_rest p k)) known)).
    { intros a Ha. apply H.
      - rewrite !app_length, front_length, map_length. cbn [length]. lia.
      - apply bytes_ok_app. split.
        + destruct (B - S (length known))%nat as [|n]; [constructor|]. cbn [front]. apply bytes_ok_app. split; [|apply Forall_cons; [exact Ha|apply Forall_nil]].
          apply Forall_forall. intros y Hy. apply repeat_spec in Hy. subst y. unfold byte_ok. lia.
        + apply bytes_ok_app. split; [apply Forall_cons; [exact Hx|apply Forall_nil]|]. apply Forall_forall. intros y Hy. apply in_map_iff in Hy. destruct Hy as (z & <- & Hz).
          apply lxor_byte; [|exact Ok]. unfold bytes_ok in Hk. rewrite Forall_forall in Hk. apply Hk, Hz. }
    rewrite (G 0), (G 1) by (unfold byte_ok; lia). reflexivity.
  - destruct (find _ all_bytes) as [x|] eqn:F; [|unfold byte_ok; lia]. apply find_some in F. apply lxor_byte; [apply in_all_bytes, F|exact Ok1].
Qed.

Lemma more_bytes_ext p o1 o2 B : (forall v, length v = B -> bytes_ok v -> o1 v = o2 v) -> sized p B ->
  forall n known, (n + length known <= B)%nat -> bytes_ok known -> more_bytes p o1 B n known = more_bytes p o2 B n known.
Proof.
  intros H HB. induction n as [|n IH]; intros known L Ok; [reflexivity|]. cbn [more_bytes].
  destruct (next_byte_ext p o1 o2 B known H ltac:(lia) HB Ok) as (E & Ob). rewrite <- E. apply IH; [cbn [length]; lia|]. constructor; assumption.
Qed.

Section Cbc.
Variable fresh : Z -> bytes.
Hypothesis fresh_len : forall n, 0 <= n -> zlen (fresh n) = n.
Variables (nb : dir -> bytes -> out bobj) (key : bytes) (bs : Z) (E D : bytes -> bytes).
Hypothesis HF : block_family nb key bs E D.
Variable p : padding.
Hypothesis Hp : match p with PLength => 2 <= bs < 256 | P8000 => True end.
Let Hbs : 0 < bs < 2 ^ 50 := fam_bs _ _ _ _ _ HF.

Lemma oracle_is v b : zlen v = bs -> bytes_ok v -> zlen b = bs -> bytes_ok b ->
  padding_oracle fresh nb key p v (E b) = accepts p (xorb b v).
Proof.
  intros Lv Ov Lb Ob.
  destruct (make_cipher_ok fresh fresh_len nb key bs E D (Some CBC) (Some p) (Some v) Decrypt HF) as (o & Ho & B); [exact Logic.I|cbn; auto|].
  cbn [option_map] in Ho. unfold padding_oracle. rewrite Ho.
  cbn [dmode mode_bs mode_fn mode_fun mode_st0 fin_of iv_val] in B.
  destruct (fam_len _ _ _ _ _ HF b Lb Ob) as (Lc & Oc).
  assert (Hsz : zlen (E b) + 3 * bs <= max_string_length) by (rewrite Lc; unfold max_string_length; lia).
  pose proof (paddec_total bs (cbc_dec_fn D) ltac:(lia) (unpad_fn p) v (E b) [] (E b) [] (xorb b v) ltac:(constructor) Lc) as T.
  cbn [app concat] in T. rewrite app_nil_r in T. cbn [bf_run cbc_dec_fn bf_step] in T. rewrite (fam_inv _ _ _ _ _ HF b Lb Ob) in T. specialize (T eq_refl). cbn zeta in T.
  unfold accepts. destruct (unpad_fn p (xorb b v)) as [n|].
  - destruct T as (T1 & T2). destruct (behaves_result _ _ _ _ _ (E b) _ B ltac:(lia) Oc Hsz T1 T2) as (R & _). rewrite R. reflexivity.
  - rewrite (behaves_raise _ _ _ _ _ (E b) _ B Oc Hsz T). reflexivity.
Qed.

Lemma oracle_one_bit v b : zlen v = bs -> bytes_ok v -> zlen b = bs -> bytes_ok b ->
  padding_oracle fresh nb key p v (E b) = true <-> exists data, padded p (xorb b v) data.
Proof.
  intros Lv Ov Lb Ob. rewrite oracle_is by assumption. apply accepts_spec.
Qed.

Lemma secret_is b : zlen b = bs -> bytes_ok b -> secret_block p (fun v => padding_oracle fresh nb key p v (E b)) (Z.to_nat bs) = b.
Proof.
  intros Lb Ob. assert (L : Z.to_nat bs = length b) by (unfold zlen in Lb; lia). unfold secret_block.
  rewrite (more_bytes_ext p _ (fun w => accepts p (xorb b w)) (Z.to_nat bs)).
  - rewrite L. apply secret_block_ok; [assumption|]. rewrite <- L. unfold sized. destruct p; [lia|exact Hp].
  - intros v Lv Ov. apply oracle_is; try assumption. unfold zlen. lia.
  - unfold sized. destruct p; [lia|exact Hp].
  - cbn [length]. lia.
  - constructor.
Qed.

Lemma all_text_is W : forall v s Y, blocks_ok bs W -> zlen v = bs -> bytes_ok v -> bf_run (cbc_enc_fn E) v W = (s, Some Y) ->
  all_text p (padding_oracle fresh nb key p) (Z.to_nat bs) v Y = concat W.
Proof.
  induction W as [|b W IH]; intros v s Y HW Lv Ov HR; cbn [bf_run cbc_enc_fn bf_step] in HR.
  - injection HR as _ <-. reflexivity.
  - apply Forall_cons_iff in HW. destruct HW as ((Lb & Ob) & HW).
    assert (Lx : zlen (xorb b v) = bs) by (rewrite zlen_xorb by lia; lia). assert (Ox : bytes_ok (xorb b v)) by (apply bytes_ok_xorb; assumption).
    destruct (fam_len _ _ _ _ _ HF _ Lx Ox) as (Lc & Oc).
    change (BF bytes (fun iv b0 : bytes => (E (xorb b0 iv), Some (E (xorb b0 iv))))) with (cbc_enc_fn E) in HR.
    destruct (bf_run (cbc_enc_fn E) (E (xorb b v)) W) as [s' [Y'|]] eqn:R; [|discriminate]. injection HR as _ <-.
    cbn [all_text concat]. rewrite secret_is by assumption. rewrite (IH _ _ _ HW Lc Oc R). f_equal.
    apply xorb_cancel. unfold zlen in *. lia.
Qed.

Lemma padding_oracle_recovers iv msg : zlen iv = bs -> bytes_ok iv -> bytes_ok msg -> zlen msg + 4 * bs <= max_string_length ->
  exists oe C, make_cipher fresh nb (Some CBC) (Some (scheme_of p)) (Some iv) key Encrypt = Ret oe /\
    run_string oe msg = Ret (concat C) /\ blocks_ok bs C /\
    padded p (all_text p (padding_oracle fresh nb key p) (Z.to_nat bs) iv C) msg.
Proof.
  intros Lv Ov Hok Hsz.
  destruct (make_cipher_ok fresh fresh_len nb key bs E D (Some CBC) (Some p) (Some iv) Encrypt HF) as (oe & Hoe & Be); [exact Logic.I|cbn; auto|].
  cbn [option_map] in Hoe. cbn [dmode mode_bs mode_fn mode_fun mode_st0 fin_of iv_val] in Be.
  destruct (as_blocks fresh fresh_len bs msg ltac:(lia) Hok) as (X & tail & Emsg & HX & Hto & Htl & HXl & Htb).
  pose proof (zlen_nonneg tail) as Htn.
  assert (Hpad : exists l, pad_fn p bs (zlen tail) = Some l /\ zlen tail + zlen l = bs /\ bytes_ok l /\ forall m, padded p (m ++ l) m).
  { pose proof (pad_fn_ok p bs (zeros bs) (zlen tail) ltac:(apply zlen_zeros; lia) ltac:(lia)) as H.
    destruct (pad_fn p bs (zlen tail)) as [l|] eqn:El.
    - exists l. destruct H as (_ & H1 & H2). repeat split; try assumption. intros m. destruct p; cbn [pad_fn padded] in *.
      + unfold length_pad in El. destruct ((0 <? bs - zlen tail) && (bs - zlen tail <? 256)); [|discriminate]. injection El as <-.
        exists (Z.to_nat (bs - zlen tail)). split; [lia|]. rewrite Z2Nat.id by lia. reflexivity.
      + injection El as <-. eexists. reflexivity.
    - destruct p; cbn [pad_fn] in *.
      + unfold length_pad in El. replace ((0 <? bs - zlen tail) && (bs - zlen tail <? 256)) with true in El by lia. discriminate.
      + discriminate. }
  destruct Hpad as (l & Hl & Hll & Hlo & Hlp).
  set (W := X ++ [tail ++ l]).
  assert (HW : blocks_ok bs W).
  { apply Forall_app. split; [exact HX|]. repeat constructor; [rewrite zlen_app; lia|apply bytes_ok_app; split; assumption]. }
  assert (HR : exists s Y, bf_run (cbc_enc_fn E) iv W = (s, Some Y)).
  { clear. revert iv. induction W as [|b W IH]; intros iv; [eexists _, _; reflexivity|]. cbn [bf_run cbc_enc_fn bf_step].
    change (BF bytes (fun iv b0 : bytes => (E (xorb b0 iv), Some (E (xorb b0 iv))))) with (cbc_enc_fn E).
    destruct (IH (E (xorb b iv))) as (s & Y & ->). eexists _, _. reflexivity. }
  destruct HR as (s & Y & HR).
  pose proof (behaves_sizes _ _ _ _ _ Be W s Y HW HR) as HY.
  pose proof (padenc_total bs (cbc_enc_fn E) ltac:(lia) (pad_fn p bs) iv X tail l (blocks_ok_len _ _ HX) Htb Hl) as Te.
  fold W in Te. rewrite HR in Te. rewrite <- Emsg in Te. destruct Te as (Te1 & Te2).
  destruct (behaves_result _ _ _ _ _ msg (concat Y) Be ltac:(lia) Hok ltac:(lia) Te1 Te2) as (P1 & _).
  exists oe, Y. split; [exact Hoe|]. split; [exact P1|]. split; [exact HY|].
  rewrite (all_text_is W iv s Y HW Lv Ov HR).
  unfold W. rewrite concat_app. cbn [concat]. rewrite app_nil_r, app_assoc, <- Emsg. apply Hlp.
Qed.
End Cbc.
