(* Proofs for C113. *)
From Verif Require Import Prelude PreludeFacts SpecTransducer SpecBlock SpecModes SpecModesFacts TransformModel BlockModel BlockTotal CipherModel CipherSpec CipherFacts CipherApi.

Lemma bf_run_firstn (f : blockfn) X : forall s s' Y j, bf_run f s X = (s', Some Y) -> exists t, bf_run f s (firstn j X) = (t, Some (firstn j Y)).
Proof.
  induction X as [|b X IH]; intros s s' Y j H; cbn [bf_run] in H.
  - injection H as _ <-. rewrite !firstn_nil. eexists. reflexivity.
  - destruct j as [|j]; [eexists; reflexivity|]. destruct (bf_step f s b) as [s1 [o|]] eqn:Hs; [|discriminate].
    destruct (bf_run f s1 X) as [s2 [Y'|]] eqn:R; [|discriminate]. injection H as _ <-. cbn [firstn bf_run]. rewrite Hs.
    destruct (IH _ _ _ j R) as (t & ->). eexists. reflexivity.
Qed.
Lemma blocks_ok_firstn bs X j : blocks_ok bs X -> blocks_ok bs (firstn j X).
Proof. intros H. rewrite <- (firstn_skipn j X) in H. apply Forall_app in H. apply H. Qed.

Section Visible.
Variable fresh : Z -> bytes.
Hypothesis fresh_len : forall n, 0 <= n -> zlen (fresh n) = n.

Lemma encrypt_runs nb key bs E D m iv : block_family nb key bs E D -> mode_ok bs (dmode m) -> iv_ok bs (dmode m) iv ->
  exists o, make_cipher fresh nb m None iv key Encrypt = Ret o /\
  forall X, blocks_ok (mode_bs bs (dmode m)) X -> zlen (concat X) + 3 * mode_bs bs (dmode m) <= max_string_length -> within_limit bs (dmode m) (zlen X) ->
  exists s Y, run_string o (concat X) = Ret (concat Y) /\ blocks_ok (mode_bs bs (dmode m)) Y /\
    let F := mode_fun E D (dmode m) Encrypt in
    bf_run (mode_fn bs F (dmode m) Encrypt) (mode_st0 bs F (dmode m) Encrypt (iv_val bs iv)) X = (s, Some Y) /\
    mode_spec bs F (dmode m) Encrypt (iv_val bs iv) X Y.
Proof.
  intros HF Hm Hiv. destruct (make_cipher_ok fresh fresh_len nb key bs E D m None iv Encrypt HF Hm Hiv) as (o & Ho & B). cbn [option_map] in Ho.
  exists o. split; [exact Ho|]. intros X HX Hsz Hw.
  pose proof (fam_bs _ _ _ _ _ HF) as Hbs. pose proof (mode_bs_pos fresh fresh_len bs _ (proj1 Hbs) Hm) as Hbm.
  set (F := mode_fun E D (dmode m) Encrypt) in *. cbn [fin_of] in B.
  destruct (proj1 (mode_run bs ltac:(lia) F (dmode m) Encrypt (iv_val bs iv) X Hm (fun Hne => iv_val_len bs ltac:(lia) _ iv Hiv Hne)) Hw) as (s & Y & HR & HS).
  pose proof (plain_total (mode_bs bs (dmode m)) (mode_fn bs F (dmode m) Encrypt) Hbm (mode_st0 bs F (dmode m) Encrypt (iv_val bs iv)) X (blocks_ok_len _ _ HX)) as Ht.
  rewrite HR in Ht. exists s, Y. split.
  - apply (behaves_result _ _ _ _ _ _ _ B Hbm (blocks_ok_concat _ _ HX) Hsz); unfold plain_mealy in Ht; rewrite Ht; reflexivity.
  - split; [|split; assumption]. exact (behaves_sizes _ _ _ _ _ B X s Y HX HR).
Qed.

Lemma common_prefix nb key bs E D m iv X1 X2 : block_family nb key bs E D -> mode_ok bs (dmode m) -> iv_ok bs (dmode m) iv ->
  let b := mode_bs bs (dmode m) in blocks_ok b X1 -> blocks_ok b X2 ->
  zlen (concat X1) + 3 * b <= max_string_length -> zlen (concat X2) + 3 * b <= max_string_length ->
  within_limit bs (dmode m) (zlen X1) -> within_limit bs (dmode m) (zlen X2) ->
  exists o Y1 Y2, make_cipher fresh nb m None iv key Encrypt = Ret o /\
    run_string o (concat X1) = Ret (concat Y1) /\ run_string o (concat X2) = Ret (concat Y2) /\ blocks_ok b Y1 /\ blocks_ok b Y2 /\
    forall j, firstn j Y1 = firstn j Y2 <-> firstn j X1 = firstn j X2.
Proof.
  intros HF Hm Hiv b H1 H2 S1 S2 W1 W2. destruct (encrypt_runs nb key bs E D m iv HF Hm Hiv) as (o & Ho & R).
  destruct (R X1 H1 S1 W1) as (s1 & Y1 & R1 & O1 & F1 & _). destruct (R X2 H2 S2 W2) as (s2 & Y2 & R2 & O2 & F2 & _).
  exists o, Y1, Y2. do 5 (split; [assumption|]). intros j.
  destruct (bf_run_firstn _ _ _ _ _ j F1) as (t1 & G1). destruct (bf_run_firstn _ _ _ _ _ j F2) as (t2 & G2). split; intros Heq.
  - pose proof (fam_bs _ _ _ _ _ HF) as Hbs.
    assert (Hivl : dmode m <> ECB -> zlen (iv_val bs iv) = bs /\ bytes_ok (iv_val bs iv)) by (apply iv_val_len; [lia|exact Hiv]).
    destruct (mode_inverse bs ltac:(lia) E D (dmode m) (iv_val bs iv) Hm Hivl (fam_len _ _ _ _ _ HF) (fam_inv _ _ _ _ _ HF) _ _ _ (blocks_ok_firstn _ _ j H1) G1) as (u1 & I1).
    destruct (mode_inverse bs ltac:(lia) E D (dmode m) (iv_val bs iv) Hm Hivl (fam_len _ _ _ _ _ HF) (fam_inv _ _ _ _ _ HF) _ _ _ (blocks_ok_firstn _ _ j H2) G2) as (u2 & I2).
    rewrite Heq in I1. rewrite I1 in I2. now injection I2.
  - rewrite Heq in G1. rewrite G1 in G2. now injection G2.
Qed.

Lemma E_inj nb key bs E D a b : block_family nb key bs E D -> zlen a = bs -> bytes_ok a -> zlen b = bs -> bytes_ok b -> E a = E b -> a = b.
Proof. intros HF La Oa Lb Ob H. rewrite <- (fam_inv _ _ _ _ _ HF a La Oa), <- (fam_inv _ _ _ _ _ HF b Lb Ob), H. reflexivity. Qed.

Lemma blk_ok bs X j : blocks_ok bs X -> (j < length X)%nat -> zlen (blk X j) = bs /\ bytes_ok (blk X j).
Proof. intros H L. unfold blocks_ok in H. rewrite Forall_forall in H. apply H. apply nth_In, L. Qed.

Lemma ecb_blocks nb key bs E D X1 X2 : block_family nb key bs E D -> blocks_ok bs X1 -> blocks_ok bs X2 ->
  zlen (concat X1) + 3 * bs <= max_string_length -> zlen (concat X2) + 3 * bs <= max_string_length ->
  exists o Y1 Y2, make_cipher fresh nb (Some ECB) None None key Encrypt = Ret o /\
    run_string o (concat X1) = Ret (concat Y1) /\ run_string o (concat X2) = Ret (concat Y2) /\ blocks_ok bs Y1 /\ blocks_ok bs Y2 /\
    forall i j, (i < length X1)%nat -> (j < length X2)%nat -> (blk Y1 i = blk Y2 j <-> blk X1 i = blk X2 j).
Proof.
  intros HF H1 H2 S1 S2. destruct (encrypt_runs nb key bs E D (Some ECB) None HF Logic.I Logic.I) as (o & Ho & R). cbn [dmode mode_bs] in R.
  destruct (R X1 H1 S1 Logic.I) as (s1 & Y1 & R1 & O1 & _ & M1). destruct (R X2 H2 S2 Logic.I) as (s2 & Y2 & R2 & O2 & _ & M2).
  cbn [mode_spec mode_fun] in M1, M2. destruct M1 as (_ & M1), M2 as (_ & M2).
  exists o, Y1, Y2. do 5 (split; [assumption|]). intros i j Hi Hj. rewrite M1, M2 by assumption.
  destruct (blk_ok bs X1 i H1 Hi), (blk_ok bs X2 j H2 Hj). split; [apply (E_inj nb key bs E D); assumption|congruence].
Qed.

Lemma xor_sides a b p q : zlen a = zlen p -> zlen b = zlen p -> zlen q = zlen p -> (xorb a p = xorb b q <-> xorb a b = xorb p q).
Proof.
  intros La Lb Lq. unfold zlen in *.
  assert (La' : length a = length p) by lia. assert (Lb' : length b = length p) by lia. assert (Lq' : length q = length p) by lia. clear La Lb Lq.
  revert a b q La' Lb' Lq'. induction p as [|z p IH]; intros [|x a] [|y b] [|w q] L1 L2 L3; try discriminate; [tauto|].
  rewrite !xorb_cons. injection L1 as L1. injection L2 as L2. injection L3 as L3. specialize (IH a b q L1 L2 L3).
  assert (G : Z.lxor x z = Z.lxor y w <-> Z.lxor x y = Z.lxor z w).
  { split; intros H; apply Z.bits_inj; intros n; apply (f_equal (fun t => Z.testbit t n)) in H; rewrite !Z.lxor_spec in *;
    destruct (Z.testbit x n), (Z.testbit y n), (Z.testbit z n), (Z.testbit w n); cbn in *; congruence. }
  split; intros H; injection H as H0 H; f_equal; tauto.
Qed.

Lemma cbc_blocks nb key bs E D iv1 iv2 X1 X2 : block_family nb key bs E D ->
  zlen iv1 = bs -> bytes_ok iv1 -> zlen iv2 = bs -> bytes_ok iv2 -> blocks_ok bs X1 -> blocks_ok bs X2 ->
  zlen (concat X1) + 3 * bs <= max_string_length -> zlen (concat X2) + 3 * bs <= max_string_length ->
  exists o1 o2 Y1 Y2, make_cipher fresh nb (Some CBC) None (Some iv1) key Encrypt = Ret o1 /\
    make_cipher fresh nb (Some CBC) None (Some iv2) key Encrypt = Ret o2 /\
    run_string o1 (concat X1) = Ret (concat Y1) /\ run_string o2 (concat X2) = Ret (concat Y2) /\ blocks_ok bs Y1 /\ blocks_ok bs Y2 /\
    forall i j, (i < length X1)%nat -> (j < length X2)%nat ->
      (blk Y1 i = blk Y2 j <-> xorb (blk X1 i) (blk X2 j) = xorb (blk (iv1 :: Y1) i) (blk (iv2 :: Y2) j)).
Proof.
  intros HF Lv1 Ov1 Lv2 Ov2 H1 H2 S1 S2.
  destruct (encrypt_runs nb key bs E D (Some CBC) (Some iv1) HF Logic.I ltac:(cbn; auto)) as (o1 & Ho1 & Ra). cbn [dmode mode_bs] in Ra.
  destruct (encrypt_runs nb key bs E D (Some CBC) (Some iv2) HF Logic.I ltac:(cbn; auto)) as (o2 & Ho2 & Rb). cbn [dmode mode_bs] in Rb.
  destruct (Ra X1 H1 S1 Logic.I) as (s1 & Y1 & R1 & O1 & _ & M1). destruct (Rb X2 H2 S2 Logic.I) as (s2 & Y2 & R2 & O2 & _ & M2).
  cbn [mode_spec mode_fun iv_val] in M1, M2. destruct M1 as (L1 & M1), M2 as (L2 & M2).
  exists o1, o2, Y1, Y2. do 6 (split; [assumption|]). intros i j Hi Hj.
  assert (P1 : zlen (blk (iv1 :: Y1) i) = bs /\ bytes_ok (blk (iv1 :: Y1) i)) by (apply blk_ok; [constructor; auto|cbn [length]; lia]).
  assert (P2 : zlen (blk (iv2 :: Y2) j) = bs /\ bytes_ok (blk (iv2 :: Y2) j)) by (apply blk_ok; [constructor; auto|cbn [length]; lia]).
  assert (N1 : blk Y1 i = E (xorb (blk X1 i) (blk (iv1 :: Y1) i))) by (rewrite M1 by assumption; destruct i; reflexivity).
  assert (N2 : blk Y2 j = E (xorb (blk X2 j) (blk (iv2 :: Y2) j))) by (rewrite M2 by assumption; destruct j; reflexivity).
  destruct (blk_ok bs X1 i H1 Hi), (blk_ok bs X2 j H2 Hj), P1, P2. rewrite N1, N2.
  rewrite <- xor_sides by lia. split; [|congruence].
  apply (E_inj nb key bs E D); try assumption; try (apply bytes_ok_xorb; assumption); rewrite zlen_xorb; lia.
Qed.
End Visible.
