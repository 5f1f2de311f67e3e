(* Decryption: a block of output depends on few blocks of input. *)
From Verif Require Import Prelude PreludeFacts BytesNum SpecTransducer SpecBlock BlockTotal SpecModes TransformModel Transform BlockModel CipherModel CipherSpec
  CipherFacts CipherApi EncModel EncApi SpecSpread.

Lemma blk_concat n X : 0 < n -> blocks_ok n X -> forall j, (j < length X)%nat -> block_at n (concat X) (Z.of_nat j) = SpecModes.blk X j.
Proof.
  intros Hn. unfold block_at, sub, SpecModes.blk. induction X as [|x X IH]; intros HX j Hj; [cbn in Hj; lia|].
  apply Forall_cons_iff in HX. destruct HX as ((Lx & _) & HX). cbn [concat]. unfold zlen in Lx. destruct j as [|j].
  - rewrite Z.mul_0_r. cbn [Z.to_nat skipn nth]. rewrite firstn_app, firstn_all2 by lia. replace (Z.to_nat n - length x)%nat with 0%nat by lia. cbn [firstn]. apply app_nil_r.
  - cbn [length] in Hj. cbn [nth]. rewrite <- (IH HX j) by lia. f_equal. rewrite skipn_app, skipn_all2 by lia. cbn [app]. f_equal. lia.
Qed.

Section Modes.
Variables (bs : Z) (F : bytes -> bytes).
Hypothesis bs_pos : 0 < bs.

Lemma input_ok n iv C : 0 < n <= bs -> zlen iv = bs -> bytes_ok iv -> blocks_ok n C -> forall j, (j <= length C)%nat ->
  zlen (cfb_input (Z.to_nat n) iv C j) = bs /\ bytes_ok (cfb_input (Z.to_nat n) iv C j).
Proof.
  intros Hn Li Bi HC. induction j as [|j IH]; intros Hj; [split; assumption|]. cbn [cfb_input]. destruct (IH ltac:(lia)) as (L & B).
  assert (HB : zlen (SpecModes.blk C j) = n /\ bytes_ok (SpecModes.blk C j)) by (apply (proj1 (Forall_forall _ _) HC), nth_In; lia). destruct HB as (L' & B').
  split.
  - rewrite zlen_app. unfold zlen in *. rewrite skipn_length. lia.
  - apply bytes_ok_app. split; [apply Forall_skipn, B|exact B'].
Qed.
(* the input of CFB after k equal chunks: the last n * k bytes are equal *)
Lemma input_tail n iv iv' C C' : (0 < n)%nat -> forall k j j' (L : nat), length (cfb_input n iv C j) = L -> length (cfb_input n iv' C' j') = L ->
  (forall i, (i <= length C)%nat -> length (cfb_input n iv C i) = L) -> (forall i, (i <= length C')%nat -> length (cfb_input n iv' C' i) = L) ->
  (n <= L)%nat -> (j <= length C)%nat -> (j' <= length C')%nat -> (k <= j)%nat -> (k <= j')%nat ->
  (forall l, (1 <= l <= k)%nat -> SpecModes.blk C (j - l) = SpecModes.blk C' (j' - l)) ->
  skipn (L - n * k) (cfb_input n iv C j) = skipn (L - n * k) (cfb_input n iv' C' j').
Proof.
  intros Hn. induction k as [|k IH]; intros j j' L E1 E2 A1 A2 HL Hj Hj' Hk Hk' Heq.
  - rewrite Nat.mul_0_r, Nat.sub_0_r. rewrite !skipn_all2 by lia. reflexivity.
  - destruct j as [|j]; [lia|]. destruct j' as [|j']; [lia|]. cbn [cfb_input].
    assert (H0 : SpecModes.blk C j = SpecModes.blk C' j') by (specialize (Heq 1%nat ltac:(lia)); cbn [Nat.sub] in Heq; rewrite !Nat.sub_0_r in Heq; exact Heq).
    assert (H1 : skipn (L - n * k) (cfb_input n iv C j) = skipn (L - n * k) (cfb_input n iv' C' j')).
    { apply IH; try (apply A1 || apply A2); try assumption; try lia. intros l Hl. specialize (Heq (S l) ltac:(lia)). exact Heq. }
    rewrite H0. rewrite !skipn_app, !skipn_skipn. f_equal; [|rewrite !skipn_length, (A1 j), (A2 j') by lia; reflexivity].
    assert (G : forall a b c d, (c <= d)%nat -> skipn c a = skipn c b -> skipn d a = skipn d (b : bytes)).
    { intros a b c d Hcd Hab. replace d with (d - c + c)%nat by lia. rewrite <- !skipn_skipn, Hab. reflexivity. }
    eapply (G _ _ (L - n * k)%nat); [lia|exact H1].
Qed.
Lemma input_same n iv C C' : forall j, (forall i, (i < j)%nat -> SpecModes.blk C i = SpecModes.blk C' i) -> cfb_input n iv C j = cfb_input n iv C' j.
Proof. induction j as [|j IH]; intros H; [reflexivity|]. cbn [cfb_input]. rewrite IH by (intros; apply H; lia). rewrite (H j) by lia. reflexivity. Qed.

(* same IV, same position *)
Lemma local_same m iv X X' Y Y' : mode_ok bs m -> (m <> ECB -> zlen iv = bs /\ bytes_ok iv) -> blocks_ok (mode_bs bs m) X -> blocks_ok (mode_bs bs m) X' ->
  length X = length X' -> mode_spec bs F m Decrypt iv X Y -> mode_spec bs F m Decrypt iv X' Y' ->
  forall j, (j < length X)%nat -> (forall l, Z.of_nat l <= reach bs m -> (l <= j)%nat -> SpecModes.blk X (j - l) = SpecModes.blk X' (j - l)) -> SpecModes.blk Y j = SpecModes.blk Y' j.
Proof.
  intros Hm Hiv HX HX' HL HS HS' j Hj Heq. assert (E0 : SpecModes.blk X j = SpecModes.blk X' j).
  { specialize (Heq 0%nat). rewrite Nat.sub_0_r in Heq. apply Heq; [|lia]. unfold reach. destruct m; cbn [mode_ok] in Hm; try (cbn; lia); apply Z.div_pos; lia. }
  destruct m as [| |z|z| |z]; cbn [mode_spec mode_ok mode_bs reach] in *; destruct HS as (_ & HS); destruct HS' as (_ & HS'); rewrite (HS j Hj), (HS' j ltac:(lia)), E0; try reflexivity.
  - destruct j as [|j]; [reflexivity|]. f_equal. specialize (Heq 1%nat ltac:(lia) ltac:(lia)). cbn [Nat.sub] in Heq. rewrite Nat.sub_0_r in Heq. exact Heq.
  - f_equal. f_equal. f_equal. destruct (Hiv ltac:(discriminate)) as (Li & Bi). set (n := Z.to_nat z). assert (Hn : (0 < n)%nat) by (unfold n; lia).
    destruct (Z_le_dec ((bs + z - 1) / z) (Z.of_nat j)) as [W|W].
    + set (k := Z.to_nat ((bs + z - 1) / z)). assert (Hk : bs <= z * ((bs + z - 1) / z)).
      { pose proof (Z.mod_pos_bound (bs + z - 1) z ltac:(lia)). pose proof (Z.div_mod (bs + z - 1) z ltac:(lia)). nia. }
      assert (Hp : 0 <= (bs + z - 1) / z) by (apply Z.div_pos; lia).
      assert (A1 : forall i, (i <= length X)%nat -> length (cfb_input n iv X i) = Z.to_nat bs) by (intros i Hi; destruct (input_ok z iv X Hm Li Bi HX i Hi) as (Q & _); unfold zlen in Q; fold n in Q; lia).
      assert (A2 : forall i, (i <= length X')%nat -> length (cfb_input n iv X' i) = Z.to_nat bs) by (intros i Hi; destruct (input_ok z iv X' Hm Li Bi HX' i Hi) as (Q & _); unfold zlen in Q; fold n in Q; lia).
      pose proof (input_tail n iv iv X X' Hn k j j (Z.to_nat bs) (A1 j ltac:(lia)) (A2 j ltac:(lia)) A1 A2 ltac:(unfold n; lia) ltac:(lia) ltac:(lia) ltac:(unfold k; lia) ltac:(unfold k; lia)) as T.
      replace (Z.to_nat bs - n * k)%nat with 0%nat in T by (unfold n, k; nia). apply T. intros l Hl. apply Heq; unfold k in Hl; lia.
    + apply input_same. intros i Hi. specialize (Heq (j - i)%nat ltac:(lia) ltac:(lia)). replace (j - (j - i))%nat with i in Heq by lia. exact Heq.
Qed.
(* different IVs and positions *)
Lemma local_other m iv iv' X X' Y Y' : forgets m -> mode_ok bs m -> (m <> ECB -> zlen iv = bs /\ bytes_ok iv) -> (m <> ECB -> zlen iv' = bs /\ bytes_ok iv') ->
  blocks_ok (mode_bs bs m) X -> blocks_ok (mode_bs bs m) X' -> mode_spec bs F m Decrypt iv X Y -> mode_spec bs F m Decrypt iv' X' Y' ->
  forall j j', (j < length X)%nat -> (j' < length X')%nat -> reach bs m <= Z.of_nat j -> reach bs m <= Z.of_nat j' ->
  (forall l, Z.of_nat l <= reach bs m -> SpecModes.blk X (j - l) = SpecModes.blk X' (j' - l)) -> SpecModes.blk Y j = SpecModes.blk Y' j'.
Proof.
  intros Hf Hm Hiv Hiv' HX HX' HS HS' j j' Hj Hj' W W' Heq. assert (E0 : SpecModes.blk X j = SpecModes.blk X' j').
  { specialize (Heq 0%nat). rewrite !Nat.sub_0_r in Heq. apply Heq. unfold reach. destruct m; cbn [mode_ok] in Hm; try (cbn; lia); apply Z.div_pos; lia. }
  destruct m as [| |z|z| |z]; cbn [forgets] in Hf; try contradiction; cbn [mode_spec mode_ok mode_bs reach] in *; destruct HS as (_ & HS); destruct HS' as (_ & HS'); rewrite (HS j Hj), (HS' j' Hj'), E0; try reflexivity.
  - destruct j as [|j]; [lia|]. destruct j' as [|j']; [lia|]. f_equal. specialize (Heq 1%nat ltac:(lia)). cbn [Nat.sub] in Heq. rewrite !Nat.sub_0_r in Heq. exact Heq.
  - f_equal. f_equal. f_equal. destruct (Hiv ltac:(discriminate)) as (Li & Bi). destruct (Hiv' ltac:(discriminate)) as (Li' & Bi'). set (n := Z.to_nat z). assert (Hn : (0 < n)%nat) by (unfold n; lia).
    set (k := Z.to_nat ((bs + z - 1) / z)). assert (Hk : bs <= z * ((bs + z - 1) / z)).
    { pose proof (Z.mod_pos_bound (bs + z - 1) z ltac:(lia)). pose proof (Z.div_mod (bs + z - 1) z ltac:(lia)). nia. }
    assert (Hp : 0 <= (bs + z - 1) / z) by (apply Z.div_pos; lia).
    assert (A1 : forall i, (i <= length X)%nat -> length (cfb_input n iv X i) = Z.to_nat bs) by (intros i Hi; destruct (input_ok z iv X Hm Li Bi HX i Hi) as (Q & _); unfold zlen in Q; fold n in Q; lia).
    assert (A2 : forall i, (i <= length X')%nat -> length (cfb_input n iv' X' i) = Z.to_nat bs) by (intros i Hi; destruct (input_ok z iv' X' Hm Li' Bi' HX' i Hi) as (Q & _); unfold zlen in Q; fold n in Q; lia).
    pose proof (input_tail n iv iv' X X' Hn k j j' (Z.to_nat bs) (A1 j ltac:(lia)) (A2 j' ltac:(lia)) A1 A2 ltac:(unfold n; lia) ltac:(lia) ltac:(lia) ltac:(unfold k; lia) ltac:(unfold k; lia)) as T.
    replace (Z.to_nat bs - n * k)%nat with 0%nat in T by (unfold n, k; nia). apply T. intros l Hl. apply Heq; unfold k in Hl; lia.
Qed.
End Modes.

Section Api.
Variable fresh : Z -> bytes.
Hypothesis fresh_len : forall n, 0 <= n -> zlen (fresh n) = n.
(* a decryption that succeeds, as blocks *)
Lemma decrypt_blocks nb key bs E D m iv o c r : block_family nb key bs E D -> mode_ok bs m -> iv_ok bs m iv ->
  make_cipher fresh nb (Some m) None iv key Decrypt = Ret o -> bytes_ok c -> zlen c + 3 * mode_bs bs m <= max_string_length -> zlen c mod mode_bs bs m = 0 -> run_string o c = Ret r ->
  exists X Y, c = concat X /\ r = concat Y /\ blocks_ok (mode_bs bs m) X /\ blocks_ok (mode_bs bs m) Y /\ length X = length Y /\ zlen c = mode_bs bs m * zlen X /\
    mode_spec bs (mode_fun E D m Decrypt) m Decrypt (iv_val bs iv) X Y.
Proof.
  intros HF Hm Hiv Ho Hb Hsz Hmod Hr. pose proof (fam_bs _ _ _ _ _ HF) as Hbs. pose proof (mode_bs_pos fresh fresh_len bs m (proj1 Hbs) Hm) as Hn.
  destruct (as_blocks fresh fresh_len (mode_bs bs m) c Hn Hb) as (X & tail & EX & HX & _ & Ht & HXl & _).
  rewrite Hmod in Ht. assert (tail = []) by (destruct tail; [reflexivity|unfold zlen in Ht; cbn in Ht; lia]). subst tail. rewrite app_nil_r in EX.
  destruct (make_cipher_ok fresh fresh_len nb key bs E D (Some m) None iv Decrypt HF Hm Hiv) as (o' & Ho' & B). cbn [option_map] in Ho'. rewrite Ho in Ho'. injection Ho' as <-.
  cbn [dmode fin_of] in B. set (F := mode_fun E D m Decrypt) in *.
  destruct (mode_run bs ltac:(lia) F m Decrypt (iv_val bs iv) X Hm (fun Hne => iv_val_len bs ltac:(lia) m iv Hiv Hne)) as (R1 & R2).
  pose proof (plain_total (mode_bs bs m) (mode_fn bs F m Decrypt) Hn (mode_st0 bs F m Decrypt (iv_val bs iv)) X (blocks_ok_len _ _ HX)) as Ht'. unfold plain_mealy in Ht'. rewrite <- EX in Ht'.
  assert (Hw : within_limit bs m (zlen X)).
  { unfold within_limit in *. destruct (mode_limit bs m) as [l|]; [|exact Logic.I]. destruct (Z_le_dec (zlen X) l) as [|Hn']; [assumption|]. specialize (R2 Hn').
    destruct (bf_run (mode_fn bs F m Decrypt) (mode_st0 bs F m Decrypt (iv_val bs iv)) X) as [s [Y|]]; [discriminate|].
    pose proof (behaves_raise _ _ _ _ _ _ _ B Hb Hsz Ht') as T. rewrite T in Hr. discriminate. }
  destruct (R1 Hw) as (s & Y & HR & HS). rewrite HR in Ht'.
  destruct (behaves_result _ _ _ _ _ c (concat Y) B Hn Hb Hsz) as (P1 & _); [rewrite Ht'; reflexivity|rewrite Ht'; reflexivity|].
  rewrite Hr in P1. injection P1 as ->. exists X, Y. split; [exact EX|]. split; [reflexivity|]. split; [exact HX|].
  split; [exact (behaves_sizes _ _ _ _ _ B X s Y HX HR)|]. split; [symmetry; exact (mode_spec_length _ _ _ _ _ _ _ HS)|]. split; [rewrite EX; apply (zlen_concat (mode_bs bs m)), blocks_ok_len, HX|exact HS].
Qed.
Theorem decrypt_local nb key bs E D m iv o c c' r r' j : block_family nb key bs E D -> mode_ok bs m -> iv_ok bs m iv ->
  make_cipher fresh nb (Some m) None iv key Decrypt = Ret o -> let n := mode_bs bs m in
  bytes_ok c -> bytes_ok c' -> zlen c = zlen c' -> zlen c + 3 * n <= max_string_length -> zlen c mod n = 0 -> run_string o c = Ret r -> run_string o c' = Ret r' ->
  0 <= j -> n * (j + 1) <= zlen c -> (forall i, Z.max 0 (j - reach bs m) <= i <= j -> block_at n c i = block_at n c' i) -> block_at n r j = block_at n r' j.
Proof.
  intros HF Hm Hiv Ho n Bc Bc' HL Hsz Hmod Hr Hr' Hj Hjn Heq. pose proof (fam_bs _ _ _ _ _ HF) as Hbs. pose proof (mode_bs_pos fresh fresh_len bs m (proj1 Hbs) Hm) as Hn. fold n in Hn.
  destruct (decrypt_blocks nb key bs E D m iv o c r HF Hm Hiv Ho Bc Hsz Hmod Hr) as (X & Y & EX & EY & HX & HY & LX & ZX & HS).
  destruct (decrypt_blocks nb key bs E D m iv o c' r' HF Hm Hiv Ho Bc') as (X' & Y' & EX' & EY' & HX' & HY' & LX' & ZX' & HS'); [fold n; lia|fold n; rewrite <- HL; exact Hmod|exact Hr'|].
  fold n in HX, HY, HX', HY', ZX, ZX'. assert (LL : length X = length X') by (unfold zlen in *; nia). assert (Hjx : (Z.to_nat j < length X)%nat) by (unfold zlen in *; nia).
  subst c c' r r'. replace j with (Z.of_nat (Z.to_nat j)) by lia. rewrite !blk_concat by (assumption || lia).
  apply (local_same bs (mode_fun E D m Decrypt) ltac:(lia) m (iv_val bs iv) X X' Y Y' Hm (fun Hne => iv_val_len bs ltac:(lia) m iv Hiv Hne) HX HX' LL HS HS' (Z.to_nat j) Hjx).
  intros l Hl Hlj. specialize (Heq (Z.of_nat (Z.to_nat j - l)) ltac:(lia)). rewrite !blk_concat in Heq by (assumption || lia). exact Heq.
Qed.
Lemma block_at_app n (a t : bytes) k j : 0 <= n -> zlen a = n * k -> 0 <= k -> 0 <= j -> block_at n (a ++ t) (k + j) = block_at n t j.
Proof.
  intros Hn La Hk Hj. unfold block_at, sub. f_equal. unfold zlen in La. rewrite skipn_app, skipn_all2 by nia. cbn [app]. f_equal. nia.
Qed.
Theorem decrypt_resync nb key bs E D m iv iv' o o' a a' t r r' j : block_family nb key bs E D -> forgets m -> mode_ok bs m -> iv_ok bs m iv -> iv_ok bs m iv' ->
  make_cipher fresh nb (Some m) None iv key Decrypt = Ret o -> make_cipher fresh nb (Some m) None iv' key Decrypt = Ret o' -> let n := mode_bs bs m in
  bytes_ok a -> bytes_ok a' -> bytes_ok t -> zlen (a ++ t) + 3 * n <= max_string_length -> zlen (a' ++ t) + 3 * n <= max_string_length ->
  zlen a mod n = 0 -> zlen a' mod n = 0 -> zlen t mod n = 0 -> run_string o (a ++ t) = Ret r -> run_string o' (a' ++ t) = Ret r' ->
  reach bs m <= j -> n * (j + 1) <= zlen t -> block_at n r (zlen a / n + j) = block_at n r' (zlen a' / n + j).
Proof.
  intros HF Hf Hm Hiv Hiv' Ho Ho' n Ba Ba' Bt Hsz Hsz' Ma Ma' Mt Hr Hr' Hj Hjn. pose proof (fam_bs _ _ _ _ _ HF) as Hbs. pose proof (mode_bs_pos fresh fresh_len bs m (proj1 Hbs) Hm) as Hn. fold n in Hn.
  assert (MM : forall x, zlen x mod n = 0 -> zlen (x ++ t) mod n = 0) by (intros x Hx; rewrite zlen_app, Z.add_mod, Hx, Mt, Z.mod_0_l by lia; reflexivity).
  destruct (decrypt_blocks nb key bs E D m iv o (a ++ t) r HF Hm Hiv Ho) as (X & Y & EX & EY & HX & HY & LX & ZX & HS); [apply bytes_ok_app; auto|exact Hsz|apply MM, Ma|exact Hr|].
  destruct (decrypt_blocks nb key bs E D m iv' o' (a' ++ t) r' HF Hm Hiv' Ho') as (X' & Y' & EX' & EY' & HX' & HY' & LX' & ZX' & HS'); [apply bytes_ok_app; auto|exact Hsz'|apply MM, Ma'|exact Hr'|].
  fold n in HX, HY, HX', HY', ZX, ZX'. rewrite zlen_app in ZX, ZX'.
  assert (R0 : 0 <= reach bs m) by (unfold reach; destruct m; cbn [mode_ok] in Hm; try lia; apply Z.div_pos; lia).
  assert (Ka : zlen a = n * (zlen a / n)) by (pose proof (Z.div_mod (zlen a) n ltac:(lia)); lia). assert (Ka' : zlen a' = n * (zlen a' / n)) by (pose proof (Z.div_mod (zlen a') n ltac:(lia)); lia).
  set (k := zlen a / n) in *. set (k' := zlen a' / n) in *. assert (Hk : 0 <= k) by (pose proof (zlen_nonneg a); nia). assert (Hk' : 0 <= k') by (pose proof (zlen_nonneg a'); nia).
  assert (I1 : (Z.to_nat (k + j) < length X)%nat) by (unfold zlen in *; nia). assert (I2 : (Z.to_nat (k' + j) < length X')%nat) by (unfold zlen in *; nia).
  subst r r'. replace (k + j) with (Z.of_nat (Z.to_nat (k + j))) by lia. replace (k' + j) with (Z.of_nat (Z.to_nat (k' + j))) by lia. rewrite !blk_concat by (assumption || lia).
  apply (local_other bs (mode_fun E D m Decrypt) ltac:(lia) m (iv_val bs iv) (iv_val bs iv') X X' Y Y' Hf Hm (fun Hne => iv_val_len bs ltac:(lia) m iv Hiv Hne) (fun Hne => iv_val_len bs ltac:(lia) m iv' Hiv' Hne)
    HX HX' HS HS' (Z.to_nat (k + j)) (Z.to_nat (k' + j)) I1 I2 ltac:(lia) ltac:(lia)).
  intros l Hl. rewrite <- (blk_concat n X) by (assumption || lia). rewrite <- (blk_concat n X') by (assumption || lia). rewrite <- EX, <- EX'.
  replace (Z.of_nat (Z.to_nat (k + j) - l)) with (k + (j - Z.of_nat l)) by lia. replace (Z.of_nat (Z.to_nat (k' + j) - l)) with (k' + (j - Z.of_nat l)) by lia.
  rewrite !block_at_app by (assumption || lia). reflexivity.
Qed.
Lemma xorb_min a : forall x, length (xorb a x) = Nat.min (length a) (length x).
Proof. induction a as [|h a IH]; intros [|y x]; try reflexivity. rewrite xorb_cons. cbn [length Nat.min]. rewrite IH. reflexivity. Qed.
Lemma xorb_same_l a : forall x y, length x = length y -> (length x <= length a)%nat -> xorb (xorb a x) (xorb a y) = xorb x y.
Proof.
  induction a as [|h a IH]; intros [|u x] [|v y] H L; cbn [length] in *; try reflexivity; try lia. rewrite !xorb_cons, IH by lia. f_equal.
  rewrite (Z.lxor_comm h u), Z.lxor_assoc, <- (Z.lxor_assoc h h), Z.lxor_nilpotent, Z.lxor_0_l. reflexivity.
Qed.
Lemma xorb_same_r a : forall x y, length x = length y -> (length x <= length a)%nat -> xorb (xorb x a) (xorb y a) = xorb x y.
Proof.
  induction a as [|h a IH]; intros [|u x] [|v y] H L; cbn [length] in *; try reflexivity; try lia. rewrite !xorb_cons, IH by lia. f_equal.
  rewrite (Z.lxor_comm v h), Z.lxor_assoc, <- (Z.lxor_assoc h h), Z.lxor_nilpotent, Z.lxor_0_l. reflexivity.
Qed.
Lemma blk_ok n X j : blocks_ok n X -> (j < length X)%nat -> zlen (SpecModes.blk X j) = n.
Proof. intros H Hj. apply (proj1 (Forall_forall _ _) H), nth_In, Hj. Qed.
Theorem cbc_flip nb key bs E D iv o c c' r r' j : block_family nb key bs E D -> iv_ok bs CBC iv ->
  make_cipher fresh nb (Some CBC) None iv key Decrypt = Ret o ->
  bytes_ok c -> bytes_ok c' -> zlen c = zlen c' -> zlen c + 3 * bs <= max_string_length -> zlen c mod bs = 0 -> run_string o c = Ret r -> run_string o c' = Ret r' ->
  1 <= j -> bs * (j + 1) <= zlen c -> block_at bs c j = block_at bs c' j ->
  xorb (block_at bs r j) (block_at bs r' j) = xorb (block_at bs c (j - 1)) (block_at bs c' (j - 1)).
Proof.
  intros HF Hiv Ho Bc Bc' HL Hsz Hmod Hr Hr' Hj Hjn Heq. pose proof (fam_bs _ _ _ _ _ HF) as Hbs.
  destruct (decrypt_blocks nb key bs E D CBC iv o c r HF Logic.I Hiv Ho Bc Hsz Hmod Hr) as (X & Y & EX & EY & HX & HY & LX & ZX & HS).
  destruct (decrypt_blocks nb key bs E D CBC iv o c' r' HF Logic.I Hiv Ho Bc') as (X' & Y' & EX' & EY' & HX' & HY' & LX' & ZX' & HS'); [cbn [mode_bs]; lia|cbn [mode_bs]; rewrite <- HL; exact Hmod|exact Hr'|].
  cbn [mode_bs] in *. assert (LL : length X = length X') by (unfold zlen in *; nia). assert (Hjx : (Z.to_nat j < length X)%nat) by (unfold zlen in *; nia).
  subst c c' r r'. destruct (Z.to_nat j) as [|i] eqn:Ei; [lia|]. assert (Ej : j = Z.of_nat (S i)) by lia. subst j. replace (Z.of_nat (S i) - 1) with (Z.of_nat i) by lia.
  rewrite !blk_concat in * by (assumption || lia). assert (L1 := blk_ok _ Y (S i) HY ltac:(lia)). assert (L2 := blk_ok _ X i HX ltac:(lia)). assert (L3 := blk_ok _ X' i HX' ltac:(lia)).
  destruct HS as (_ & HS). destruct HS' as (_ & HS'). rewrite (HS (S i) Hjx) in *. rewrite (HS' (S i)) in * by lia. rewrite <- Heq. unfold zlen in *. rewrite xorb_min in L1. apply xorb_same_l; lia.
Qed.
Theorem cbc_flip_iv nb key bs E D v v' o o' c r r' : block_family nb key bs E D -> zlen v = bs -> zlen v' = bs -> bytes_ok v -> bytes_ok v' ->
  make_cipher fresh nb (Some CBC) None (Some v) key Decrypt = Ret o -> make_cipher fresh nb (Some CBC) None (Some v') key Decrypt = Ret o' ->
  bytes_ok c -> zlen c + 3 * bs <= max_string_length -> zlen c mod bs = 0 -> run_string o c = Ret r -> run_string o' c = Ret r' -> bs <= zlen c ->
  xorb (block_at bs r 0) (block_at bs r' 0) = xorb v v' /\ forall j, 1 <= j -> bs * (j + 1) <= zlen c -> block_at bs r j = block_at bs r' j.
Proof.
  intros HF Lv Lv' Bv Bv' Ho Ho' Bc Hsz Hmod Hr Hr' Hc. pose proof (fam_bs _ _ _ _ _ HF) as Hbs.
  assert (Hiv : iv_ok bs CBC (Some v)) by (split; auto). assert (Hiv' : iv_ok bs CBC (Some v')) by (split; auto).
  split.
  - destruct (decrypt_blocks nb key bs E D CBC (Some v) o c r HF Logic.I Hiv Ho Bc Hsz Hmod Hr) as (X & Y & EX & EY & HX & HY & LX & ZX & HS).
    destruct (decrypt_blocks nb key bs E D CBC (Some v') o' c r' HF Logic.I Hiv' Ho' Bc Hsz Hmod Hr') as (X' & Y' & EX' & EY' & HX' & HY' & LX' & ZX' & HS').
    cbn [mode_bs iv_val] in *. assert (LL : length X = length X') by (unfold zlen in *; nia). assert (Hjx : (0 < length X)%nat) by (unfold zlen in *; nia).
    assert (E0 : SpecModes.blk X 0 = SpecModes.blk X' 0). { rewrite <- (blk_concat bs X) by (assumption || lia). rewrite <- (blk_concat bs X') by (assumption || lia). rewrite <- EX, <- EX'. reflexivity. }
    subst r r'. change 0 with (Z.of_nat 0). rewrite !blk_concat by (assumption || lia). assert (L1 := blk_ok _ Y 0 HY ltac:(lia)).
    destruct HS as (_ & HS). destruct HS' as (_ & HS'). rewrite (HS 0%nat Hjx) in *. rewrite (HS' 0%nat) in * by lia. rewrite <- E0. unfold zlen in *. rewrite xorb_min in L1. apply xorb_same_l; lia.
  - intros j Hj Hjn. change j with (0 + j). 
    exact (decrypt_resync nb key bs E D CBC (Some v) (Some v') o o' [] [] c r r' j HF Logic.I Logic.I Hiv Hiv' Ho Ho' (Forall_nil _) (Forall_nil _) Bc Hsz Hsz eq_refl eq_refl Hmod Hr Hr' Hj Hjn).
Qed.
Theorem cfb_flip nb key bs E D n iv o c c' r r' j : block_family nb key bs E D -> 0 < n <= bs -> iv_ok bs (CFB n) iv ->
  make_cipher fresh nb (Some (CFB n)) None iv key Decrypt = Ret o ->
  bytes_ok c -> bytes_ok c' -> zlen c = zlen c' -> zlen c + 3 * n <= max_string_length -> zlen c mod n = 0 -> run_string o c = Ret r -> run_string o c' = Ret r' ->
  0 <= j -> n * (j + 1) <= zlen c -> (forall i, 0 <= i < j -> block_at n c i = block_at n c' i) ->
  xorb (block_at n r j) (block_at n r' j) = xorb (block_at n c j) (block_at n c' j).
Proof.
  intros HF Hn Hiv Ho Bc Bc' HL Hsz Hmod Hr Hr' Hj Hjn Heq. pose proof (fam_bs _ _ _ _ _ HF) as Hbs.
  destruct (decrypt_blocks nb key bs E D (CFB n) iv o c r HF Hn Hiv Ho Bc Hsz Hmod Hr) as (X & Y & EX & EY & HX & HY & LX & ZX & HS).
  destruct (decrypt_blocks nb key bs E D (CFB n) iv o c' r' HF Hn Hiv Ho Bc') as (X' & Y' & EX' & EY' & HX' & HY' & LX' & ZX' & HS'); [cbn [mode_bs]; lia|cbn [mode_bs]; rewrite <- HL; exact Hmod|exact Hr'|].
  cbn [mode_bs] in *. assert (LL : length X = length X') by (unfold zlen in *; nia). assert (Hjx : (Z.to_nat j < length X)%nat) by (unfold zlen in *; nia).
  subst c c' r r'. replace j with (Z.of_nat (Z.to_nat j)) by lia.
  rewrite !blk_concat by (assumption || lia). assert (L1 := blk_ok _ Y (Z.to_nat j) HY ltac:(lia)). assert (L2 := blk_ok _ X (Z.to_nat j) HX ltac:(lia)). assert (L3 := blk_ok _ X' (Z.to_nat j) HX' ltac:(lia)).
  destruct HS as (_ & HS). destruct HS' as (_ & HS'). rewrite (HS _ Hjx) in *. rewrite (HS' (Z.to_nat j)) in * by lia.
  rewrite <- (input_same E (Z.to_nat n) (iv_val bs iv) X X').
  - unfold zlen in *. rewrite xorb_min in L1. apply xorb_same_r; lia.
  - intros i Hi. rewrite <- (blk_concat n X) by (assumption || lia). rewrite <- (blk_concat n X') by (assumption || lia). apply Heq. lia.
Qed.
End Api.
