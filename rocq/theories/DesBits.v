(* The words of d3des.c as lists of 32 bits; the initial and final permutations. *)
From Verif Require Import Prelude PreludeFacts BytesNum Word KeccakModel BlockModel CipherModel SpecDes DesModel.
From Coq Require Import Btauto.

Definition map2 (f : bool -> bool -> bool) (a b : list bool) : list bool := map (fun p => f (fst p) (snd p)) (combine a b).
Lemma num_snoc l b : num (l ++ [b]) = 2 * num l + (if b then 1 else 0).
Proof. unfold num. rewrite fold_left_app. reflexivity. Qed.
Lemma num_cons_false l : num (false :: l) = num l.
Proof. reflexivity. Qed.
Lemma num_testbit l : forall n, 0 <= n -> Z.testbit (num l) n = nth (Z.to_nat n) (rev l) false.
Proof.
  induction l as [|b l IH] using rev_ind; intros n Hn.
  - cbn [num fold_left rev]. rewrite Z.testbit_0_l. destruct (Z.to_nat n); reflexivity.
  - rewrite num_snoc, rev_unit. destruct (Z.eq_dec n 0) as [->|Hz].
    + change (Z.to_nat 0) with 0%nat. cbn [nth]. destruct b; [apply Z.testbit_odd_0|rewrite Z.add_0_r; apply Z.testbit_even_0].
    + replace n with (Z.succ (n - 1)) by lia. replace (Z.to_nat (Z.succ (n - 1))) with (S (Z.to_nat (n - 1))) by lia. cbn [nth].
      rewrite <- IH by lia. destruct b; [apply Z.testbit_odd_succ; lia|rewrite Z.add_0_r; apply Z.testbit_even_succ; lia].
Qed.
Lemma num_bits l x : 0 <= x -> (forall n, 0 <= n -> Z.testbit x n = nth (Z.to_nat n) (rev l) false) -> x = num l.
Proof. intros _ H. apply Z.bits_inj'. intros n Hn. rewrite num_testbit by exact Hn. apply H. exact Hn. Qed.
Lemma num_nonneg l : 0 <= num l.
Proof. induction l as [|b l IH] using rev_ind; [reflexivity|]. rewrite num_snoc. destruct b; lia. Qed.
Lemma num_bound l : num l < 2 ^ Z.of_nat (length l).
Proof.
  induction l as [|b l IH] using rev_ind; [reflexivity|]. rewrite num_snoc, app_length. cbn [length].
  rewrite Nat2Z.inj_add. change (Z.of_nat 1) with 1. rewrite Z.pow_add_r by lia. destruct b; lia.
Qed.
Lemma rev_combine {A B} (a : list A) : forall (b : list B), length a = length b -> rev (combine a b) = combine (rev a) (rev b).
Proof.
  induction a as [|x a IH]; intros [|y b] H; try discriminate H; [reflexivity|]. injection H as H. cbn [combine rev]. rewrite (IH b H).
  assert (G : forall (u : list A) (v : list B), length u = length v -> combine (u ++ [x]) (v ++ [y]) = combine u v ++ [(x, y)]).
  { induction u as [|p u IU]; intros [|q v] E; try discriminate E; [reflexivity|]. injection E as E. cbn [combine app]. rewrite IU by exact E. reflexivity. }
  rewrite G; [reflexivity|]. rewrite !rev_length. exact H.
Qed.
Lemma map2_nth f a : f false false = false -> forall b n, length a = length b -> nth n (map2 f a b) false = f (nth n a false) (nth n b false).
Proof.
  intros Hf. induction a as [|x a IH]; intros [|y b] n H; try discriminate H.
  - cbn [map2 combine map]. destruct n; symmetry; exact Hf.
  - injection H as H. destruct n; [reflexivity|]. cbn [nth]. apply (IH b n H).
Qed.
Lemma map2_rev f a b : length a = length b -> rev (map2 f a b) = map2 f (rev a) (rev b).
Proof. intros H. unfold map2. rewrite <- map_rev, rev_combine by exact H. reflexivity. Qed.
Lemma num_lxor a b : length a = length b -> Z.lxor (num a) (num b) = num (map2 Datatypes.xorb a b).
Proof.
  intros H. apply Z.bits_inj'. intros n Hn. rewrite Z.lxor_spec, !num_testbit, map2_rev, map2_nth by (try assumption; rewrite ?rev_length; auto). reflexivity.
Qed.
Lemma num_land a b : length a = length b -> Z.land (num a) (num b) = num (map2 andb a b).
Proof.
  intros H. apply Z.bits_inj'. intros n Hn. rewrite Z.land_spec, !num_testbit, map2_rev, map2_nth by (try assumption; rewrite ?rev_length; auto). reflexivity.
Qed.
Lemma num_lor a b : length a = length b -> Z.lor (num a) (num b) = num (map2 orb a b).
Proof.
  intros H. apply Z.bits_inj'. intros n Hn. rewrite Z.lor_spec, !num_testbit, map2_rev, map2_nth by (try assumption; rewrite ?rev_length; auto). reflexivity.
Qed.
Lemma rev_repeat {A} (x : A) n : rev (repeat x n) = repeat x n.
Proof. induction n as [|n IH]; [reflexivity|]. cbn [repeat rev]. rewrite IH. clear IH. induction n as [|n IH]; [reflexivity|]. cbn [repeat app]. rewrite IH. reflexivity. Qed.
Lemma nth_repeat_false k n : nth n (repeat false k) false = false.
Proof. revert n. induction k as [|k IH]; intros [|n]; cbn [repeat nth]; auto. Qed.
Lemma num_shr a k n : k = Z.of_nat n -> (n <= length a)%nat -> c_shr (num a) k = num (repeat false n ++ firstn (length a - n) a).
Proof.
  intros -> H. unfold c_shr. apply Z.bits_inj'. intros i Hi. rewrite Z.shiftr_spec, !num_testbit by lia. rewrite rev_app_distr, rev_repeat.
  assert (E : rev (firstn (length a - n) a) = skipn n (rev a)).
  { rewrite skipn_rev. reflexivity. }
  rewrite E. replace (Z.to_nat (i + Z.of_nat n)) with (n + Z.to_nat i)%nat by lia.
  destruct (lt_dec (Z.to_nat i) (length (skipn n (rev a)))) as [L|L].
  - rewrite app_nth1 by exact L. rewrite <- (firstn_skipn n (rev a)) at 1. rewrite app_nth2 by (rewrite firstn_length, rev_length; lia).
    f_equal. rewrite firstn_length, rev_length. lia.
  - rewrite app_nth2, nth_repeat_false by lia. rewrite skipn_length in L. apply nth_overflow. lia.
Qed.
Lemma num_shl a k n : k = Z.of_nat n -> length a = 32%nat -> (n <= 32)%nat -> c_shl 32 (num a) k = num (skipn n a ++ repeat false n).
Proof.
  intros -> La H. unfold c_shl. apply Z.bits_inj'. intros i Hi. rewrite num_testbit by exact Hi. rewrite rev_app_distr, rev_repeat.
  destruct (Z.ltb_spec i 32) as [L|L].
  - rewrite Z.mod_pow2_bits_low by exact L. rewrite Z.shiftl_spec by exact Hi. destruct (Z.ltb_spec i (Z.of_nat n)) as [M|M].
    + rewrite Z.testbit_neg_r by lia. rewrite app_nth1 by (rewrite repeat_length; lia). rewrite nth_repeat_false. reflexivity.
    + rewrite num_testbit by lia. rewrite app_nth2 by (rewrite repeat_length; lia). rewrite repeat_length.
      replace (rev (skipn n a)) with (firstn (32 - n) (rev a)) by (rewrite firstn_rev, La; f_equal; f_equal; lia).
      replace (Z.to_nat (i - Z.of_nat n)) with (Z.to_nat i - n)%nat by lia.
      rewrite <- (firstn_skipn (32 - n) (rev a)) at 1. rewrite app_nth1; [reflexivity|]. rewrite firstn_length, rev_length. lia.
  - rewrite Z.mod_pow2_bits_high by lia. symmetry. apply nth_overflow. rewrite app_length, repeat_length, rev_length, skipn_length. lia.
Qed.
Lemma num_pad n l : num (repeat false n ++ l) = num l.
Proof. induction n as [|n IH]; [reflexivity|]. exact IH. Qed.

(* ---- words as explicit lists of 32 bits ---- *)
Ltac explode l H := first
  [destruct l as [|?b l]; [discriminate H|]; cbn [length] in H; apply eq_add_S in H; explode l H
  |destruct l as [|? ?]; [clear H|discriminate H]].
Definition sel (m x y : list bool) : list bool := map (fun p => if fst p : bool then fst (snd p) else snd (snd p)) (combine m (combine x y)).
Definition shl (n : nat) (l : list bool) : list bool := skipn n l ++ repeat false n.
Definition shr (n : nat) (l : list bool) : list bool := repeat false n ++ firstn (length l - n) l.
Definition mask_bits (m : Z) : list bool := map (fun i => Z.testbit m (31 - Z.of_nat i)) (seq 0 32).
Ltac nums1 := rewrite ?(num_shr _ 1 1), ?(num_shr _ 2 2), ?(num_shr _ 4 4), ?(num_shr _ 8 8), ?(num_shr _ 16 16), ?(num_shr _ 24 24), ?(num_shr _ 31 31),
   ?(num_shl _ 1 1), ?(num_shl _ 2 2), ?(num_shl _ 4 4), ?(num_shl _ 8 8), ?(num_shl _ 16 16), ?(num_shl _ 28 28), ?(num_shl _ 31 31),
   ?num_lxor, ?num_land, ?num_lor by (reflexivity || apply Nat.leb_le; reflexivity).
Ltac nums := repeat (progress nums1).
Ltac listed := cbn [map2 sel shl shr combine map fst snd app skipn firstn repeat length Nat.sub].
Ltac bits_eq := repeat (apply f_equal2; [btauto|]); reflexivity.
Definition M0f0f0f0f : list bool := Eval vm_compute in mask_bits 0x0f0f0f0f.
Definition M0000ffff : list bool := Eval vm_compute in mask_bits 0x0000ffff.
Definition M33333333 : list bool := Eval vm_compute in mask_bits 0x33333333.
Definition M00ff00ff : list bool := Eval vm_compute in mask_bits 0x00ff00ff.
Definition Maaaaaaaa : list bool := Eval vm_compute in mask_bits 0xaaaaaaaa.
Ltac swap_tac m M a Ha b Hb := explode a Ha; explode b Hb; unfold swap_lr, swap_rl; change m with (num M); unfold M;
  nums; apply f_equal2; apply f_equal; listed; bits_eq.
Lemma swap_lr_4 a b : length a = 32%nat -> length b = 32%nat ->
  swap_lr 4 0x0f0f0f0f (num a, num b) = (num (sel (shl 4 M0f0f0f0f) (shl 4 b) a), num (sel M0f0f0f0f (shr 4 a) b)).
Proof. intros Ha Hb. swap_tac 0x0f0f0f0f M0f0f0f0f a Ha b Hb. Qed.
Lemma swap_lr_16 a b : length a = 32%nat -> length b = 32%nat ->
  swap_lr 16 0x0000ffff (num a, num b) = (num (sel (shl 16 M0000ffff) (shl 16 b) a), num (sel M0000ffff (shr 16 a) b)).
Proof. intros Ha Hb. swap_tac 0x0000ffff M0000ffff a Ha b Hb. Qed.
Lemma swap_rl_2 a b : length a = 32%nat -> length b = 32%nat ->
  swap_rl 2 0x33333333 (num a, num b) = (num (sel M33333333 (shr 2 b) a), num (sel (shl 2 M33333333) (shl 2 a) b)).
Proof. intros Ha Hb. swap_tac 0x33333333 M33333333 a Ha b Hb. Qed.
Lemma swap_rl_8 a b : length a = 32%nat -> length b = 32%nat ->
  swap_rl 8 0x00ff00ff (num a, num b) = (num (sel M00ff00ff (shr 8 b) a), num (sel (shl 8 M00ff00ff) (shl 8 a) b)).
Proof. intros Ha Hb. swap_tac 0x00ff00ff M00ff00ff a Ha b Hb. Qed.
Lemma swap_lr_8 a b : length a = 32%nat -> length b = 32%nat ->
  swap_lr 8 0x00ff00ff (num a, num b) = (num (sel (shl 8 M00ff00ff) (shl 8 b) a), num (sel M00ff00ff (shr 8 a) b)).
Proof. intros Ha Hb. swap_tac 0x00ff00ff M00ff00ff a Ha b Hb. Qed.
Lemma swap_lr_2 a b : length a = 32%nat -> length b = 32%nat ->
  swap_lr 2 0x33333333 (num a, num b) = (num (sel (shl 2 M33333333) (shl 2 b) a), num (sel M33333333 (shr 2 a) b)).
Proof. intros Ha Hb. swap_tac 0x33333333 M33333333 a Ha b Hb. Qed.
Lemma swap_rl_16 a b : length a = 32%nat -> length b = 32%nat ->
  swap_rl 16 0x0000ffff (num a, num b) = (num (sel M0000ffff (shr 16 b) a), num (sel (shl 16 M0000ffff) (shl 16 a) b)).
Proof. intros Ha Hb. swap_tac 0x0000ffff M0000ffff a Ha b Hb. Qed.
Lemma swap_rl_4 a b : length a = 32%nat -> length b = 32%nat ->
  swap_rl 4 0x0f0f0f0f (num a, num b) = (num (sel M0f0f0f0f (shr 4 b) a), num (sel (shl 4 M0f0f0f0f) (shl 4 a) b)).
Proof. intros Ha Hb. swap_tac 0x0f0f0f0f M0f0f0f0f a Ha b Hb. Qed.

Lemma rol_1 b : length b = 32%nat -> Z.lor (c_shl 32 (num b) 1) (Z.land (c_shr (num b) 31) 1) = num (rot_left 1 b).
Proof.
  intros Hb. rewrite (num_shl b 1 1), (num_shr b 31 31) by (reflexivity || lia). change 1 with (num (repeat false 31 ++ [true])). explode b Hb. nums.
  apply f_equal. unfold rot_left. listed. bits_eq.
Qed.
Lemma ror_1 b : length b = 32%nat -> Z.lor (c_shl 32 (num b) 31) (c_shr (num b) 1) = num (rot_left 31 b).
Proof. intros Hb. explode b Hb. nums. apply f_equal. unfold rot_left. listed. bits_eq. Qed.
Lemma ror_4 b : length b = 32%nat -> Z.lor (c_shl 32 (num b) 28) (c_shr (num b) 4) = num (rot_left 28 b).
Proof. intros Hb. explode b Hb. nums. apply f_equal. unfold rot_left. listed. bits_eq. Qed.
Lemma swap_aa a b : length a = 32%nat -> length b = 32%nat ->
  let work := Z.land (Z.lxor (num a) (num b)) 0xaaaaaaaa in
  Z.lxor (num a) work = num (sel Maaaaaaaa b a) /\ Z.lxor (num b) work = num (sel Maaaaaaaa a b).
Proof.
  intros Ha Hb. explode a Ha. explode b Hb. cbn zeta. change 0xaaaaaaaa with (num Maaaaaaaa). unfold Maaaaaaaa. nums.
  split; apply f_equal; listed; bits_eq.
Qed.
Lemma rot_length n l : (n <= length l)%nat -> length (rot_left n l) = length l.
Proof. intros. unfold rot_left. rewrite app_length, skipn_length, firstn_length. lia. Qed.
Lemma rot32 n l : (n <= 32)%nat -> length l = 32%nat -> length (rot_left n l) = 32%nat.
Proof. intros. rewrite rot_length; lia. Qed.
Lemma shl32 n l : (n <= 32)%nat -> length l = 32%nat -> length (shl n l) = 32%nat.
Proof. intros. unfold shl. rewrite app_length, skipn_length, repeat_length. lia. Qed.
Lemma shr32 n l : (n <= 32)%nat -> length l = 32%nat -> length (shr n l) = 32%nat.
Proof. intros. unfold shr. rewrite app_length, firstn_length, repeat_length. lia. Qed.
Lemma sel32 m x y : length m = 32%nat -> length x = 32%nat -> length y = 32%nat -> length (sel m x y) = 32%nat.
Proof. intros. unfold sel. rewrite map_length, !combine_length. lia. Qed.
Ltac len32 := lazymatch goal with
  | |- length (sel _ _ _) = _ => apply sel32; len32
  | |- length (rot_left _ _) = _ => apply rot32; len32
  | |- length (shl _ _) = _ => apply shl32; len32
  | |- length (shr _ _) = _ => apply shr32; len32
  | |- _ => first [assumption | reflexivity | apply Nat.leb_le; reflexivity]
  end.

Lemma des_initial_ok b : length b = 64%nat ->
  des_initial (num (firstn 32 b), num (skipn 32 b)) = (num (rot_left 1 (firstn 32 (permute IP b))), num (rot_left 1 (skipn 32 (permute IP b)))).
Proof.
  intros Hb. assert (H1 : length (firstn 32 b) = 32%nat) by (rewrite firstn_length; lia). assert (H2 : length (skipn 32 b) = 32%nat) by (rewrite skipn_length; lia).
  unfold des_initial. rewrite swap_lr_4 by assumption. rewrite swap_lr_16 by len32. rewrite swap_rl_2 by len32. rewrite swap_rl_8 by len32.
  cbv beta iota. rewrite rol_1 by len32. match goal with |- context [Z.land (Z.lxor (num ?x) (num ?y)) _] => destruct (swap_aa x y) as (S1 & S2); [len32|len32|] end.
  cbn zeta in *. rewrite S1, S2. clear S1 S2. rewrite rol_1 by len32. explode b Hb. reflexivity.
Qed.
Lemma des_final_ok l r : length l = 32%nat -> length r = 32%nat ->
  des_final (num (rot_left 1 l), num (rot_left 1 r)) = (num (firstn 32 (permute IP_inv (r ++ l))), num (skipn 32 (permute IP_inv (r ++ l)))).
Proof.
  intros Hl Hr. unfold des_final. rewrite ror_1 by len32. match goal with |- context [Z.land (Z.lxor (num ?x) (num ?y)) _] => destruct (swap_aa x y) as (S1 & S2); [len32|len32|] end.
  cbn zeta in *. rewrite S1, S2. clear S1 S2. rewrite ror_1 by len32. rewrite swap_lr_8 by len32. rewrite swap_lr_2 by len32. rewrite swap_rl_16 by len32. rewrite swap_rl_4 by len32.
  explode l Hl. explode r Hr. reflexivity.
Qed.
