(* Numbers written in base 256, big-endian and little-endian. *)
From Verif Require Import Prelude PreludeFacts.
Ltac Zify.zify_post_hook ::= Z.div_mod_to_equations.

(* value of a byte string *)
Fixpoint le (l : bytes) : Z :=
  match l with [] => 0 | b :: l' => b + 256 * le l' end.
Definition be (l : bytes) : Z := le (rev l).

(* the n low-order bytes of a number *)
Fixpoint to_le (n : nat) (x : Z) : bytes :=
  match n with O => [] | S n' => x mod 256 :: to_le n' (x / 256) end.
Definition to_be (n : nat) (x : Z) : bytes := rev (to_le n x).

Lemma pow256_S n : 256 ^ Z.of_nat (S n) = 256 * 256 ^ Z.of_nat n.
Proof. rewrite Nat2Z.inj_succ, Z.pow_succ_r by lia. reflexivity. Qed.

Lemma pow256_pos n : 0 < 256 ^ Z.of_nat n.
Proof. apply Z.pow_pos_nonneg; lia. Qed.

Lemma le_app a b : le (a ++ b) = le a + 256 ^ zlen a * le b.
Proof.
  induction a as [|x a IH]; [cbn [app le]; change (zlen (@nil Z)) with 0; rewrite Z.pow_0_r; lia|].
  cbn [app le]. rewrite IH. unfold zlen. cbn [length]. rewrite pow256_S. lia.
Qed.

Lemma le_bound l : bytes_ok l -> 0 <= le l < 256 ^ zlen l.
Proof.
  induction 1 as [|x l Hx Hl IH]; [cbn; lia|].
  unfold zlen in *. cbn [le length]. rewrite pow256_S. unfold byte_ok in Hx. lia.
Qed.

Lemma length_to_le n : forall x, length (to_le n x) = n.
Proof. induction n; intros; cbn [to_le length]; auto. Qed.
Lemma zlen_to_le n x : zlen (to_le n x) = Z.of_nat n.
Proof. unfold zlen; rewrite length_to_le; reflexivity. Qed.
Lemma length_to_be n x : length (to_be n x) = n.
Proof. unfold to_be; rewrite rev_length; apply length_to_le. Qed.
Lemma zlen_to_be n x : zlen (to_be n x) = Z.of_nat n.
Proof. unfold zlen; rewrite length_to_be; reflexivity. Qed.

Lemma bytes_ok_rev l : bytes_ok l -> bytes_ok (rev l).
Proof. intros H. apply Forall_rev. exact H. Qed.

Lemma bytes_ok_to_le n : forall x, bytes_ok (to_le n x).
Proof.
  induction n; intros; cbn [to_le]; constructor; [unfold byte_ok; lia|apply IHn].
Qed.
Lemma bytes_ok_to_be n x : bytes_ok (to_be n x).
Proof. apply bytes_ok_rev, bytes_ok_to_le. Qed.

Lemma le_to_le n : forall x, le (to_le n x) = x mod 256 ^ Z.of_nat n.
Proof.
  induction n as [|n IH]; intros x; [cbn; rewrite Z.mod_1_r; reflexivity|].
  cbn [to_le le]. rewrite IH, pow256_S. pose proof (pow256_pos n).
  rewrite Z.rem_mul_r by lia. lia.
Qed.

Lemma to_le_le l : bytes_ok l -> to_le (length l) (le l) = l.
Proof.
  induction 1 as [|x l Hx Hl IH]; [reflexivity|].
  cbn [length to_le le]. unfold byte_ok in Hx. f_equal; [lia|].
  replace ((x + 256 * le l) / 256) with (le l) by lia. exact IH.
Qed.

Lemma be_to_be n x : be (to_be n x) = x mod 256 ^ Z.of_nat n.
Proof. unfold be, to_be. rewrite rev_involutive. apply le_to_le. Qed.

Lemma to_be_be l : bytes_ok l -> to_be (length l) (be l) = l.
Proof.
  intros H. unfold to_be, be. rewrite <- (rev_length l), to_le_le.
  - apply rev_involutive.
  - apply bytes_ok_rev, H.
Qed.

Lemma be_bound l : bytes_ok l -> 0 <= be l < 256 ^ zlen l.
Proof.
  intros H. unfold be. pose proof (le_bound (rev l) (bytes_ok_rev _ H)) as B.
  rewrite zlen_rev in B. exact B.
Qed.

Lemma be_app a b : be (a ++ b) = be a * 256 ^ zlen b + be b.
Proof. unfold be. rewrite rev_app_distr, le_app, zlen_rev. lia. Qed.

Lemma be_snoc a x : be (a ++ [x]) = be a * 256 + x.
Proof. rewrite be_app, zlen_one. unfold be at 2. cbn [rev app le]. lia. Qed.

Lemma be_cons x a : be (x :: a) = x * 256 ^ zlen a + be a.
Proof. change (x :: a) with ([x] ++ a). rewrite be_app. unfold be at 1. cbn [rev app le]. lia. Qed.

Lemma le_inj a b : length a = length b -> bytes_ok a -> bytes_ok b -> le a = le b -> a = b.
Proof.
  intros L Ha Hb E. rewrite <- (to_le_le a Ha), <- (to_le_le b Hb), L, E. reflexivity.
Qed.
Lemma be_inj a b : length a = length b -> bytes_ok a -> bytes_ok b -> be a = be b -> a = b.
Proof.
  intros L Ha Hb E. rewrite <- (to_be_be a Ha), <- (to_be_be b Hb), L, E. reflexivity.
Qed.

Lemma to_le_mod n : forall x, to_le n (x mod 256 ^ Z.of_nat n) = to_le n x.
Proof.
  intros x. rewrite <- le_to_le.
  pose proof (to_le_le (to_le n x) (bytes_ok_to_le n x)) as H.
  rewrite length_to_le in H. exact H.
Qed.
Lemma to_be_mod n x : to_be n (x mod 256 ^ Z.of_nat n) = to_be n x.
Proof. unfold to_be. rewrite to_le_mod. reflexivity. Qed.

Lemma to_be_S n x : to_be (S n) x = to_be n (x / 256) ++ [x mod 256].
Proof. reflexivity. Qed.
