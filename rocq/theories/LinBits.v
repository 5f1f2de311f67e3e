(* Functions linear for xor, and the finite checks that are enough for them. *)
From Coq Require Import Btauto.
From Verif Require Import Prelude PreludeFacts BytesNum Word SpecGhash.

Definition lin (f : Z -> Z) : Prop := forall x y, f (Z.lxor x y) = Z.lxor (f x) (f y).
Ltac xor_ac := apply Z.bits_inj'; intros ?n ?Hn; rewrite ?Z.lxor_spec;
  repeat match goal with |- context [Z.testbit ?a ?b] => generalize (Z.testbit a b); intro end; btauto.

Lemma lin_0 f : lin f -> f 0 = 0.
Proof. intros H. pose proof (H 0 0) as E. rewrite Z.lxor_nilpotent in E. rewrite E. apply Z.lxor_nilpotent. Qed.
Lemma split_bit x n : 0 <= n -> 0 <= x < 2 ^ (n + 1) -> x = Z.lxor (x mod 2 ^ n) (if Z.testbit x n then 2 ^ n else 0).
Proof.
  intros Hn Hx. apply Z.bits_inj'. intros i Hi. rewrite Z.lxor_spec, testbit_mod by lia.
  destruct (Z.ltb_spec i n) as [H|H]; cbn [andb].
  - assert (E : Z.testbit (if Z.testbit x n then 2 ^ n else 0) i = false) by (destruct (Z.testbit x n); [apply Z.pow2_bits_false; lia|apply Z.bits_0]).
    rewrite E. destruct (Z.testbit x i); reflexivity.
  - destruct (Z.eq_dec i n) as [->|H'].
    + destruct (Z.testbit x n); [rewrite Z.pow2_bits_true by lia|rewrite Z.bits_0]; reflexivity.
    + rewrite (testbit_high (n + 1) x i) by (unfold word_ok; lia).
      destruct (Z.testbit x n); [rewrite Z.pow2_bits_false by lia|rewrite Z.bits_0]; reflexivity.
Qed.
(* two linear functions that agree on the powers of two agree *)
Lemma lin_ext f g n : lin f -> lin g -> forallb (fun i => f (2 ^ Z.of_nat i) =? g (2 ^ Z.of_nat i)) (seq 0 n) = true ->
  forall x, 0 <= x < 2 ^ Z.of_nat n -> f x = g x.
Proof.
  intros Hf Hg C. rewrite forallb_forall in C.
  assert (K : forall m, (m <= n)%nat -> forall x, 0 <= x < 2 ^ Z.of_nat m -> f x = g x).
  2:{ apply K. lia. }
  induction m as [|m IH]; intros Hm x Hx.
  - change (2 ^ Z.of_nat 0) with 1 in Hx. assert (x = 0) as -> by lia. rewrite (lin_0 f), (lin_0 g) by assumption. reflexivity.
  - rewrite (split_bit x (Z.of_nat m)) by (replace (Z.of_nat m + 1) with (Z.of_nat (S m)) by lia; lia).
    rewrite Hf, Hg. f_equal; [apply IH; [lia|apply Z.mod_pos_bound; lia]|].
    destruct (Z.testbit x (Z.of_nat m)); [apply Z.eqb_eq, C, in_seq; lia|]. rewrite (lin_0 f), (lin_0 g) by assumption. reflexivity.
Qed.
Lemma lin_ext' f g n : lin f -> lin g -> (forall i, (i < n)%nat -> f (2 ^ Z.of_nat i) = g (2 ^ Z.of_nat i)) ->
  forall x, 0 <= x < 2 ^ Z.of_nat n -> f x = g x.
Proof. intros Hf Hg C. apply lin_ext; try assumption. apply forallb_forall. intros i Hi. apply in_seq in Hi. apply Z.eqb_eq, C. lia. Qed.

(* ---- linear functions ---- *)
Lemma lin_id : lin (fun x => x). Proof. intros x y. reflexivity. Qed.
Lemma lin_xor f g : lin f -> lin g -> lin (fun x => Z.lxor (f x) (g x)).
Proof. intros Hf Hg x y. rewrite Hf, Hg. xor_ac. Qed.
Lemma lin_comp f g : lin f -> lin g -> lin (fun x => f (g x)).
Proof. intros Hf Hg x y. rewrite Hg, Hf. reflexivity. Qed.
Lemma lin_shl n : lin (fun x => Z.shiftl x n). Proof. intros x y. apply Z.shiftl_lxor. Qed.
Lemma lin_shr n : lin (fun x => Z.shiftr x n). Proof. intros x y. apply Z.shiftr_lxor. Qed.
Lemma lin_mod n : 0 <= n -> lin (fun x => x mod 2 ^ n).
Proof. intros Hn x y. apply Z.bits_inj'. intros i Hi. rewrite Z.lxor_spec, !testbit_mod, Z.lxor_spec by lia. btauto. Qed.
Lemma lin_land m : lin (fun x => Z.land x m).
Proof. intros x y. apply Z.bits_inj'. intros i Hi. rewrite Z.lxor_spec, !Z.land_spec, Z.lxor_spec by lia. btauto. Qed.
Lemma lin_bit n c : lin (fun x => if Z.testbit x n then c else 0).
Proof. intros x y. rewrite Z.lxor_spec. destruct (Z.testbit x n), (Z.testbit y n); cbn; rewrite ?Z.lxor_nilpotent, ?Z.lxor_0_r, ?Z.lxor_0_l; reflexivity. Qed.
Lemma lin_if (b : bool) f : lin f -> lin (fun x => if b then f x else 0).
Proof. destruct b; [auto|]. intros _ x y. reflexivity. Qed.
Lemma lin_xsum (F : Z -> nat -> Z) n : (forall i, lin (fun x => F x i)) -> lin (fun x => xsum (F x) n).
Proof. intros H. induction n as [|n IH]; [intros x y; reflexivity|]. intros x y. cbn [xsum]. rewrite (IH x y), (H n x y). xor_ac. Qed.
Lemma lin_iter f n : lin f -> lin (Nat.iter n f).
Proof. intros Hf. induction n as [|n IH]; [exact lin_id|]. intros x y. cbn [Nat.iter nat_rect]. change (f (Nat.iter n f (Z.lxor x y)) = Z.lxor (f (Nat.iter n f x)) (f (Nat.iter n f y))). rewrite (IH x y), Hf. reflexivity. Qed.

(* ---- xor sums ---- *)
Lemma xsum_ext f g n : (forall i, (i < n)%nat -> f i = g i) -> xsum f n = xsum g n.
Proof. induction n as [|n IH]; intros H; [reflexivity|]. cbn [xsum]. rewrite IH by (intros; apply H; lia). rewrite H by lia. reflexivity. Qed.
Lemma xsum_0 f n : (forall i, (i < n)%nat -> f i = 0) -> xsum f n = 0.
Proof. induction n as [|n IH]; intros H; [reflexivity|]. cbn [xsum]. rewrite IH by (intros; apply H; lia). rewrite H by lia. reflexivity. Qed.
Lemma xsum_one f n k : (k < n)%nat -> (forall i, (i < n)%nat -> i <> k -> f i = 0) -> xsum f n = f k.
Proof.
  induction n as [|n IH]; intros Hk H; [lia|]. cbn [xsum]. destruct (Nat.eq_dec k n) as [->|E].
  - rewrite xsum_0 by (intros; apply H; lia). apply Z.lxor_0_l.
  - rewrite (H n) by lia. rewrite Z.lxor_0_r. apply IH; [lia|]. intros; apply H; lia.
Qed.
Lemma xsum_xor f g n : xsum (fun i => Z.lxor (f i) (g i)) n = Z.lxor (xsum f n) (xsum g n).
Proof. induction n as [|n IH]; [reflexivity|]. cbn [xsum]. rewrite IH. xor_ac. Qed.
Lemma xsum_lin f h n : lin h -> xsum (fun i => h (f i)) n = h (xsum f n).
Proof. intros Hh. induction n as [|n IH]; cbn [xsum]; [symmetry; apply lin_0; assumption|]. rewrite IH, Hh. reflexivity. Qed.
Lemma xsum_head f n : xsum f (S n) = Z.lxor (f 0%nat) (xsum (fun i => f (S i)) n).
Proof. induction n as [|n IH]; [cbn; rewrite Z.lxor_0_r; reflexivity|]. change (xsum f (S (S n))) with (Z.lxor (xsum f (S n)) (f (S n))). rewrite IH. cbn [xsum]. xor_ac. Qed.
Lemma xsum_split f n m : xsum f (n + m) = Z.lxor (xsum f n) (xsum (fun i => f (n + i)%nat) m).
Proof.
  induction m as [|m IH]; [rewrite Nat.add_0_r; cbn [xsum]; rewrite Z.lxor_0_r; reflexivity|].
  rewrite Nat.add_succ_r. cbn [xsum]. rewrite IH. xor_ac.
Qed.
Lemma xsum_bound f n w : 0 <= w -> (forall i, (i < n)%nat -> 0 <= f i < 2 ^ w) -> 0 <= xsum f n < 2 ^ w.
Proof. intros Hw. induction n as [|n IH]; intros H; cbn [xsum]; [lia|]. apply (lxor_bound w); [assumption|apply IH; intros; apply H; lia|apply H; lia]. Qed.
Lemma bit_pow2 i j : 0 <= i -> 0 <= j -> Z.testbit (2 ^ i) j = (i =? j).
Proof. intros. destruct (Z.eqb_spec i j) as [->|]; [apply Z.pow2_bits_true|apply Z.pow2_bits_false]; lia. Qed.
