(* A polynomial over an integral domain has fewer roots than coefficients. *)
From Coq Require Import List Ring Ring_theory Lia.
Import ListNotations.

Section Roots.
Variables (R : Type) (rO rI : R) (add mul sub : R -> R -> R) (opp : R -> R).
Variable Rth : ring_theory rO rI add mul sub opp eq.
Hypothesis dom : forall a b, mul a b = rO -> a = rO \/ b = rO.
Add Ring RR : Rth.

(* coefficients from the highest degree down *)
Definition horner (a : R) (l : list R) (x : R) : R := fold_left (fun a c => add (mul a x) c) l a.
(* the quotient by X - r *)
Fixpoint syn (a : R) (l : list R) (r : R) : list R :=
  match l with [] => [] | c :: l' => a :: syn (add (mul a r) c) l' r end.
Lemma syn_len l : forall a r, length (syn a l r) = length l.
Proof. induction l as [|c l IH]; intros a r; [reflexivity|]. cbn. now rewrite IH. Qed.
Lemma syn_ok l : forall a b r x, horner (add a (mul (sub x r) b)) l x = add (horner a l r) (mul (sub x r) (horner b (syn a l r) x)).
Proof.
  induction l as [|c l IH]; intros a b r x; [reflexivity|]. cbn [horner syn fold_left].
  change (horner (add (mul (add a (mul (sub x r) b)) x) c) l x = add (horner (add (mul a r) c) l r) (mul (sub x r) (horner (add (mul b x) a) (syn (add (mul a r) c) l r) x))).
  rewrite <- IH. f_equal. ring.
Qed.
Lemma syn_zero l : forall a r, (forall d, In d (syn a l r) -> d = rO) -> horner a l r = rO -> forall d, In d (a :: l) -> d = rO.
Proof.
  induction l as [|c l IH]; intros a r S H d D.
  - destruct D as [<-|[]]. exact H.
  - assert (a = rO) as -> by (apply S; left; reflexivity). destruct D as [<-|D]; [reflexivity|].
    assert (E : add (mul rO r) c = c) by ring. cbn [syn] in S. cbn [horner fold_left] in H. fold (horner (add (mul rO r) c) l r) in H. rewrite E in *.
    apply (IH c r); [|exact H|exact D]. intros e Hn. apply S. right. exact Hn.
Qed.
Theorem roots : forall xs l, NoDup xs -> ~ (forall c, In c l -> c = rO) -> (forall x, In x xs -> horner rO l x = rO) -> (length xs < length l)%nat.
Proof.
  induction xs as [|r xs IH]; intros l N C H.
  - destruct l; [exfalso; apply C; intros c []|cbn; lia].
  - destruct l as [|a l]; [exfalso; apply C; intros c []|]. inversion N as [|? ? Nr N' E]; subst.
    assert (E0 : forall x, horner rO (a :: l) x = horner a l x) by (intros x; cbn [horner fold_left]; unfold horner; f_equal; ring).
    assert (Hr : horner a l r = rO) by (rewrite <- E0; apply H; left; reflexivity).
    assert (length xs < length (syn a l r))%nat as K.
    + apply IH; [exact N'| |].
      * intros S. apply C. apply (syn_zero l a r S Hr).
      * intros x X. pose proof (H x (or_intror X)) as Hx. rewrite E0 in Hx. pose proof (syn_ok l a rO r x) as E. rewrite Hr in E.
        replace (add a (mul (sub x r) rO)) with a in E by ring. rewrite Hx in E.
        assert (P : mul (sub x r) (horner rO (syn a l r) x) = rO) by (transitivity (add rO (mul (sub x r) (horner rO (syn a l r) x))); [ring|symmetry; exact E]).
        apply dom in P. destruct P as [P|P]; [|exact P]. exfalso. apply Nr. replace r with x; [exact X|]. transitivity (add (sub x r) r); [ring|]. rewrite P. ring.
    + rewrite syn_len in K. cbn. lia.
Qed.

(* two polynomials that are multiples of X, of different degrees perhaps, with a constant difference at every x in xs *)
Definition padl (n : nat) (l : list R) : list R := repeat rO (n - length l) ++ l.
Lemma horner_repeat k l x : horner rO (repeat rO k ++ l) x = horner rO l x.
Proof. induction k as [|k IH]; [reflexivity|]. cbn [repeat app horner fold_left]. replace (add (mul rO x) rO) with rO by ring. exact IH. Qed.
Lemma padl_len n l : (length l <= n)%nat -> length (padl n l) = n.
Proof. intros H. unfold padl. rewrite app_length, repeat_length. lia. Qed.
Definition diff (l1 l2 : list R) : list R := map (fun ab => sub (fst ab) (snd ab)) (combine l1 l2).
Lemma diff_ok l1 : forall l2 a b x, length l1 = length l2 -> horner (sub a b) (diff l1 l2) x = sub (horner a l1 x) (horner b l2 x).
Proof.
  induction l1 as [|c l1 IH]; intros [|d l2] a b x E; try discriminate E; [reflexivity|]. cbn [diff combine map fst snd horner fold_left].
  change (horner (add (mul (sub a b) x) (sub c d)) (diff l1 l2) x = sub (horner (add (mul a x) c) l1 x) (horner (add (mul b x) d) l2 x)).
  rewrite <- IH by (injection E as E; exact E). f_equal. ring.
Qed.
Lemma diff_zero l1 : forall l2, length l1 = length l2 -> (forall c, In c (diff l1 l2) -> c = rO) -> l1 = l2.
Proof.
  induction l1 as [|c l1 IH]; intros [|d l2] E H; try discriminate E; [reflexivity|]. cbn [diff combine map fst snd] in H. f_equal.
  - transitivity (add (sub c d) d); [ring|]. rewrite (H (sub c d)) by (left; reflexivity). ring.
  - apply IH; [injection E as E; exact E|]. intros e D. apply H. right. exact D.
Qed.
Lemma diff_len l1 l2 : length l1 = length l2 -> length (diff l1 l2) = length l1.
Proof. intros E. unfold diff. rewrite map_length, combine_length. lia. Qed.
Theorem agree xs l1 l2 v : NoDup xs -> padl (max (length l1) (length l2)) l1 <> padl (max (length l1) (length l2)) l2 ->
  (forall x, In x xs -> sub (mul (horner rO l1 x) x) (mul (horner rO l2 x) x) = v) -> (length xs <= max (length l1) (length l2))%nat.
Proof.
  set (n := max (length l1) (length l2)). intros N D H.
  assert (L1 : length (padl n l1) = n) by (apply padl_len; unfold n; lia). assert (L2 : length (padl n l2) = n) by (apply padl_len; unfold n; lia).
  assert (E : length (padl n l1) = length (padl n l2)) by congruence.
  assert (K : (length xs < length (diff (padl n l1) (padl n l2) ++ [opp v]))%nat).
  { apply roots; [exact N| |].
    - intros Z. apply D. apply diff_zero; [exact E|]. intros c C. apply Z. apply in_or_app. left. exact C.
    - intros x X. unfold horner. rewrite fold_left_app. cbn [fold_left]. fold (horner rO (diff (padl n l1) (padl n l2)) x).
      assert (E1 : horner rO (diff (padl n l1) (padl n l2)) x = sub (horner rO l1 x) (horner rO l2 x)).
      { transitivity (horner (sub rO rO) (diff (padl n l1) (padl n l2)) x); [f_equal; ring|]. rewrite diff_ok by exact E. unfold padl. now rewrite !horner_repeat. }
      rewrite E1. rewrite <- (H x X). ring. }
  rewrite app_length, diff_len, L1 in K by exact E. cbn in K. lia.
Qed.
(* when the leading coefficients are not zero *)
Lemma padl_inj n l1 l2 : hd_error l1 <> Some rO -> hd_error l2 <> Some rO -> padl n l1 = padl n l2 -> l1 = l2.
Proof.
  unfold padl. generalize (n - length l1)%nat (n - length l2)%nat. intros j k H1 H2. revert k.
  induction j as [|j IH]; intros [|k] E; cbn [repeat app] in E; [exact E| | |].
  - exfalso. apply H1. rewrite E. reflexivity.
  - exfalso. apply H2. rewrite <- E. reflexivity.
  - apply (IH k). injection E as E. exact E.
Qed.
End Roots.

(* Counting by cases *)
Lemma filter_parts {A} (P : A -> bool) l : (length l = length (filter P l) + length (filter (fun x => negb (P x)) l))%nat.
Proof. induction l as [|x l IH]; [reflexivity|]. cbn. destruct (P x); cbn; lia. Qed.
Lemma count_cases {A B} (xs : list A) (ks : list B) (P : B -> A -> bool) (n : nat) :
  NoDup xs -> (forall x, In x xs -> exists k, In k ks /\ P k x = true) ->
  (forall k ys, In k ks -> NoDup ys -> incl ys xs -> (forall y, In y ys -> P k y = true) -> (length ys <= n)%nat) ->
  (length xs <= length ks * n)%nat.
Proof.
  revert xs. induction ks as [|k ks IH]; intros xs N C H.
  - destruct xs as [|x xs]; [cbn; lia|]. destruct (C x (or_introl eq_refl)) as (k & [] & _).
  - pose proof (filter_parts (P k) xs) as E. set (ys := filter (P k) xs) in *. set (zs := filter (fun x => negb (P k x)) xs) in *.
    assert (length ys <= n)%nat.
    { apply (H k); [left; reflexivity|apply NoDup_filter, N| |]; intros y Y; apply filter_In in Y; tauto. }
    assert (length zs <= length ks * n)%nat.
    { apply IH; [apply NoDup_filter, N| |].
      - intros x X. apply filter_In in X. destruct X as (X & Q). destruct (C x X) as (j & [<-|J] & Pj); [rewrite Pj in Q; discriminate Q|]. exists j. tauto.
      - intros j y J Ny I Y. apply (H j); [right; exact J|exact Ny| |exact Y]. intros z Z. apply I, filter_In in Z. tauto. }
    cbn. lia.
Qed.
Lemma NoDup_map_in {A B} (f : A -> B) l : (forall a b, In a l -> In b l -> f a = f b -> a = b) -> NoDup l -> NoDup (map f l).
Proof.
  induction l as [|x l IH]; intros H N; [constructor|]. inversion N as [|? ? Nx N' E]; subst. cbn. constructor.
  - intros M. apply in_map_iff in M. destruct M as (y & E & Y). apply Nx. rewrite (H x y (or_introl eq_refl) (or_intror Y) (eq_sym E)). exact Y.
  - apply IH; [|exact N']. intros a b Ha Hb. apply H; right; assumption.
Qed.
