(* Collisions of iterated functions. *)
From Verif Require Import Prelude PreludeFacts SpecCollide.

Section Iterate.
Context {S B : Type} (f : S -> B -> S) (g : S -> bytes) (Sd : forall x y : S, {x = y} + {x <> y}) (Bd : forall x y : B, {x = y} + {x <> y}).

Lemma calls_app l l' : forall h, calls f h (l ++ l') = calls f h l ++ calls f (fold_left f l h) l'.
Proof. induction l as [|b l IH]; intros h; [reflexivity|]. cbn [app calls fold_left]. now rewrite IH. Qed.

Lemma walk l1 : forall l2 h1 h2, length l1 = length l2 -> fold_left f l1 h1 = fold_left f l2 h2 -> (h1 = h2 /\ l1 = l2) \/
  exists a b a' b', In (a, b) (calls f h1 l1) /\ In (a', b') (calls f h2 l2) /\ (a, b) <> (a', b') /\ f a b = f a' b'.
Proof.
  induction l1 as [|b1 l1 IH]; intros [|b2 l2] h1 h2 L E; try discriminate L; [left; split; [exact E|reflexivity]|].
  cbn [fold_left calls In] in *. destruct (IH l2 (f h1 b1) (f h2 b2)) as [[E1 E2]|(a & b & a' & b' & H1 & H2 & H3 & H4)]; [now inversion L|exact E| |].
  - destruct (Sd h1 h2) as [->|N].
    + destruct (Bd b1 b2) as [->|N]; [left; now rewrite E2|]. right. exists h2, b1, h2, b2. repeat split; try (now left); try assumption. congruence.
    + right. exists h1, b1, h2, b2. repeat split; try (now left); try assumption. congruence.
  - right. exists a, b, a', b'. repeat split; try (now right); assumption.
Qed.

Lemma walk_longer l1 l2 h : (length l2 <= length l1)%nat -> fold_left f l1 h = fold_left f l2 h ->
  l1 = l2 \/ collision f h l1 l2 \/ exists p, p <> [] /\ fold_left f p h = h /\ l1 = p ++ l2.
Proof.
  intros L E. set (k := (length l1 - length l2)%nat). set (p := firstn k l1). set (q := skipn k l1).
  assert (E1 : l1 = p ++ q) by (symmetry; apply firstn_skipn).
  assert (Lq : length q = length l2) by (unfold q, k; rewrite skipn_length; lia).
  rewrite E1 in E. rewrite fold_left_app in E. destruct (walk q l2 _ _ Lq E) as [[Eh El]|(a & b & a' & b' & H1 & H2 & H3 & H4)].
  - rewrite El in E1. destruct p as [|x p'] eqn:Ep; [now left|]. right. right. exists (x :: p'). repeat split; [discriminate|exact Eh|exact E1].
  - right. left. exists a, b, a', b'. repeat split; try assumption. rewrite E1, calls_app. apply in_or_app. now right.
Qed.

Lemma collision_sym l1 l2 h : collision f h l2 l1 -> collision f h l1 l2.
Proof. intros (a & b & a' & b' & H1 & H2 & H3 & H4). exists a', b', a, b. repeat split; try assumption; congruence. Qed.

Lemma walk_any l1 l2 h : fold_left f l1 h = fold_left f l2 h -> l1 = l2 \/ collision f h l1 l2 \/ returns f h l1 l2.
Proof.
  intros E. destruct (Nat.le_gt_cases (length l2) (length l1)) as [L|L].
  - destruct (walk_longer l1 l2 h L E) as [H|[H|(p & H1 & H2 & H3)]]; [now left|right; now left|]. right. right. exists p. repeat split; try assumption. now left.
  - destruct (walk_longer l2 l1 h ltac:(lia) (eq_sym E)) as [H|[H|(p & H1 & H2 & H3)]]; [now left|right; left; now apply collision_sym|].
    right. right. exists p. repeat split; try assumption. now right.
Qed.

Theorem collide l1 l2 h : l1 <> [] -> l2 <> [] -> g (fold_left f l1 h) = g (fold_left f l2 h) ->
  l1 = l2 \/ collision f h l1 l2 \/ last_collision f g h l1 l2 \/ returns f h l1 l2.
Proof.
  intros N1 N2 E. destruct (exists_last N1) as (q1 & x1 & E1). destruct (exists_last N2) as (q2 & x2 & E2).
  assert (D : (fold_left f q1 h = fold_left f q2 h /\ x1 = x2) \/ (fold_left f q1 h, x1) <> (fold_left f q2 h, x2)).
  { destruct (Sd (fold_left f q1 h) (fold_left f q2 h)) as [Ha|Ha]; [destruct (Bd x1 x2) as [Hb|Hb]; [now left|]|]; right; congruence. }
  destruct D as [[Ha Hb]|D].
  - assert (E' : fold_left f l1 h = fold_left f l2 h) by (rewrite E1, E2, !fold_left_app, Ha, Hb; reflexivity).
    destruct (walk_any l1 l2 h E') as [H|[H|H]]; auto.
  - right. right. left. exists (calls f h q1), (calls f h q2), (fold_left f q1 h), x1, (fold_left f q2 h), x2.
    rewrite E1, E2, !calls_app. cbn [calls]. repeat split; [exact D|]. rewrite E1, E2, !fold_left_app in E. exact E.
Qed.

(* if the output function is injective on the results of f, the last collision is a collision *)
Lemma last_full l1 l2 h : (forall a b a' b', In (a, b) (calls f h l1) -> In (a', b') (calls f h l2) -> g (f a b) = g (f a' b') -> f a b = f a' b') ->
  last_collision f g h l1 l2 -> collision f h l1 l2.
Proof.
  intros G (p1 & p2 & a & b & a' & b' & E1 & E2 & N & E). exists a, b, a', b'.
  assert (I1 : In (a, b) (calls f h l1)) by (rewrite E1; apply in_or_app; right; now left).
  assert (I2 : In (a', b') (calls f h l2)) by (rewrite E2; apply in_or_app; right; now left).
  repeat split; try assumption. now apply G.
Qed.
End Iterate.
