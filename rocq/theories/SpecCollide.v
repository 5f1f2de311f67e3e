(* Vocabulary for collisions of iterated functions. *)
From Verif Require Import Prelude HashModel HashSpec.

(* what result returns after these calls *)
Definition result_of (o : hobj) (ops : list hop) : out bytes := snd (h_result (ho_class o) (fst (h_run (ho_class o) (ho_st o) ops))).

(* the arguments of the calls of f made by [fold_left f l h] *)
Fixpoint calls {S B} (f : S -> B -> S) (h : S) (l : list B) : list (S * B) :=
  match l with [] => [] | b :: l => (h, b) :: calls f (f h b) l end.

(* Two different calls with the same result, one made on l1, the other on l2. *)
Definition collision {S B} (f : S -> B -> S) (h : S) (l1 l2 : list B) : Prop :=
  exists a b a' b', In (a, b) (calls f h l1) /\ In (a', b') (calls f h l2) /\ (a, b) <> (a', b') /\ f a b = f a' b'.
(* The last calls are different and their results, through the output function g, are the same. *)
Definition last_collision {S B} (f : S -> B -> S) (g : S -> bytes) (h : S) (l1 l2 : list B) : Prop :=
  exists p1 p2 a b a' b', calls f h l1 = p1 ++ [(a, b)] /\ calls f h l2 = p2 ++ [(a', b')] /\ (a, b) <> (a', b') /\ g (f a b) = g (f a' b').
(* The beginning p of one of the two leads back to the initial state, and what follows p is the other. *)
Definition returns {S B} (f : S -> B -> S) (h : S) (l1 l2 : list B) : Prop :=
  exists p, p <> [] /\ fold_left f p h = h /\ (l1 = p ++ l2 \/ l2 = p ++ l1).
