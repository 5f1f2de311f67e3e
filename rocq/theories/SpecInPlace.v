(* Blocks of an array; equal outcomes. *)
From Verif Require Import Prelude.

(* n consecutive blocks of bs bytes of l, from offset so on *)
Fixpoint blocks_at (l : bytes) (so bs : Z) (n : nat) : list bytes :=
  match n with O => [] | S n => sub l so bs :: blocks_at l (so + bs) bs n end.

(* the same outcome, with results related by P *)
Definition same_out {A B} (P : A -> B -> Prop) (x : out A) (y : out B) : Prop :=
  match x, y with
  | Ret a, Ret b => P a b
  | Raise e, Raise e' => e = e'
  | Undef, Undef => True
  | Hang, Hang => True
  | _, _ => False
  end.
