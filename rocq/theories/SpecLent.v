(* Which writes to a lent array are allowed. *)
From Verif Require Import Prelude BufHistory LentModel.

(* the calls without the writes *)
Definition calls (ops : list lop) : list bop := flat_map (fun o => match o with Call o => [o] | Write _ => [] end) ops.
(* the caller writes only between get_substring and the next production of output: [lent] is
   true if there was no production since the last get_substring *)
Fixpoint polite (lent : bool) (ops : list lop) : bool :=
  match ops with
  | [] => true
  | Call GetSub :: ops => polite true ops
  | Call (Produce _) :: ops => polite false ops
  | Call _ :: ops => polite lent ops
  | Write _ :: ops => lent && polite lent ops
  end.
Definition quiet (o : bop) : bool := match o with Produce _ => false | _ => true end.
