(* Vocabulary of C87: what is left in memory by an output buffer. *)
From Verif Require Import Prelude SpecTransducer.

(* the array holds the string l, somewhere *)
Definition holds (a l : bytes) : Prop := exists x y, a = x ++ l ++ y.
(* put, flush, finish *)
Definition produces (o : op) : bool :=
  match o with PutSubstring _ _ _ | PutString _ | PutChar _ | PutByte _ | Flush | Finish => true | _ => false end.
