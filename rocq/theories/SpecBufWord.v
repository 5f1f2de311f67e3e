(* Vocabulary for C108: a queue that holds at most n bytes, and the two kinds of machines. *)
From Verif Require Import Prelude BufHistory.

Definition bounded_step (n : Z) (q : bytes) (o : bop) : bytes * bobs :=
  match o with
  | Produce l => if zlen q + zlen l <=? n then (q ++ l, BUnit) else (q, BExn (Error Output_buffer_overflow))
  | Available => (q, BInt (zlen q))
  | GetStr | GetSub => ([], BBytes q)
  | GetChr => match q with [] => ([], BExn End_of_file) | c :: q' => (q', BInt c) end
  end.
Fixpoint bounded_run (n : Z) (q : bytes) (ops : list bop) : list bobs :=
  match ops with [] => [] | o :: ops' => snd (bounded_step n q o) :: bounded_run n (fst (bounded_step n q o)) ops' end.
(* strings that can exist *)
Definition bop_fits (n : Z) (o : bop) : Prop := match o with Produce l => zlen l <= n | _ => True end.

(* Sys.max_string_length = word_size / 8 * max_array_length - 1, with max_array_length 2^22 - 1
   on 32-bit machines, 2^54 - 1 on 64-bit ones *)
Definition max_len_32 : Z := 4 * (2 ^ 22 - 1) - 1.
Definition max_len_64 : Z := 8 * (2 ^ 54 - 1) - 1.
