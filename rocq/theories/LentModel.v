(* Model: get_substring returns the array obuf itself, cryptokit.ml 352-353, so the caller can
   write to it.  The other operations are those of BufHistory.v. *)
From Verif Require Import Prelude BufOutModel BufHistory.

(* [Write x]: the caller stores bytes in the array that get_substring returned, which then
   holds x; the length of an array does not change *)
Inductive lop := Call (o : bop) | Write (x : bytes).
Section Lent.
Variable fresh : Z -> bytes.
Definition lwrite (b : bo) (x : bytes) : bo := if zlen x =? zlen (obuf b) then BO x (obeg b) (oend b) else b.
(* what the calls return *)
Fixpoint lrun (b : bo) (ops : list lop) : list bobs :=
  match ops with
  | [] => []
  | Call o :: ops => snd (bstep fresh b o) :: lrun (fst (bstep fresh b o)) ops
  | Write x :: ops => lrun (lwrite b x) ops
  end.
(* the state after some calls *)
Definition bafter (b : bo) (ops : list bop) : bo := fold_left (fun b o => fst (bstep fresh b o)) ops b.
End Lent.
