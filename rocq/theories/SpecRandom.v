(* All the byte strings of a length, and the number drawn from one. *)
From Verif Require Import Prelude BytesNum.

Fixpoint strings (k : nat) : list bytes :=
  match k with
  | O => [[]]
  | S k => concat (map (fun b => map (cons b) (strings k)) (map Z.of_nat (seq 0 256)))
  end.
(* the number of nb bits, odd if asked, given by a string of random bytes: bit nb - 1 is set, the bits above
   are dropped, bit 0 is set if an odd number is wanted *)
Definition draw (odd : bool) (nb : Z) (r : bytes) : Z :=
  2 ^ (nb - 1) + (if odd then 2 * (le r / 2) + 1 else le r) mod 2 ^ (nb - 1).
