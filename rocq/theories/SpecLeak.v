(* Which entries of which tables an implementation of AES by the tables Te0 to Te4 reads
   (C116).  A read is a pair: number of the table, index. *)
From Verif Require Import Prelude SpecAes.

(* the byte that goes to row n mod 4 of column n / 4 in ShiftRows *)
Definition shifted (s : bytes) (n : nat) : Z := nth (4 * ((n / 4 + n mod 4) mod 4) + n mod 4) s 0.
(* a full round in state s: each column reads one entry of each of Te0 to Te3 *)
Definition round_reads (s : bytes) : list (nat * Z) := map (fun n => (n mod 4, shifted s n)%nat) (seq 0 16).
(* the last round reads Te4 only *)
Definition last_reads (s : bytes) : list (nat * Z) := map (fun n => (4%nat, shifted s n)) (seq 0 16).
Fixpoint all_reads (s : bytes) (ks : list bytes) : list (nat * Z) :=
  match ks with [] => last_reads s | k :: ks => round_reads s ++ all_reads (aes_round s k) ks end.
(* encryption of the block b: the states of FIPS 197 at the beginning of each round *)
Definition aes_table_reads (key b : bytes) : list (nat * Z) :=
  all_reads (xorb b (hd [] (round_keys key))) (middle (round_keys key)).
