(* What random generators should deliver. *)
From Verif Require Import Prelude BytesNum SpecStream.

(* a call random_bytes buf ofs len *)
Record request := Req { q_buf : bytes; q_ofs : Z; q_len : Z }.
Definition q_valid (q : request) : Prop := in_range (q_buf q) (q_ofs q) (q_len q) = true.

(* the buffers after the calls of a sequence, and the outcomes, if the generator delivers
   the bytes of [stream] from number n on *)
Fixpoint delivered (stream : nat -> Z) (n : nat) (qs : list request) : list (bytes * out unit) :=
  match qs with
  | [] => []
  | q :: qs =>
    if in_range (q_buf q) (q_ofs q) (q_len q)
    then (splice (q_buf q) (q_ofs q) (ks_bytes stream n (Z.to_nat (q_len q))), Ret tt) :: delivered stream (n + Z.to_nat (q_len q)) qs
    else (q_buf q, Raise Invalid_argument) :: delivered stream n qs
  end.

(* block cipher E in counter mode from 0 on, blocks of 16 bytes *)
Definition ctr_stream (E : bytes -> bytes) (n : nat) : Z := nth (n mod 16) (E (to_be 16 (Z.of_nat (n / 16)))) 0.

(* the ChaCha20 key made of a seed: its first 32 bytes; with zeros added if it has 17 to 31 *)
Definition seed_key (seed : bytes) : bytes :=
  if (length seed =? 16)%nat then seed else firstn 32 (seed ++ repeat 0 16).
