(* Vocabulary for C91: the machines on which the C part of the library may be compiled. *)
From Verif Require Import Prelude BytesNum SpecBlock SpecHash HashModel HashSpec SpecStream StreamModel StreamObj.

(* order of the bytes of a word in memory *)
Inductive order := Little | Big.
(* a machine: its byte order, and the number of bits of C's long and unsigned long *)
Record platform := Platform { p_order : order; p_long : Z }.
Definition platform_ok (p : platform) : Prop := p_long p = 32 \/ p_long p = 64.

(* the calls raise nothing, and result then returns d *)
Definition answers (o : hobj) (ops : list hop) (d : bytes) : Prop :=
  snd (h_run (ho_class o) (ho_st o) ops) = Ret tt /\
  snd (h_result (ho_class o) (fst (h_run (ho_class o) (ho_st o) ops))) = Ret d.
(* every call adds less than n bytes *)
Definition pieces_below (n : Z) (ops : list hop) : Prop := Forall (fun o => zlen (hop_bytes o) < n) ops.

(* what is left of a string whose length is reduced to U bits *)
Definition taken (U : Z) (s : bytes) : bytes := firstn (Z.to_nat (zlen s mod 2 ^ U)) s.
Definition taken_all (U : Z) (ops : list hop) : bytes := concat (map (fun o => taken U (hop_bytes o)) ops).
(* the number of bits of each piece, reduced to U bits *)
Fixpoint bits_counted (U : Z) (ops : list hop) : Z :=
  match ops with
  | [] => 0
  | o :: ops => (8 * zlen (taken U (hop_bytes o))) mod 2 ^ U + bits_counted U ops
  end.

(* SHA-384 and SHA-512 with n written in the place of the length of the message *)
Definition sha2_with_length (iv : list Z) (len : nat) (n : Z) (msg : bytes) : bytes :=
  firstn len (concat (map (to_be 8) (md_digest 128 16 (fun L _ => to_be L n) iv (sha2_compress p512) msg))).

(* the value of a signed integer of U bits; the iterations of  for (; len > 0; len--) *)
Definition signed (U n : Z) : Z := (n + 2 ^ (U - 1)) mod 2 ^ U - 2 ^ (U - 1).
Definition iterations (U n : Z) : Z := Z.max 0 (signed U n).
(* as ks_history, each valid call treating only the first [iterations] bytes of its range *)
Fixpoint ks_history_on (U : Z) (ks : nat -> Z) (n : nat) (cs : list scall) : list (bytes * out unit) :=
  match cs with
  | [] => []
  | c :: cs =>
      if scall_okb c
      then (splice (sc_dst c) (sc_dofs c) (ks_xor ks n (sub (sc_src c) (sc_sofs c) (iterations U (sc_len c)))), Ret tt)
           :: ks_history_on U ks (n + Z.to_nat (iterations U (sc_len c))) cs
      else (sc_dst c, Raise Invalid_argument) :: ks_history_on U ks n cs
  end.
