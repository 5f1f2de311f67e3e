(* Stream ciphers on memory: what a sequence of calls transform src so dst d len should do. *)
From Verif Require Import Prelude SpecStream.

(* a call: the addresses and lengths of the two arrays, the offsets, the length *)
Record mcall := MCall { mc_src : Z; mc_slen : Z; mc_sofs : Z; mc_dst : Z; mc_dlen : Z; mc_dofs : Z; mc_len : Z }.
Definition mcall_valid (c : mcall) : bool :=
  (0 <=? mc_len c) && (0 <=? mc_sofs c) && (mc_sofs c + mc_len c <=? mc_slen c) && (0 <=? mc_dofs c) && (mc_dofs c + mc_len c <=? mc_dlen c).
(* the n bytes at address a *)
Fixpoint range (m : Z -> Z) (a : Z) (n : nat) : bytes := match n with O => [] | S n => m a :: range m (a + 1) n end.
(* memory with the bytes l at address a *)
Definition put (m : Z -> Z) (a : Z) (l : bytes) : Z -> Z := fun i => if (a <=? i) && (i <? a + zlen l) then nth (Z.to_nat (i - a)) l 0 else m i.
(* the outcomes of the calls, and memory afterwards: each valid call stores the source, as it was before the call, xored with the next
   bytes of the keystream *)
Fixpoint mem_history (ks : nat -> Z) (n : nat) (m : Z -> Z) (cs : list mcall) : list (out unit) * (Z -> Z) :=
  match cs with
  | [] => ([], m)
  | c :: cs =>
      let r := if mcall_valid c
        then mem_history ks (n + Z.to_nat (mc_len c)) (put m (mc_dst c + mc_dofs c) (ks_xor ks n (range m (mc_src c + mc_sofs c) (Z.to_nat (mc_len c))))) cs
        else mem_history ks n m cs in
      ((if mcall_valid c then Ret tt else Raise Invalid_argument) :: fst r, snd r)
  end.
(* the destination does not begin inside the source, after its first byte *)
Definition no_forward_overlap (c : mcall) : Prop :=
  mc_dst c + mc_dofs c <= mc_src c + mc_sofs c \/ mc_src c + mc_sofs c + mc_len c <= mc_dst c + mc_dofs c.
