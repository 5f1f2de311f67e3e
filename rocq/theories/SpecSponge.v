(* Collisions of a sponge (FIPS 202, section 4; G. Bertoni et al., "Cryptographic sponge functions"). *)
From Verif Require Import Prelude BytesNum SpecBlock SpecKeccak.

(* the state after these blocks *)
Definition absorbed (l : list bytes) : list Z := fold_left (fun A blk => keccak_f (xor_block A blk)) l (repeat 0 25).
(* the lanes which blocks of r bits do not reach *)
Definition capacity_part (r : Z) (A : list Z) : list Z := skipn (Z.to_nat (r / 64)) A.
(* Different beginnings of l1 and l2, after which the states have the same capacity part. *)
Definition inner_collision (r : Z) (l1 l2 : list bytes) : Prop :=
  exists p1 q1 p2 q2, l1 = p1 ++ q1 /\ l2 = p2 ++ q2 /\ q1 <> [] /\ q2 <> [] /\ p1 <> p2 /\
  capacity_part r (absorbed p1) = capacity_part r (absorbed p2).
(* The states to which the permutation is applied last are different, and the first n bytes of the results are the same. *)
Definition output_collision (n : nat) (l1 l2 : list bytes) : Prop :=
  exists p1 b1 p2 b2, l1 = p1 ++ [b1] /\ l2 = p2 ++ [b2] /\ xor_block (absorbed p1) b1 <> xor_block (absorbed p2) b2 /\
  firstn n (concat (map (to_le 8) (keccak_f (xor_block (absorbed p1) b1)))) = firstn n (concat (map (to_le 8) (keccak_f (xor_block (absorbed p2) b2)))).
