(* Specification of Keccak and SHA-3 (FIPS 202).  Independent of the
   cryptokit model.  The state is the list of its 25 lanes of 64 bits, lane
   (x, y) at position x + 5 y. *)
From Verif Require Import Prelude BytesNum SpecBlock Word SpecHash.

Definition lane (A : list Z) (x y : nat) : Z := nth (x mod 5 + 5 * (y mod 5))%nat A 0.
Definition lanes (f : nat -> nat -> Z) : list Z := map (fun i => f (i mod 5)%nat (i / 5)%nat) (seq 0 25).

(* 3.2.1 *)
Definition theta (A : list Z) : list Z :=
  let C x := Z.lxor (Z.lxor (Z.lxor (Z.lxor (lane A x 0) (lane A x 1)) (lane A x 2)) (lane A x 3)) (lane A x 4) in
  let D x := Z.lxor (C (x + 4)%nat) (rotl 64 1 (C (x + 1)%nat)) in
  lanes (fun x y => Z.lxor (lane A x y) (D x)).
(* 3.2.2: the position visited at step t, and the offset of a position *)
Fixpoint rho_pos (t : nat) : nat * nat :=
  match t with O => (1, 0) | S t => let '(x, y) := rho_pos t in (y, (2 * x + 3 * y) mod 5) end%nat.
Definition rho_offset (x y : nat) : Z :=
  match find (fun t => let '(x', y') := rho_pos t in (x =? x') && (y =? y'))%nat (seq 0 24) with
  | Some t => ((Z.of_nat t + 1) * (Z.of_nat t + 2) / 2) mod 64
  | None => 0
  end.
Definition rho (A : list Z) : list Z := lanes (fun x y => rotl 64 (rho_offset x y) (lane A x y)).
(* 3.2.3 *)
Definition pi (A : list Z) : list Z := lanes (fun x y => lane A (x + 3 * y) x).
(* 3.2.4 *)
Definition chi (A : list Z) : list Z :=
  lanes (fun x y => Z.lxor (lane A x y) (Z.land (2 ^ 64 - 1 - lane A (x + 1) y) (lane A (x + 2) y))).
(* 3.2.5: rc by the shift register, R = [R0; ...; R7] *)
Definition lfsr (R : list bool) : list bool :=
  match R with
  | [r0; r1; r2; r3; r4; r5; r6; r7] => [r7; r0; r1; r2; Datatypes.xorb r3 r7; Datatypes.xorb r4 r7; Datatypes.xorb r5 r7; r6]
  | _ => R
  end.
Definition rc (t : nat) : bool := nth 0 (Nat.iter (t mod 255) lfsr [true; false; false; false; false; false; false; false]) false.
Definition RC (ir : nat) : Z :=
  fold_left (fun v j => if rc (j + 7 * ir) then v + 2 ^ (2 ^ Z.of_nat j - 1) else v) (seq 0 7) 0.
Definition iota (ir : nat) (A : list Z) : list Z :=
  lanes (fun x y => if (x =? 0)%nat && (y =? 0)%nat then Z.lxor (lane A x y) (RC ir) else lane A x y).
Definition keccak_round (A : list Z) (ir : nat) : list Z := iota ir (chi (pi (rho (theta A)))).
Definition keccak_f (A : list Z) : list Z := fold_left keccak_round (seq 0 24) A.

(* ---- sponge ---- *)
(* bits of a string, least significant bit of each byte first (B.1) *)
Definition bits_of (m : bytes) : list bool := concat (map (fun b => map (fun i => Z.testbit b (Z.of_nat i)) (seq 0 8)) m).
Fixpoint bytes_of (fuel : nat) (l : list bool) : bytes :=
  match fuel with
  | O => []
  | S f =>
      match l with
      | b0 :: b1 :: b2 :: b3 :: b4 :: b5 :: b6 :: b7 :: l =>
          (Z.b2z b0 + 2 * Z.b2z b1 + 4 * Z.b2z b2 + 8 * Z.b2z b3 + 16 * Z.b2z b4 + 32 * Z.b2z b5 + 64 * Z.b2z b6 + 128 * Z.b2z b7)
          :: bytes_of f l
      | _ => []
      end
  end.
(* 5.1: pad10*1 to a multiple of r bits *)
Definition pad101 (r m : Z) : list bool := [true] ++ repeat false (Z.to_nat ((- m - 2) mod r)) ++ [true].
(* message followed by the domain suffix, padded *)
Definition sponge_input (r : Z) (suffix : list bool) (m : bytes) : bytes :=
  let b := bits_of m ++ suffix in
  let p := b ++ pad101 r (Z.of_nat (length b)) in
  bytes_of (length p) p.
(* 4: the first r bits of the state are xored with the block *)
Definition xor_block (A : list Z) (blk : bytes) : list Z :=
  let ws := le_words 8 blk in map (fun i => Z.lxor (nth i A 0) (nth i ws 0)) (seq 0 25).
Definition sponge (r : Z) (suffix : list bool) (m : bytes) : list Z :=
  fold_left (fun A blk => keccak_f (xor_block A blk)) (chunks (r / 8) (sponge_input r suffix m)) (repeat 0 25).
(* d bits of output; d <= r in all the functions below, so that squeezing
   takes the first bits of the final state *)
Definition keccak_digest (suffix : list bool) (d : Z) (m : bytes) : bytes :=
  firstn (Z.to_nat (d / 8)) (concat (map (to_le 8) (sponge (1600 - 2 * d) suffix m))).
(* 6.1: SHA3-d(M) = KECCAK[2d](M || 01, d); Keccak, the submission: no suffix *)
Definition sha3_spec (d : Z) (m : bytes) : bytes := keccak_digest [false; true] d m.
Definition keccak_spec (d : Z) (m : bytes) : bytes := keccak_digest [] d m.
