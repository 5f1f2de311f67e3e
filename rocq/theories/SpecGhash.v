(* GHASH, NIST SP 800-38D sections 6.3, 6.4.  Independent of the cryptokit
   model.  A block is the number of 128 bits whose leftmost bit, x_0, is the
   most significant one. *)
From Verif Require Import Prelude BytesNum SpecBlock.

(* 6.3: R = 11100001 || 0^120 *)
Definition gf_R : Z := 0xE1 * 2 ^ 120.
(* V_{i+1} from V_i: multiplication by x *)
Definition gf_x (v : Z) : Z := if Z.odd v then Z.lxor (Z.div2 v) gf_R else Z.div2 v.
(* Algorithm 1: X . Y *)
Definition gf_mult (X Y : Z) : Z :=
  fst (fold_left (fun '(z, v) i => (if Z.testbit X (127 - Z.of_nat i) then Z.lxor z v else z, gf_x v)) (seq 0 128) (0, Y)).
Definition block_mult (X Y : bytes) : bytes := to_be 16 (gf_mult (be X) (be Y)).
(* Algorithm 2: GHASH_H of whole blocks *)
Definition ghash (H : bytes) (blocks : list bytes) : bytes :=
  fold_left (fun y x => block_mult (xorb y x) H) blocks (zeros 16).

(* What Algorithm 1 computes: read the bits of a block as the coefficients of
   a polynomial over GF(2), the leftmost one being the constant one; then
   multiply polynomials and reduce by x^128 + x^7 + x^2 + x + 1. *)
Fixpoint xsum (f : nat -> Z) (n : nat) : Z :=
  match n with O => 0 | S n' => Z.lxor (xsum f n') (f n') end.
Definition poly_of_block (v : Z) : Z := xsum (fun i => if Z.testbit v (127 - Z.of_nat i) then 2 ^ Z.of_nat i else 0) 128.
Definition pmul (a b : Z) : Z := xsum (fun i => if Z.testbit b (Z.of_nat i) then Z.shiftl a (Z.of_nat i) else 0) 128.
Definition gcm_poly : Z := 2 ^ 128 + 2 ^ 7 + 2 ^ 2 + 2 + 1.
