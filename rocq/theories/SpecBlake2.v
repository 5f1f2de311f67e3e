(* Specification of BLAKE2b and BLAKE2s (RFC 7693).  Independent of the
   cryptokit model. *)
From Verif Require Import Prelude BytesNum SpecBlock Word SpecHash.

(* section 2.1: word size in bits, rounds, rotation constants *)
Record blake2 := Blake2 { b_w : Z; b_rounds : nat; b_R1 : Z; b_R2 : Z; b_R3 : Z; b_R4 : Z; b_IV : list Z }.
(* bytes per word, per block *)
Definition b_n (P : blake2) : Z := b_w P / 8.
Definition b_bb (P : blake2) : Z := 16 * b_n P.
(* section 2.6: fractional parts of the square roots of the first 8 primes *)
Definition blake2b_params : blake2 := Blake2 64 12 32 24 16 63 (map (sqrt_frac 64) (firstn 8 primes)).
Definition blake2s_params : blake2 := Blake2 32 10 16 12 8 7 (map (sqrt_frac 32) (firstn 8 primes)).

(* section 2.7 *)
Definition SIGMA : list (list nat) :=
  [[0; 1; 2; 3; 4; 5; 6; 7; 8; 9; 10; 11; 12; 13; 14; 15];
   [14; 10; 4; 8; 9; 15; 13; 6; 1; 12; 0; 2; 11; 7; 5; 3];
   [11; 8; 12; 0; 5; 2; 15; 13; 10; 14; 3; 6; 7; 1; 9; 4];
   [7; 9; 3; 1; 13; 12; 11; 14; 2; 6; 5; 10; 4; 0; 15; 8];
   [9; 0; 5; 7; 2; 4; 10; 15; 14; 1; 11; 12; 6; 8; 3; 13];
   [2; 12; 6; 10; 0; 11; 8; 3; 4; 13; 7; 5; 15; 14; 1; 9];
   [12; 5; 1; 15; 14; 13; 4; 10; 0; 7; 6; 3; 9; 2; 8; 11];
   [13; 11; 7; 14; 12; 1; 3; 9; 5; 0; 15; 4; 8; 6; 2; 10];
   [6; 15; 14; 9; 11; 3; 0; 8; 12; 2; 13; 7; 1; 4; 10; 5];
   [10; 2; 8; 4; 7; 6; 1; 5; 15; 11; 9; 14; 3; 12; 13; 0]]%nat.

Section Blake2.
Variable P : blake2.
Notation w := (b_w P).

(* section 3.1 *)
Definition b_G (v : Z * Z * Z * Z) (x y : Z) : Z * Z * Z * Z :=
  let '(a, b, c, d) := v in
  let a := (a + b + x) mod 2 ^ w in
  let d := rotr w (b_R1 P) (Z.lxor d a) in
  let c := (c + d) mod 2 ^ w in
  let b := rotr w (b_R2 P) (Z.lxor b c) in
  let a := (a + b + y) mod 2 ^ w in
  let d := rotr w (b_R3 P) (Z.lxor d a) in
  let c := (c + d) mod 2 ^ w in
  let b := rotr w (b_R4 P) (Z.lxor b c) in
  (a, b, c, d).

(* section 3.2, one round *)
Definition b_round (m : list Z) (v : list Z) (i : nat) : list Z :=
  let s := nth (i mod 10) SIGMA [] in
  let x k := nth (nth k s 0%nat) m 0 in
  match v with
  | [v0; v1; v2; v3; v4; v5; v6; v7; v8; v9; v10; v11; v12; v13; v14; v15] =>
      let '(v0, v4, v8, v12) := b_G (v0, v4, v8, v12) (x 0%nat) (x 1%nat) in
      let '(v1, v5, v9, v13) := b_G (v1, v5, v9, v13) (x 2%nat) (x 3%nat) in
      let '(v2, v6, v10, v14) := b_G (v2, v6, v10, v14) (x 4%nat) (x 5%nat) in
      let '(v3, v7, v11, v15) := b_G (v3, v7, v11, v15) (x 6%nat) (x 7%nat) in
      let '(v0, v5, v10, v15) := b_G (v0, v5, v10, v15) (x 8%nat) (x 9%nat) in
      let '(v1, v6, v11, v12) := b_G (v1, v6, v11, v12) (x 10%nat) (x 11%nat) in
      let '(v2, v7, v8, v13) := b_G (v2, v7, v8, v13) (x 12%nat) (x 13%nat) in
      let '(v3, v4, v9, v14) := b_G (v3, v4, v9, v14) (x 14%nat) (x 15%nat) in
      [v0; v1; v2; v3; v4; v5; v6; v7; v8; v9; v10; v11; v12; v13; v14; v15]
  | _ => v
  end.
(* compression of a block; t = number of bytes so far, f = final block *)
Definition b_F (h : list Z) (blk : bytes) (t : Z) (f : bool) : list Z :=
  let iv k := nth k (b_IV P) 0 in
  let v := h ++ [iv 0%nat; iv 1%nat; iv 2%nat; iv 3%nat;
                 Z.lxor (iv 4%nat) (t mod 2 ^ w); Z.lxor (iv 5%nat) ((t / 2 ^ w) mod 2 ^ w);
                 if f then Z.lxor (iv 6%nat) (2 ^ w - 1) else iv 6%nat; iv 7%nat] in
  let v := fold_left (b_round (le_words (b_n P) blk)) (seq 0 (b_rounds P)) v in
  map (fun i => Z.lxor (Z.lxor (nth i h 0) (nth i v 0)) (nth (i + 8) v 0)) (seq 0 8).

(* section 3.3: all the blocks but the last, then the last one *)
Fixpoint b_blocks (h : list Z) (t : Z) (blks : list bytes) : list Z :=
  match blks with
  | [] => h
  | b :: blks => b_blocks (b_F h b (t + b_bb P) false) (t + b_bb P) blks
  end.
(* data blocks: the key, if any, padded with zeros, then the message; the
   last block is padded with zeros; at least one block *)
Definition b_data (key msg : bytes) : bytes :=
  (if zlen key =? 0 then [] else key ++ zeros (b_bb P - zlen key)) ++ msg.
Definition b_pad (blk : bytes) : bytes := blk ++ zeros (b_bb P - zlen blk).
Definition blake2_digest (nn : Z) (key msg : bytes) : bytes :=
  let d := b_data key msg in
  let blks := match d with [] => [[]] | _ => chunks (b_bb P) d end in
  let h0 := match b_IV P with
            | h :: l => Z.lxor (Z.lxor (Z.lxor h 0x01010000) (Z.shiftl (zlen key) 8)) nn :: l
            | [] => [] end in
  let h := b_blocks h0 0 (removelast blks) in
  let h := b_F h (b_pad (last blks [])) (zlen d) true in
  firstn (Z.to_nat nn) (concat (map (to_le (Z.to_nat (b_n P))) h)).
End Blake2.

Definition blake2b_spec (nn : Z) (key msg : bytes) : bytes := blake2_digest blake2b_params nn key msg.
Definition blake2s_spec (nn : Z) (key msg : bytes) : bytes := blake2_digest blake2s_params nn key msg.
