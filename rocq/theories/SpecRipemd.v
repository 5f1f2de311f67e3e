(* Specification of RIPEMD-160 (Dobbertin, Bosselaers, Preneel, "RIPEMD-160:
   a strengthened version of RIPEMD", 1996), in terms of the permutations rho
   and pi and the table of rotations by message word.  Independent of the
   cryptokit model. *)
From Verif Require Import Prelude BytesNum SpecBlock Word SpecHash.

Definition notw (x : Z) : Z := 2 ^ 32 - 1 - x.
(* f1 .. f5, and the function of step j *)
Definition rmd_f (k : nat) (x y z : Z) : Z :=
  match k with
  | O => Z.lxor (Z.lxor x y) z
  | 1%nat => Z.lor (Z.land x y) (Z.land (notw x) z)
  | 2%nat => Z.lxor (Z.lor x (notw y)) z
  | 3%nat => Z.lor (Z.land x z) (Z.land y (notw z))
  | _ => Z.lxor x (Z.lor y (notw z))
  end.
(* constants: integer parts of 2^30 times the square roots (left line) and
   cube roots (right line) of 2, 3, 5, 7 *)
Definition rmd_K (k : nat) : Z :=
  match k with O => 0 | 1%nat => Z.sqrt (2 * 2 ^ 60) | 2%nat => Z.sqrt (3 * 2 ^ 60) | 3%nat => Z.sqrt (5 * 2 ^ 60) | _ => Z.sqrt (7 * 2 ^ 60) end.
Definition rmd_K' (k : nat) : Z :=
  match k with O => cbrt (2 * 2 ^ 90) | 1%nat => cbrt (3 * 2 ^ 90) | 2%nat => cbrt (5 * 2 ^ 90) | 3%nat => cbrt (7 * 2 ^ 90) | _ => 0 end.
(* permutations of the message words *)
Definition rho (i : nat) : nat := nth i [7; 4; 13; 1; 10; 6; 15; 3; 12; 0; 9; 5; 2; 14; 11; 8]%nat 0%nat.
Definition pi (i : nat) : nat := ((9 * i + 5) mod 16)%nat.
Definition rmd_r (j : nat) : nat := Nat.iter (j / 16)%nat rho (j mod 16)%nat.
Definition rmd_r' (j : nat) : nat := Nat.iter (j / 16)%nat rho (pi (j mod 16)%nat).
(* rotations: row = round, column = message word *)
Definition rmd_shifts : list (list Z) :=
  [ [11; 14; 15; 12; 5; 8; 7; 9; 11; 13; 14; 15; 6; 7; 9; 8];
    [12; 13; 11; 15; 6; 9; 9; 7; 12; 15; 11; 13; 7; 8; 7; 7];
    [13; 15; 14; 11; 7; 7; 6; 8; 13; 14; 13; 12; 5; 5; 6; 9];
    [14; 11; 12; 14; 8; 6; 5; 5; 15; 12; 15; 14; 9; 9; 8; 6];
    [15; 12; 13; 13; 9; 5; 8; 6; 14; 11; 12; 11; 8; 6; 5; 5] ].
Definition rmd_shift (j word : nat) : Z := nth word (nth (j / 16)%nat rmd_shifts []) 0.

(* one step of a line *)
Definition rmd_step (f : Z -> Z -> Z -> Z) (x k s : Z) (v : Z * Z * Z * Z * Z) : Z * Z * Z * Z * Z :=
  let '(A, B, C, D, E) := v in
  (E, (rotl 32 s ((A + f B C D + x + k) mod 2 ^ 32) + E) mod 2 ^ 32, B, rotl 32 10 C, D).
Definition rmd_left_line (X : list Z) (v : Z * Z * Z * Z * Z) : Z * Z * Z * Z * Z :=
  fold_left (fun v j => rmd_step (rmd_f (j / 16)%nat) (nth (rmd_r j) X 0) (rmd_K (j / 16)%nat) (rmd_shift j (rmd_r j)) v) (seq 0 80) v.
Definition rmd_right_line (X : list Z) (v : Z * Z * Z * Z * Z) : Z * Z * Z * Z * Z :=
  fold_left (fun v j => rmd_step (rmd_f (4 - j / 16)%nat) (nth (rmd_r' j) X 0) (rmd_K' (j / 16)%nat) (rmd_shift j (rmd_r' j)) v) (seq 0 80) v.

Definition rmd160_compress (h : list Z) (blk : bytes) : list Z :=
  let X := le_words 4 blk in
  let v := (nth 0 h 0, nth 1 h 0, nth 2 h 0, nth 3 h 0, nth 4 h 0) in
  let '(A, B, C, D, E) := rmd_left_line X v in
  let '(A', B', C', D', E') := rmd_right_line X v in
  [(nth 1 h 0 + C + D') mod 2 ^ 32; (nth 2 h 0 + D + E') mod 2 ^ 32; (nth 3 h 0 + E + A') mod 2 ^ 32;
   (nth 4 h 0 + A + B') mod 2 ^ 32; (nth 0 h 0 + B + C') mod 2 ^ 32].
Definition ripemd160 (msg : bytes) : bytes :=
  concat (map (to_le 4) (md_digest 64 8 to_le [0x67452301; 0xEFCDAB89; 0x98BADCFE; 0x10325476; 0xC3D2E1F0] rmd160_compress msg)).
