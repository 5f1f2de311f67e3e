(* Model: the compression function of ripemd160.c and the class ripemd160.
   The buffering is in MdModel.v.  The two lists of steps were printed from
   the source by rocq/gen/gen_ripemd.py. *)
From Verif Require Import Prelude BytesNum SpecBlock Word HashModel MdModel ShaModel.

(* the five basic functions, ripemd160.c 30-34 *)
Definition rmd_F x y z := Z.lxor (Z.lxor x y) z.
Definition rmd_G x y z := Z.lor (Z.land x y) (Z.land (c_not 32 x) z).
Definition rmd_H x y z := Z.lxor (Z.lor x (c_not 32 y)) z.
Definition rmd_I x y z := Z.lor (Z.land x z) (Z.land y (c_not 32 z)).
Definition rmd_J x y z := Z.lxor x (Z.lor y (c_not 32 z)).

(* the ten macros FF .. JJJ, ripemd160.c 37-86: basic function and constant *)
Inductive macro := FF | GG | HH | II | JJ | FFF | GGG | HHH | III | JJJ.
Definition macro_fun (m : macro) : Z -> Z -> Z -> Z :=
  match m with
  | FF | FFF => rmd_F | GG | GGG => rmd_G | HH | HHH => rmd_H | II | III => rmd_I | JJ | JJJ => rmd_J
  end.
(* FF and FFF add no constant *)
Definition macro_const (m : macro) : Z :=
  match m with
  | FF => 0 | GG => 0x5a827999 | HH => 0x6ed9eba1 | II => 0x8f1bbcdc | JJ => 0xa953fd4e
  | FFF => 0 | GGG => 0x7a6d76e9 | HHH => 0x6d703ef3 | III => 0x5c4dd124 | JJJ => 0x50a28be6
  end.

(* one line MACRO(a, b, c, d, e, data[i], s); registers a .. e are 0 .. 4 *)
Inductive instr := I (m : macro) (a b c d e : nat) (i : nat) (s : Z).
Definition set_reg (r : list Z) (k : nat) (x : Z) : list Z := firstn k r ++ [x] ++ skipn (S k) r.
Definition exec (data : list Z) (r : list Z) (ins : instr) : list Z :=
  let '(I m a b c d e i s) := ins in
  let v k := nth k r 0 in
  let t := c_add 32 (v a) (c_add 32 (c_add 32 (macro_fun m (v b) (v c) (v d)) (nth i data 0)) (macro_const m)) in
  let r := set_reg r a (c_add 32 (c_rol 32 t s) (v e)) in
  set_reg r c (c_rol 32 (nth c r 0) 10).

(* left rounds, ripemd160.c 121-210; right rounds, 211-310 *)
Definition rmd_left : list instr :=
  [ I FF 0 1 2 3 4 0 11; I FF 4 0 1 2 3 1 14; I FF 3 4 0 1 2 2 15; I FF 2 3 4 0 1 3 12;
    I FF 1 2 3 4 0 4 5; I FF 0 1 2 3 4 5 8; I FF 4 0 1 2 3 6 7; I FF 3 4 0 1 2 7 9;
    I FF 2 3 4 0 1 8 11; I FF 1 2 3 4 0 9 13; I FF 0 1 2 3 4 10 14; I FF 4 0 1 2 3 11 15;
    I FF 3 4 0 1 2 12 6; I FF 2 3 4 0 1 13 7; I FF 1 2 3 4 0 14 9; I FF 0 1 2 3 4 15 8;
    I GG 4 0 1 2 3 7 7; I GG 3 4 0 1 2 4 6; I GG 2 3 4 0 1 13 8; I GG 1 2 3 4 0 1 13;
    I GG 0 1 2 3 4 10 11; I GG 4 0 1 2 3 6 9; I GG 3 4 0 1 2 15 7; I GG 2 3 4 0 1 3 15;
    I GG 1 2 3 4 0 12 7; I GG 0 1 2 3 4 0 12; I GG 4 0 1 2 3 9 15; I GG 3 4 0 1 2 5 9;
    I GG 2 3 4 0 1 2 11; I GG 1 2 3 4 0 14 7; I GG 0 1 2 3 4 11 13; I GG 4 0 1 2 3 8 12;
    I HH 3 4 0 1 2 3 11; I HH 2 3 4 0 1 10 13; I HH 1 2 3 4 0 14 6; I HH 0 1 2 3 4 4 7;
    I HH 4 0 1 2 3 9 14; I HH 3 4 0 1 2 15 9; I HH 2 3 4 0 1 8 13; I HH 1 2 3 4 0 1 15;
    I HH 0 1 2 3 4 2 14; I HH 4 0 1 2 3 7 8; I HH 3 4 0 1 2 0 13; I HH 2 3 4 0 1 6 6;
    I HH 1 2 3 4 0 13 5; I HH 0 1 2 3 4 11 12; I HH 4 0 1 2 3 5 7; I HH 3 4 0 1 2 12 5;
    I II 2 3 4 0 1 1 11; I II 1 2 3 4 0 9 12; I II 0 1 2 3 4 11 14; I II 4 0 1 2 3 10 15;
    I II 3 4 0 1 2 0 14; I II 2 3 4 0 1 8 15; I II 1 2 3 4 0 12 9; I II 0 1 2 3 4 4 8;
    I II 4 0 1 2 3 13 9; I II 3 4 0 1 2 3 14; I II 2 3 4 0 1 7 5; I II 1 2 3 4 0 15 6;
    I II 0 1 2 3 4 14 8; I II 4 0 1 2 3 5 6; I II 3 4 0 1 2 6 5; I II 2 3 4 0 1 2 12;
    I JJ 1 2 3 4 0 4 9; I JJ 0 1 2 3 4 0 15; I JJ 4 0 1 2 3 5 5; I JJ 3 4 0 1 2 9 11;
    I JJ 2 3 4 0 1 7 6; I JJ 1 2 3 4 0 12 8; I JJ 0 1 2 3 4 2 13; I JJ 4 0 1 2 3 10 12;
    I JJ 3 4 0 1 2 14 5; I JJ 2 3 4 0 1 1 12; I JJ 1 2 3 4 0 3 13; I JJ 0 1 2 3 4 8 14;
    I JJ 4 0 1 2 3 11 11; I JJ 3 4 0 1 2 6 8; I JJ 2 3 4 0 1 15 5; I JJ 1 2 3 4 0 13 6 ].

Definition rmd_right : list instr :=
  [ I JJJ 0 1 2 3 4 5 8; I JJJ 4 0 1 2 3 14 9; I JJJ 3 4 0 1 2 7 9; I JJJ 2 3 4 0 1 0 11;
    I JJJ 1 2 3 4 0 9 13; I JJJ 0 1 2 3 4 2 15; I JJJ 4 0 1 2 3 11 15; I JJJ 3 4 0 1 2 4 5;
    I JJJ 2 3 4 0 1 13 7; I JJJ 1 2 3 4 0 6 7; I JJJ 0 1 2 3 4 15 8; I JJJ 4 0 1 2 3 8 11;
    I JJJ 3 4 0 1 2 1 14; I JJJ 2 3 4 0 1 10 14; I JJJ 1 2 3 4 0 3 12; I JJJ 0 1 2 3 4 12 6;
    I III 4 0 1 2 3 6 9; I III 3 4 0 1 2 11 13; I III 2 3 4 0 1 3 15; I III 1 2 3 4 0 7 7;
    I III 0 1 2 3 4 0 12; I III 4 0 1 2 3 13 8; I III 3 4 0 1 2 5 9; I III 2 3 4 0 1 10 11;
    I III 1 2 3 4 0 14 7; I III 0 1 2 3 4 15 7; I III 4 0 1 2 3 8 12; I III 3 4 0 1 2 12 7;
    I III 2 3 4 0 1 4 6; I III 1 2 3 4 0 9 15; I III 0 1 2 3 4 1 13; I III 4 0 1 2 3 2 11;
    I HHH 3 4 0 1 2 15 9; I HHH 2 3 4 0 1 5 7; I HHH 1 2 3 4 0 1 15; I HHH 0 1 2 3 4 3 11;
    I HHH 4 0 1 2 3 7 8; I HHH 3 4 0 1 2 14 6; I HHH 2 3 4 0 1 6 6; I HHH 1 2 3 4 0 9 14;
    I HHH 0 1 2 3 4 11 12; I HHH 4 0 1 2 3 8 13; I HHH 3 4 0 1 2 12 5; I HHH 2 3 4 0 1 2 14;
    I HHH 1 2 3 4 0 10 13; I HHH 0 1 2 3 4 0 13; I HHH 4 0 1 2 3 4 7; I HHH 3 4 0 1 2 13 5;
    I GGG 2 3 4 0 1 8 15; I GGG 1 2 3 4 0 6 5; I GGG 0 1 2 3 4 4 8; I GGG 4 0 1 2 3 1 11;
    I GGG 3 4 0 1 2 3 14; I GGG 2 3 4 0 1 11 14; I GGG 1 2 3 4 0 15 6; I GGG 0 1 2 3 4 0 14;
    I GGG 4 0 1 2 3 5 6; I GGG 3 4 0 1 2 12 9; I GGG 2 3 4 0 1 2 12; I GGG 1 2 3 4 0 13 9;
    I GGG 0 1 2 3 4 9 12; I GGG 4 0 1 2 3 7 5; I GGG 3 4 0 1 2 10 15; I GGG 2 3 4 0 1 14 8;
    I FFF 1 2 3 4 0 12 8; I FFF 0 1 2 3 4 15 5; I FFF 4 0 1 2 3 10 12; I FFF 3 4 0 1 2 4 9;
    I FFF 2 3 4 0 1 1 12; I FFF 1 2 3 4 0 5 5; I FFF 0 1 2 3 4 8 14; I FFF 4 0 1 2 3 7 6;
    I FFF 3 4 0 1 2 6 8; I FFF 2 3 4 0 1 2 13; I FFF 1 2 3 4 0 13 6; I FFF 0 1 2 3 4 14 5;
    I FFF 4 0 1 2 3 0 15; I FFF 3 4 0 1 2 3 13; I FFF 2 3 4 0 1 9 11; I FFF 1 2 3 4 0 11 11 ].

(* RIPEMD160_compress, ripemd160.c 106-319; RIPEMD160_copy_and_swap (88-104)
   is a memcpy on little-endian machines *)
Definition rmd_compress (st : list Z) (buf : bytes) : list Z :=
  let data := load_words 4 buf in
  let L := fold_left (exec data) rmd_left (firstn 5 st) in
  let R := fold_left (exec data) rmd_right (firstn 5 st) in
  let s k := nth k st 0 in
  let d := c_add 32 (nth 3 R 0) (c_add 32 (nth 2 L 0) (s 1%nat)) in
  [d; c_add 32 (c_add 32 (s 2%nat) (nth 3 L 0)) (nth 4 R 0);
   c_add 32 (c_add 32 (s 3%nat) (nth 4 L 0)) (nth 0 R 0);
   c_add 32 (c_add 32 (s 4%nat) (nth 0 L 0)) (nth 1 R 0);
   c_add 32 (c_add 32 (s 0%nat) (nth 1 L 0)) (nth 2 R 0)].

(* RIPEMD160_init, ripemd160.c 321-331 *)
Definition rmd_iv : list Z := [0x67452301; 0xEFCDAB89; 0x98BADCFE; 0x10325476; 0xC3D2E1F0].
(* the length is stored low word first, 384-385 *)
Definition enc_length_le (n hi lo : Z) : bytes := store_words n [lo; hi].

Definition rmd_add_data := md_add_data 64 32 rmd_compress.
Definition rmd_final := md_final 64 32 rmd_compress (enc_length_le 4) (fun st => store_words 4 (firstn 5 st)).

(* class ripemd160, cryptokit.ml 1220-1238: hash_size = 32 *)
Definition ripemd160_class : hash := c_hash md_ctx 32 rmd_add_data rmd_final md_wipe.
Definition ripemd160_obj (fresh : Z -> bytes) : hobj := HObj ripemd160_class (md_init rmd_iv (fresh 64)).
