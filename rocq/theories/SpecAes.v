(* Specification of AES (FIPS 197).  Independent of the cryptokit model. *)
From Verif Require Import Prelude SpecBlock SpecModes.

(* ---- the field GF(2^8), section 4 ---- *)
(* multiplication by x modulo x^8 + x^4 + x^3 + x + 1 *)
Definition xtime (a : Z) : Z := if a <? 128 then 2 * a else Z.lxor (2 * a) 0x11b.
(* a * b: the sum of the a * x^i over the terms x^i of b *)
Definition gmul (a b : Z) : Z :=
  fold_left (fun s i => Z.lxor s (if Z.testbit b (Z.of_nat i) then Nat.iter i xtime a else 0)) (seq 0 8) 0.
(* the multiplicative inverse, 0 for 0: a^254 = a^2 a^4 a^8 a^16 a^32 a^64 a^128
   (gf_inv_ok in Aes.v: it is the inverse) *)
Definition gsq (a : Z) : Z := gmul a a.
Definition gf_inv (a : Z) : Z :=
  snd (fold_left (fun p _ => let q := gsq (fst p) in (q, gmul (snd p) q)) (seq 0 7) (a, 1)).

(* ---- 5.1.1 SubBytes: bit i of the S-box output is
   b_i + b_(i+4) + b_(i+5) + b_(i+6) + b_(i+7) + c_i, where b is the inverse ---- *)
Definition affine (b : Z) : Z :=
  fold_left (fun s i =>
    let bit j := Z.testbit b (Z.of_nat ((i + j) mod 8)) in
    if Datatypes.xorb (Datatypes.xorb (Datatypes.xorb (Datatypes.xorb (Datatypes.xorb (bit 0%nat) (bit 4%nat)) (bit 5%nat)) (bit 6%nat)) (bit 7%nat)) (Z.testbit 0x63 (Z.of_nat i))
    then s + 2 ^ Z.of_nat i else s) (seq 0 8) 0.
Definition sbox (x : Z) : Z := affine (gf_inv x).
(* its inverse: b_i = s_(i+2) + s_(i+5) + s_(i+7) + d_i with d = 05 *)
Definition inv_affine (s : Z) : Z :=
  fold_left (fun r i =>
    let bit j := Z.testbit s (Z.of_nat ((i + j) mod 8)) in
    if Datatypes.xorb (Datatypes.xorb (Datatypes.xorb (bit 2%nat) (bit 5%nat)) (bit 7%nat)) (Z.testbit 0x05 (Z.of_nat i))
    then r + 2 ^ Z.of_nat i else r) (seq 0 8) 0.
Definition inv_sbox (y : Z) : Z := gf_inv (inv_affine y).

(* ---- the state: 16 bytes, s[r,c] is byte r + 4c (section 3.4) ---- *)
Definition st_get (s : bytes) (r c : nat) : Z := nth (r + 4 * c) s 0.
Definition st_make (f : nat -> nat -> Z) : bytes := map (fun i => f (i mod 4) (i / 4))%nat (seq 0 16).

Definition SubBytes (s : bytes) : bytes := map sbox s.
Definition InvSubBytes (s : bytes) : bytes := map inv_sbox s.
(* 5.1.2: row r moves left by r columns *)
Definition ShiftRows (s : bytes) : bytes := st_make (fun r c => st_get s r ((c + r) mod 4)).
Definition InvShiftRows (s : bytes) : bytes := st_make (fun r c => st_get s r ((c + 4 - r) mod 4)).
(* 5.1.3: each column times the matrix with first row m, circulant *)
Definition mix_with (m : list Z) (s : bytes) : bytes :=
  st_make (fun r c => fold_left (fun a j => Z.lxor a (gmul (nth ((j + 4 - r) mod 4) m 0) (st_get s j c))) (seq 0 4) 0).
Definition MixColumns : bytes -> bytes := mix_with [2; 3; 1; 1].
Definition InvMixColumns : bytes -> bytes := mix_with [0x0e; 0x0b; 0x0d; 0x09].

(* ---- 5.2 key expansion; words are strings of four bytes ---- *)
Definition SubWord (w : bytes) : bytes := map sbox w.
Definition RotWord (w : bytes) : bytes := match w with a :: l => l ++ [a] | [] => [] end.
Definition Rcon (i : nat) : bytes := [Nat.iter (i - 1) xtime 1; 0; 0; 0].
(* word number i = length W from the words before it *)
Definition next_word (Nk : nat) (W : list bytes) : bytes :=
  let i := length W in
  let temp := nth (i - 1) W [] in
  let temp := if (i mod Nk =? 0)%nat then xorb (SubWord (RotWord temp)) (Rcon (i / Nk))
              else if (6 <? Nk)%nat && (i mod Nk =? 4)%nat then SubWord temp else temp in
  xorb (nth (i - Nk) W []) temp.
Fixpoint expand (Nk n : nat) (W : list bytes) : list bytes :=
  match n with O => W | S n => expand Nk n (W ++ [next_word Nk W]) end.
Definition key_words (key : bytes) : nat := Z.to_nat (zlen key / 4).    (* Nk *)
Definition rounds (key : bytes) : nat := key_words key + 6.            (* Nr *)
Definition key_expansion (key : bytes) : list bytes :=
  expand (key_words key) (4 * (rounds key + 1) - key_words key) (chunks 4 key).
Definition round_keys (key : bytes) : list bytes := chunks 16 (concat (key_expansion key)).

(* ---- 5.1 Cipher and 5.3 InvCipher ---- *)
(* the round keys but the first and the last *)
Definition middle (ks : list bytes) : list bytes := removelast (tl ks).
Definition aes_round (s k : bytes) : bytes := xorb (MixColumns (ShiftRows (SubBytes s))) k.
Definition aes_cipher (ks : list bytes) (b : bytes) : bytes :=
  let s := fold_left aes_round (middle ks) (xorb b (hd [] ks)) in
  xorb (ShiftRows (SubBytes s)) (last ks []).
Definition inv_round (s k : bytes) : bytes := InvMixColumns (xorb (InvSubBytes (InvShiftRows s)) k).
Definition aes_inv_cipher (ks : list bytes) (b : bytes) : bytes :=
  let s := fold_left inv_round (rev (middle ks)) (xorb b (last ks [])) in
  xorb (InvSubBytes (InvShiftRows s)) (hd [] ks).
Definition aes_E (key b : bytes) : bytes := aes_cipher (round_keys key) b.
Definition aes_D (key b : bytes) : bytes := aes_inv_cipher (round_keys key) b.
