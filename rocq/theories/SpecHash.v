(* Specification of Merkle-Damgard hash functions, SHA-1 and SHA-2
   (FIPS 180-4).  Independent of the cryptokit model.  Words of w bits are
   integers in [0, 2^w). *)
From Verif Require Import Prelude BytesNum SpecBlock Word.

(* ---- padding and iteration, FIPS 180-4 sections 5.1 and 6 ---- *)

(* message, byte 80, zeros, message length in bits on L bytes, so that the
   total is a multiple of B.  FIPS 180-4 defines only messages of less than
   2^(8L) bits; beyond that the length is reduced modulo 2^(8L). *)
Definition md_pad (B L : Z) (enc : nat -> Z -> bytes) (msg : bytes) : bytes :=
  msg ++ [128] ++ zeros ((- (zlen msg + 1 + L)) mod B) ++ enc (Z.to_nat L) (8 * zlen msg).

Definition md_digest {S} (B L : Z) (enc : nat -> Z -> bytes) (iv : S) (f : S -> bytes -> S) (msg : bytes) : S :=
  fold_left f (chunks B (md_pad B L enc msg)) iv.

(* words of n bytes, big- or little-endian, of a string *)
Definition be_words (n : Z) (b : bytes) : list Z := map be (chunks n b).
Definition le_words (n : Z) (b : bytes) : list Z := map le (chunks n b).

(* [extend next n W]: W followed by n words, each computed from the previous
   ones; [back W k] is the word k places from the end *)
Fixpoint extend (next : list Z -> Z) (n : nat) (W : list Z) : list Z :=
  match n with
  | O => W
  | S n => extend next n (W ++ [next W])
  end.
Definition back (W : list Z) (k : nat) : Z := nth (length W - k) W 0.

Definition add_words (w : Z) (a b : list Z) : list Z :=
  map (fun p => (fst p + snd p) mod 2 ^ w) (combine a b).

(* ---- logical functions, FIPS 180-4 section 4.1 ---- *)
Definition Ch (w x y z : Z) : Z := Z.lxor (Z.land x y) (Z.land (2 ^ w - 1 - x) z).
Definition Maj (x y z : Z) : Z := Z.lxor (Z.lxor (Z.land x y) (Z.land x z)) (Z.land y z).
Definition Parity (x y z : Z) : Z := Z.lxor (Z.lxor x y) z.

(* ---- SHA-1, section 6.1 ---- *)
(* K: square roots of 2, 3, 5, 10 *)
Definition sha1_K (t : nat) : Z :=
  Z.sqrt ((if (t <? 20)%nat then 2 else if (t <? 40)%nat then 3 else if (t <? 60)%nat then 5 else 10) * 2 ^ 60).
Definition sha1_f (t : nat) (x y z : Z) : Z :=
  if (t <? 20)%nat then Ch 32 x y z else if (t <? 40)%nat then Parity x y z
  else if (t <? 60)%nat then Maj x y z else Parity x y z.
Definition sha1_W (M : list Z) : list Z :=
  extend (fun W => rotl 32 1 (Z.lxor (Z.lxor (Z.lxor (back W 3) (back W 8)) (back W 14)) (back W 16))) 64 M.
Definition sha1_round (W : list Z) (v : Z * Z * Z * Z * Z) (t : nat) : Z * Z * Z * Z * Z :=
  let '(a, b, c, d, e) := v in
  ((rotl 32 5 a + sha1_f t b c d + e + sha1_K t + nth t W 0) mod 2 ^ 32, a, rotl 32 30 b, c, d).
Definition sha1_compress (H : list Z) (blk : bytes) : list Z :=
  let '(a, b, c, d, e) :=
    fold_left (sha1_round (sha1_W (be_words 4 blk))) (seq 0 80)
      (nth 0 H 0, nth 1 H 0, nth 2 H 0, nth 3 H 0, nth 4 H 0) in
  add_words 32 H [a; b; c; d; e].
Definition sha1_IV : list Z := [0x67452301; 0xEFCDAB89; 0x98BADCFE; 0x10325476; 0xC3D2E1F0].
Definition sha1 (msg : bytes) : bytes :=
  concat (map (to_be 4) (md_digest 64 8 to_be sha1_IV sha1_compress msg)).

(* ---- SHA-2, sections 6.2 to 6.5 ---- *)
Record sha2 := Sha2 {
  s2_w : Z; s2_rounds : nat;
  s2_S0 : Z -> Z; s2_S1 : Z -> Z; s2_s0 : Z -> Z; s2_s1 : Z -> Z;
  s2_K : list Z }.

Definition sha2_W (P : sha2) (M : list Z) : list Z :=
  extend (fun W => (s2_s1 P (back W 2) + back W 7 + s2_s0 P (back W 15) + back W 16) mod 2 ^ s2_w P)
    (s2_rounds P - 16) M.
Definition sha2_round (P : sha2) (W : list Z) (v : Z * Z * Z * Z * Z * Z * Z * Z) (t : nat)
    : Z * Z * Z * Z * Z * Z * Z * Z :=
  let '(a, b, c, d, e, f, g, h) := v in
  let T1 := h + s2_S1 P e + Ch (s2_w P) e f g + nth t (s2_K P) 0 + nth t W 0 in
  let T2 := s2_S0 P a + Maj a b c in
  ((T1 + T2) mod 2 ^ s2_w P, a, b, c, (d + T1) mod 2 ^ s2_w P, e, f, g).
Definition sha2_compress (P : sha2) (H : list Z) (blk : bytes) : list Z :=
  let '(a, b, c, d, e, f, g, h) :=
    fold_left (sha2_round P (sha2_W P (be_words (s2_w P / 8) blk))) (seq 0 (s2_rounds P))
      (nth 0 H 0, nth 1 H 0, nth 2 H 0, nth 3 H 0, nth 4 H 0, nth 5 H 0, nth 6 H 0, nth 7 H 0) in
  add_words (s2_w P) H [a; b; c; d; e; f; g; h].

(* constants: w bits of the fractional parts of the cube and square roots of
   the first primes, sections 4.2 and 5.3 *)
Definition cbrt (n : Z) : Z :=
  fold_left (fun r i => let r' := r + 2 ^ Z.of_nat i in if r' ^ 3 <=? n then r' else r)
    (rev (seq 0 (Z.to_nat (Z.log2 n / 3 + 1)))) 0.
Definition cbrt_frac (w p : Z) : Z := cbrt (p * 2 ^ (3 * w)) mod 2 ^ w.
Definition sqrt_frac (w p : Z) : Z := Z.sqrt (p * 2 ^ (2 * w)) mod 2 ^ w.
Definition is_prime (n : nat) : bool :=
  (2 <=? n)%nat && forallb (fun d => negb (n mod d =? 0)%nat) (seq 2 (n - 2)).
Definition primes : list Z := map Z.of_nat (filter is_prime (seq 0 410)).  (* the first 80 primes *)

Definition p256 : sha2 := {|
  s2_w := 32; s2_rounds := 64;
  s2_S0 := fun x => Z.lxor (Z.lxor (rotr 32 2 x) (rotr 32 13 x)) (rotr 32 22 x);
  s2_S1 := fun x => Z.lxor (Z.lxor (rotr 32 6 x) (rotr 32 11 x)) (rotr 32 25 x);
  s2_s0 := fun x => Z.lxor (Z.lxor (rotr 32 7 x) (rotr 32 18 x)) (x / 2 ^ 3);
  s2_s1 := fun x => Z.lxor (Z.lxor (rotr 32 17 x) (rotr 32 19 x)) (x / 2 ^ 10);
  s2_K := map (cbrt_frac 32) (firstn 64 primes) |}.
Definition p512 : sha2 := {|
  s2_w := 64; s2_rounds := 80;
  s2_S0 := fun x => Z.lxor (Z.lxor (rotr 64 28 x) (rotr 64 34 x)) (rotr 64 39 x);
  s2_S1 := fun x => Z.lxor (Z.lxor (rotr 64 14 x) (rotr 64 18 x)) (rotr 64 41 x);
  s2_s0 := fun x => Z.lxor (Z.lxor (rotr 64 1 x) (rotr 64 8 x)) (x / 2 ^ 7);
  s2_s1 := fun x => Z.lxor (Z.lxor (rotr 64 19 x) (rotr 64 61 x)) (x / 2 ^ 6);
  s2_K := map (cbrt_frac 64) primes |}.

Definition sha256_IV : list Z := map (sqrt_frac 32) (firstn 8 primes).
Definition sha512_IV : list Z := map (sqrt_frac 64) (firstn 8 primes).
(* SHA-384: 64 bits of the square roots of the ninth to sixteenth primes;
   SHA-224: the second 32 bits of these *)
Definition sha384_IV : list Z := map (sqrt_frac 64) (firstn 8 (skipn 8 primes)).
Definition sha224_IV : list Z := map (fun x => x mod 2 ^ 32) sha384_IV.

Definition sha2_digest (P : sha2) (iv : list Z) (len : nat) (msg : bytes) : bytes :=
  let wb := s2_w P / 8 in
  firstn len (concat (map (to_be (Z.to_nat wb)) (md_digest (16 * wb) (2 * wb) to_be iv (sha2_compress P) msg))).
Definition sha224 : bytes -> bytes := sha2_digest p256 sha224_IV 28.
Definition sha256 : bytes -> bytes := sha2_digest p256 sha256_IV 32.
Definition sha384 : bytes -> bytes := sha2_digest p512 sha384_IV 48.
Definition sha512 : bytes -> bytes := sha2_digest p512 sha512_IV 64.
