(* Specification: RC4 and ChaCha20 as keystreams. *)
From Verif Require Import Prelude BytesNum Word SpecHash SpecMac.

(* keystream bytes n, n+1, ..., n+len-1, and data xored with them *)
Definition ks_bytes (ks : nat -> Z) (n len : nat) : bytes := map ks (seq n len).
Definition ks_xor (ks : nat -> Z) (n : nat) (l : bytes) : bytes :=
  map (fun p => Z.lxor (fst p) (snd p)) (combine l (ks_bytes ks n (length l))).

(* ---- RC4: a table of 256 bytes; swapping two of its entries ---- *)
Definition rc4_swap (T : list Z) (i j : Z) : list Z :=
  map (fun k => if Z.of_nat k =? i then nth (Z.to_nat j) T 0 else if Z.of_nat k =? j then nth (Z.to_nat i) T 0 else nth k T 0) (seq 0 256).
Definition rc4_at (T : list Z) (i : Z) : Z := nth (Z.to_nat i) T 0.
(* key scheduling *)
Definition rc4_ksa_step (key : bytes) (s : list Z * Z) (i : nat) : list Z * Z :=
  let j := (snd s + rc4_at (fst s) (Z.of_nat i) + nth (i mod length key) key 0) mod 256 in
  (rc4_swap (fst s) (Z.of_nat i) j, j).
Definition rc4_ksa (key : bytes) : list Z := fst (fold_left (rc4_ksa_step key) (seq 0 256) (map Z.of_nat (seq 0 256), 0)).
(* output: the table and the two indices *)
Definition rc4_next (s : list Z * Z * Z) : list Z * Z * Z :=
  let '(T, i, j) := s in
  let i := (i + 1) mod 256 in
  let j := (j + rc4_at T i) mod 256 in
  (rc4_swap T i j, i, j).
Definition rc4_out (s : list Z * Z * Z) : Z :=
  let '(T, i, j) := s in rc4_at T ((rc4_at T i + rc4_at T j) mod 256).
Definition rc4_state (key : bytes) (n : nat) : list Z * Z * Z := Nat.iter n rc4_next (rc4_ksa key, 0, 0).
(* keystream byte number n *)
Definition rc4 (key : bytes) (n : nat) : Z := rc4_out (rc4_state key (S n)).

(* ---- ChaCha20, RFC 8439 section 2, on a 4 x 4 matrix of words stored by rows ---- *)
Definition cc_add (a b : Z) : Z := (a + b) mod 2 ^ 32.
Definition quarter_round (v : Z * Z * Z * Z) : Z * Z * Z * Z :=
  let '(a, b, c, d) := v in
  let a := cc_add a b in let d := rotl 32 16 (Z.lxor d a) in
  let c := cc_add c d in let b := rotl 32 12 (Z.lxor b c) in
  let a := cc_add a b in let d := rotl 32 8 (Z.lxor d a) in
  let c := cc_add c d in let b := rotl 32 7 (Z.lxor b c) in
  (a, b, c, d).
Definition cc_column (x : list Z) (i : nat) : Z * Z * Z * Z := (nth i x 0, nth (4 + i) x 0, nth (8 + i) x 0, nth (12 + i) x 0).
(* a quarter round on each column *)
Definition column_round (x : list Z) : list Z :=
  let q := map (fun i => quarter_round (cc_column x i)) (seq 0 4) in
  map (fun v => fst (fst (fst v))) q ++ map (fun v => snd (fst (fst v))) q ++ map (fun v => snd (fst v)) q ++ map snd q.
(* row j rotated left by j places, and back: diagonals become columns *)
Definition cc_skew (x : list Z) : list Z := flat_map (fun j => map (fun i => nth (4 * j + (i + j) mod 4) x 0) (seq 0 4)) (seq 0 4).
Definition cc_unskew (x : list Z) : list Z := flat_map (fun j => map (fun i => nth (4 * j + (i + 4 - j) mod 4) x 0) (seq 0 4)) (seq 0 4).
Definition diagonal_round (x : list Z) : list Z := cc_unskew (column_round (cc_skew x)).
Definition chacha_rounds (x : list Z) : list Z := Nat.iter 10 (fun x => diagonal_round (column_round x)) x.
(* the initial matrix: the constant, the key (twice if it has 16 bytes), the counter, the
   IV.  The counter has the 4 or 8 bytes that a 12- or 8-byte IV leaves free. *)
Definition cc_constant (keylen : nat) : bytes :=
  if Nat.eqb keylen 32 then [101;120;112;97;110;100;32;51;50;45;98;121;116;101;32;107]  (* "expand 32-byte k" *)
  else [101;120;112;97;110;100;32;49;54;45;98;121;116;101;32;107].                      (* "expand 16-byte k" *)
Definition chacha_matrix (key : bytes) (ctr : Z) (iv : bytes) : list Z :=
  le_words 4 (cc_constant (length key) ++ (if Nat.eqb (length key) 32 then key else key ++ key) ++ to_le (16 - length iv) ctr ++ iv).
Definition chacha_block (key : bytes) (ctr : Z) (iv : bytes) : bytes :=
  let x := chacha_matrix key ctr iv in
  flat_map (to_le 4) (map (fun p => cc_add (fst p) (snd p)) (combine (chacha_rounds x) x)).
(* keystream byte number n, starting with block number ctr *)
Definition chacha20 (key : bytes) (ctr : Z) (iv : bytes) (n : nat) : Z :=
  nth (n mod 64) (chacha_block key (ctr + Z.of_nat (n / 64)) iv) 0.
