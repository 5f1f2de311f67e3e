(* Poly1305, RFC 8439 section 2.5.  Independent of the cryptokit model. *)
From Verif Require Import Prelude BytesNum SpecBlock.

Definition p1305 : Z := 2 ^ 130 - 5.
(* 2.5: r is the first half of the key, little endian, clamped *)
Definition poly_r (key : bytes) : Z := Z.land (le (sub key 0 16)) 0x0ffffffc0ffffffc0ffffffc0fffffff.
Definition poly_s (key : bytes) : Z := le (sub key 16 16).
(* 2.5.1: each block of 16 bytes or less, with a byte 1 added, is a number *)
Definition poly_step (r acc : Z) (block : bytes) : Z := ((acc + le (block ++ [1])) * r) mod p1305.
Definition poly1305 (key msg : bytes) : bytes :=
  let acc := fold_left (poly_step (poly_r key)) (chunks 16 msg) 0 in
  to_le 16 ((acc + poly_s key) mod 2 ^ 128).
