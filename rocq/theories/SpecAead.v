(* AES-GCM (NIST SP 800-38D) and ChaCha20-Poly1305 (RFC 8439 section 2.8).
   Independent of the cryptokit model.  Lengths in bytes. *)
From Verif Require Import Prelude BytesNum SpecBlock SpecGhash SpecStream SpecPoly.

(* zero bytes up to a multiple of 16 *)
Definition pad16 (x : bytes) : bytes := x ++ zeros ((- zlen x) mod 16).

(* SP 800-38D 6.2: increment the rightmost 32 bits of a block *)
Definition inc32 (b : bytes) : bytes := firstn 12 b ++ to_be 4 ((be (skipn 12 b) + 1) mod 2 ^ 32).
(* 6.5: GCTR on a sequence of blocks, of which the last may be partial *)
Fixpoint gctr_blocks (E : bytes -> bytes) (cb : bytes) (X : list bytes) : list bytes :=
  match X with
  | [] => []
  | x :: X' => xorb x (firstn (length x) (E cb)) :: gctr_blocks E (inc32 cb) X'
  end.
Definition gctr (E : bytes -> bytes) (icb X : bytes) : bytes := concat (gctr_blocks E icb (chunks 16 X)).
(* 6.4: GHASH of a string of whole blocks *)
Definition ghash_str (H X : bytes) : bytes := ghash H (chunks 16 X).

(* 7.1, Algorithm 4, steps 1 to 6, tags of 16 bytes *)
Definition gcm_H (E : bytes -> bytes) : bytes := E (zeros 16).
Definition gcm_J0 (E : bytes -> bytes) (iv : bytes) : bytes :=
  if zlen iv =? 12 then iv ++ [0; 0; 0; 1]
  else ghash_str (gcm_H E) (pad16 iv ++ zeros 8 ++ to_be 8 (8 * zlen iv)).
Definition gcm_C (E : bytes -> bytes) (iv P : bytes) : bytes := gctr E (inc32 (gcm_J0 E iv)) P.
(* the tag of header A and ciphertext C *)
Definition gcm_T (E : bytes -> bytes) (iv A C : bytes) : bytes :=
  gctr E (gcm_J0 E iv)
    (ghash_str (gcm_H E) (pad16 A ++ pad16 C ++ to_be 8 (8 * zlen A) ++ to_be 8 (8 * zlen C))).
(* 5.2.1.1: len(P) <= 2^39 - 256 bits *)
Definition gcm_max : Z := 2 ^ 36 - 32.

(* RFC 8439 2.8: the one-time Poly1305 key is the beginning of the keystream
   block of counter 0 (2.6); encryption starts at counter 1 *)
Definition aead_key (key iv : bytes) : bytes := firstn 32 (chacha_block key 0 iv).
Definition aead_C (key iv P : bytes) : bytes := ks_xor (chacha20 key 1 iv) 0 P.
Definition aead_T (key iv A C : bytes) : bytes :=
  poly1305 (aead_key key iv) (pad16 A ++ pad16 C ++ to_le 8 (zlen A) ++ to_le 8 (zlen C)).
