(* Vocabulary for C109: continuing a hash computation from its result. *)
From Verif Require Import Prelude BytesNum SpecBlock Word SpecHash SpecRipemd.

(* what the padding of FIPS 180-4 (5.1) adds to a message of n bytes *)
Definition md_tail (B L : Z) (enc : nat -> Z -> bytes) (n : Z) : bytes :=
  [128] ++ zeros ((- (n + 1 + L)) mod B) ++ enc (Z.to_nat L) (8 * n).

(* The message of n bytes, of which only n and the digest d are known, has been continued by its
   padding and by x: the rest of the computation. *)
Definition continued (B L : Z) (enc : nat -> Z -> bytes) (f : list Z -> bytes -> list Z)
    (words : bytes -> list Z) (d : bytes) (n : Z) (x : bytes) : list Z :=
  fold_left f (chunks B (x ++ md_tail B L enc (n + zlen (md_tail B L enc n) + zlen x))) (words d).

Definition pad64 : Z -> bytes := md_tail 64 8 to_be.
Definition pad128 : Z -> bytes := md_tail 128 16 to_be.
Definition pad64_le : Z -> bytes := md_tail 64 8 to_le.
Definition continue_sha1 (d : bytes) (n : Z) (x : bytes) : bytes :=
  concat (map (to_be 4) (continued 64 8 to_be sha1_compress (be_words 4) d n x)).
Definition continue_sha256 (d : bytes) (n : Z) (x : bytes) : bytes :=
  concat (map (to_be 4) (continued 64 8 to_be (sha2_compress p256) (be_words 4) d n x)).
Definition continue_sha512 (d : bytes) (n : Z) (x : bytes) : bytes :=
  concat (map (to_be 8) (continued 128 16 to_be (sha2_compress p512) (be_words 8) d n x)).
Definition continue_ripemd160 (d : bytes) (n : Z) (x : bytes) : bytes :=
  concat (map (to_le 4) (continued 64 8 to_le rmd160_compress (le_words 4) d n x)).
