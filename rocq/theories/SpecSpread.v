(* How far a changed block of ciphertext spreads in the decrypted text. *)
From Verif Require Import Prelude CipherModel CipherSpec.

(* number of the following blocks that a block of ciphertext has an effect on: none, the
   next one in CBC, and in CFB those whose input still holds a byte of it *)
Definition reach (bs : Z) (m : chaining_mode) : Z :=
  match m with CBC => 1 | CFB n => (bs + n - 1) / n | _ => 0 end.
(* the modes whose decryption forgets the IV *)
Definition forgets (m : chaining_mode) : Prop := match m with ECB | CBC | CFB _ => True | _ => False end.
(* block number j of a string cut into blocks of n bytes *)
Definition block_at (n : Z) (s : bytes) (j : Z) : bytes := sub s (n * j) n.
