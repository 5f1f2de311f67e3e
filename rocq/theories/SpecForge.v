(* Vocabulary of C94 and C95. *)
From Verif Require Import Prelude BlockModel CipherModel EncModel PolyModel AuthModel AeadModel.

(* number of blocks of 16 bytes that the authenticators process for a header and a ciphertext: both
   padded, and the lengths *)
Definition auth_blocks (header c : bytes) : Z := (zlen header + 15) / 16 + (zlen c + 15) / 16 + 1.

(* the decryption object for this key, IV and header returns a plaintext for str *)
Definition chapoly_accepts (fresh : Z -> bytes) (P : poly_impl) (key iv header str : bytes) : Prop :=
  exists o p, chacha20_poly1305 fresh P header iv key Decrypt = Ret o /\ auth_check o str = Ret (Some p).
Definition gcm_accepts (fresh : Z -> bytes) (accel : bool) (nb : bytes -> out bobj) (key iv header str : bytes) : Prop :=
  exists o p, aes_gcm fresh accel nb header iv key Decrypt = Ret o /\ auth_check o str = Ret (Some p).
