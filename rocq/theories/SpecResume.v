(* Continuing a message with a second object: which IV it must be given. *)
From Verif Require Import Prelude SpecModes CipherModel.

(* the last n bytes *)
Definition last_bytes (n : Z) (s : bytes) : bytes := skipn (length s - Z.to_nat n) s.

(* OFB keeps a whole block of keystream, of which the caller sees n bytes *)
Definition resumable (bs : Z) (m : chaining_mode) : Prop := match m with OFB n => n = bs | _ => True end.

(* the IV for what follows, from the first IV, the bytes given so far and the bytes obtained:
   the end of the ciphertext (CBC, CFB), the end of the keystream (OFB), or the counter after
   the blocks done (CTR) *)
Definition next_iv (bs : Z) (m : chaining_mode) (d : dir) (iv given got : bytes) : bytes :=
  let c := match d with Encrypt => got | Decrypt => given end in
  match m with
  | ECB => iv
  | CBC | CFB _ => last_bytes bs (iv ++ c)
  | OFB _ => last_bytes bs (iv ++ xorb given got)
  | CTR => ctr_block (Z.to_nat bs) iv (zlen given / bs)
  | CTR_N n => ctr_block (Z.to_nat n) iv (zlen given / bs)
  end.
