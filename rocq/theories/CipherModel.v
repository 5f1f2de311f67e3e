(* High-level entry points of module Cipher: cryptokit.ml 1343-1406. *)
From Verif Require Import Prelude BufOutModel TransformModel BlockModel.

Inductive dir := Encrypt | Decrypt.
Inductive chaining_mode := ECB | CBC | CFB (n : Z) | OFB (n : Z) | CTR | CTR_N (n : Z).

(* a block cipher object, a transform object *)
Record bobj := BObj { b_bc : block_cipher; b_st : bc_st b_bc }.
Record tobj := TObj { o_tr : transform; o_st : t_st o_tr }.

Section Cipher.
Variable fresh : Z -> bytes.

(* let chained_cipher = ... (cryptokit.ml 1356-1366) *)
Definition chain (mode : chaining_mode) (d : dir) (iv : option bytes) (c : bobj) : out bobj :=
  let C := b_bc c in
  let c0 := b_st c in
  let bs := bc_blocksize C in
  match mode, d with
  | ECB, _ => Ret c
  | CBC, Encrypt => olet s := mode_init fresh C 0 iv c0 in Ret (BObj (cbc_encrypt C) s)
  | CBC, Decrypt => olet s := mode_init fresh C 0 iv c0 in Ret (BObj (cbc_decrypt C) s)
  | CFB n, Encrypt => olet s := chunked_init fresh C n 0 iv c0 in Ret (BObj (cfb_encrypt C n) s)
  | CFB n, Decrypt => olet s := chunked_init fresh C n 0 iv c0 in Ret (BObj (cfb_decrypt C n) s)
  | OFB n, _ => olet s := chunked_init fresh C n 0 iv c0 in Ret (BObj (ofb C n) s)
  | CTR, _ => olet s := mode_init fresh C (ctr_max bs) iv c0 in Ret (BObj (ctr C bs) s)
  | CTR_N n, _ => olet s := chunked_init fresh C n (ctr_max n) iv c0 in Ret (BObj (ctr C n) s)
  end.

(* make_block_cipher, cryptokit.ml 1355-1372 *)
Definition make_block_cipher (mode : option chaining_mode) (padding : option scheme)
    (iv : option bytes) (d : dir) (c : bobj) : out tobj :=
  let m := match mode with Some m => m | None => CBC end in
  olet cc := chain m d iv c in
  let s := cipher_new fresh (b_bc cc) (b_st cc) in
  Ret (match padding with
       | None => TObj (cipher fresh (b_bc cc)) s
       | Some p =>
           match d with
           | Encrypt => TObj (cipher_padded_encrypt fresh (b_bc cc) p) s
           | Decrypt => TObj (cipher_padded_decrypt fresh (b_bc cc) p) s
           end
       end).

(* normalize_dir, cryptokit.ml 1374-1377 *)
Definition normalize_dir (mode : option chaining_mode) (d : dir) : dir :=
  match mode with
  | Some (CFB _) | Some (OFB _) | Some CTR | Some (CTR_N _) => Encrypt
  | _ => d
  end.

(* aes, blowfish, des, triple_des, cryptokit.ml 1379-1399: [new_block] is
   the class of the block cipher in the given direction *)
Definition make_cipher (new_block : dir -> bytes -> out bobj) (mode : option chaining_mode)
    (padding : option scheme) (iv : option bytes) (key : bytes) (d : dir) : out tobj :=
  olet c := new_block (normalize_dir mode d) key in
  make_block_cipher mode padding iv d c.
End Cipher.

(* transform_string tr s, for a transform object *)
Definition run_string (o : tobj) (s : bytes) : out bytes := snd (transform_string (o_tr o) (o_st o) s).
(* observations of a history of calls *)
Definition run_ops (o : tobj) (ops : list SpecTransducer.op) : list SpecTransducer.obs :=
  t_run (o_tr o) (o_st o) ops.
