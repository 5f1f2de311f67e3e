(* The constructors of module MAC, and the keys and IVs they are documented to accept. *)
From Verif Require Import Prelude HashModel HashLib BlockModel CipherModel AesModel AesniModel DesModel MacModel SipModel Blake2Model Blake3Model.

(* The constructors of module MAC, cryptokit.ml 1441-1530, with their arguments other than
   the key; for HMAC the hash object and its block size.  ni: with the AES instructions. *)
Inductive mac_con :=
  | MAes (ni : bool) (iv : option bytes) (p : option scheme)
  | MDes (iv : option bytes) (p : option scheme)
  | MTriple (iv : option bytes) (p : option scheme)
  | MFinal (iv : option bytes) (p : option scheme)
  | MCmac (ni : bool) (iv : option bytes)
  | MSip (sz : Z) | MBlake2b (sz : Z) | MBlake2s (sz : Z) | MBlake3 (sz : Z)
  | MHmac (h : hobj) (blocksize : Z).
Definition mac_make (fresh : Z -> bytes) (c : mac_con) (key : bytes) : out hobj :=
  let aes (ni : bool) := if ni then new_aesni fresh else new_aes fresh in
  match c with
  | MAes ni iv p => block_mac fresh (aes ni Encrypt) iv p key
  | MDes iv p => block_mac fresh (new_des Encrypt) iv p key
  | MTriple iv p => block_mac fresh (new_triple_des Encrypt) iv p key
  | MFinal iv p => des_final_triple_des fresh new_des iv p key
  | MCmac ni iv => aes_cmac fresh (aes ni Encrypt) iv key
  | MSip sz => siphash_new fresh sz key
  | MBlake2b sz => blake2b_obj fresh sz key
  | MBlake2s sz => blake2s_obj fresh sz key
  | MBlake3 sz => blake3_obj key sz
  | MHmac h B => hmac_of h B key
  end.

(* ---- Specification: the keys and IVs documented in cryptokit.mli 806-965 (module MAC);
   the output size is checked together with the key ---- *)
Definition mac_key_allowed (c : mac_con) (key : bytes) : Prop :=
  match c with
  | MAes _ _ _ | MCmac _ _ => zlen key = 16 \/ zlen key = 24 \/ zlen key = 32
  | MDes _ _ => zlen key = 8
  | MTriple _ _ | MFinal _ _ => zlen key = 16 \/ zlen key = 24
  | MSip sz => zlen key = 16 /\ (sz = 64 \/ sz = 128)
  | MBlake2b sz => zlen key <= 64 /\ 8 <= sz <= 512 /\ sz mod 8 = 0
  | MBlake2s sz => zlen key <= 32 /\ 8 <= sz <= 256 /\ sz mod 8 = 0
  | MBlake3 sz => zlen key = 32 /\ 0 < sz /\ sz mod 8 = 0
  | MHmac _ _ => True
  end.
Definition mac_iv_allowed (c : mac_con) : Prop :=
  match c with
  | MAes _ iv _ | MCmac _ iv => match iv with Some v => zlen v = 16 | None => True end
  | MDes iv _ | MTriple iv _ | MFinal iv _ => match iv with Some v => zlen v = 8 | None => True end
  | _ => True
  end.
(* arguments are byte strings; HMAC is applied to a hash of the library *)
Definition mac_args_ok (fresh : Z -> bytes) (c : mac_con) : Prop :=
  match c with
  | MAes _ iv _ | MCmac _ iv | MDes iv _ | MTriple iv _ | MFinal iv _ => forall v, iv = Some v -> bytes_ok v
  | MHmac h B => exists d, hmac_hash fresh h d B
  | _ => True
  end.

