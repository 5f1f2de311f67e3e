(* C100: the functions of module Hash that take the size of the digest, in bits *)
From Verif Require Import Prelude SpecHash SpecKeccak SpecBlake2 SpecBlake3 HashModel ShaModel KeccakModel Blake2Model Blake3Model.

Inductive family := FSha2 | FSha3 | FKeccak | FBlake2b | FBlake2s | FBlake3.
(* the sizes of cryptokit.mli 720-770 *)
Definition size_allowed (f : family) (sz : Z) : Prop :=
  match f with
  | FSha2 | FSha3 | FKeccak => In sz [224; 256; 384; 512]
  | FBlake2b => 8 <= sz <= 512 /\ sz mod 8 = 0
  | FBlake2s => 8 <= sz <= 256 /\ sz mod 8 = 0
  | FBlake3 => 0 < sz /\ sz mod 8 = 0
  end.
(* the function of the standard that has this size *)
Definition digest_of (f : family) (sz : Z) : bytes -> bytes :=
  match f with
  | FSha2 => if sz =? 224 then sha224 else if sz =? 256 then sha256 else if sz =? 384 then sha384 else sha512
  | FSha3 => sha3_spec sz
  | FKeccak => keccak_spec sz
  | FBlake2b => blake2b_spec (sz / 8) []
  | FBlake2s => blake2s_spec (sz / 8) []
  | FBlake3 => blake3_spec [] (sz / 8)
  end.
(* Hash.sha2, Hash.sha3, Hash.keccak, Hash.blake2b, Hash.blake2s, Hash.blake3: cryptokit.ml 1186-1192, 1216, 1218, 1286, 1311, 1336 *)
Definition hash_by_size (fresh : Z -> bytes) (f : family) (sz : Z) : out hobj :=
  match f with
  | FSha2 => sha2_obj fresh sz
  | FSha3 => sha3_obj fresh sz
  | FKeccak => keccak_obj fresh sz
  | FBlake2b => blake2b_obj fresh sz []
  | FBlake2s => blake2s_obj fresh sz []
  | FBlake3 => blake3_obj [] sz
  end.
