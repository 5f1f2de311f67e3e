(* Model: siphash.c, stubs-siphash.c and class MAC.siphash. *)
From Verif Require Import Prelude Word WordIO HashModel MdModel.

(* struct siphash, siphash.h 16-21 *)
Record sip := Sip { sv : Z * Z * Z * Z; sbuf : bytes; sused : Z; slen8 : Z }.

Definition sip_load (p : bytes) : Z := load_le 64 8 p.        (* U8TO64_LE, siphash.c 30-39 *)
(* U64TO8_LE, siphash.c 41-50 *)
Definition sip_store (v : Z) : bytes := map (fun i => Z.shiftr v (8 * Z.of_nat i) mod 256) (seq 0 8).

(* siphash_round, siphash.c 69-85 *)
Definition c_sip_round (v : Z * Z * Z * Z) : Z * Z * Z * Z :=
  let '(v0, v1, v2, v3) := v in
  let v0 := c_add 64 v0 v1 in
  let v1 := c_rol 64 v1 13 in
  let v1 := Z.lxor v1 v0 in
  let v0 := c_rol 64 v0 32 in
  let v2 := c_add 64 v2 v3 in
  let v3 := c_rol 64 v3 16 in
  let v3 := Z.lxor v3 v2 in
  let v0 := c_add 64 v0 v3 in
  let v3 := c_rol 64 v3 21 in
  let v3 := Z.lxor v3 v0 in
  let v2 := c_add 64 v2 v1 in
  let v1 := c_rol 64 v1 17 in
  let v1 := Z.lxor v1 v2 in
  let v2 := c_rol 64 v2 32 in
  (v0, v1, v2, v3).
(* siphash_mix, siphash.c 87-93 *)
Definition c_sip_mix (v : Z * Z * Z * Z) (x : Z) : Z * Z * Z * Z :=
  let '(v0, v1, v2, v3) := v in
  let '(v0, v1, v2, v3) := c_sip_round (c_sip_round (v0, v1, v2, Z.lxor v3 x)) in
  (Z.lxor v0 x, v1, v2, v3).

(* siphash_init, siphash.c 52-67; the buffer has arbitrary contents *)
Definition c_sip_init (fresh : Z -> bytes) (key : bytes) (outlen : Z) : sip :=
  let k0 := sip_load key in
  let k1 := sip_load (skipn 8 key) in
  let v1 := Z.lxor 0x646f72616e646f6d k1 in
  Sip (Z.lxor 0x736f6d6570736575 k0, if outlen =? 16 then Z.lxor v1 0xEE else v1,
       Z.lxor 0x6c7967656e657261 k0, Z.lxor 0x7465646279746573 k1) (fresh 8) 0 0.

(* while (len >= SIPHASH_BUFLEN), siphash.c 112-116, then 117-118 *)
Fixpoint c_sip_loop (fuel : nat) (v : Z * Z * Z * Z) (buf p : bytes) : out (Z * Z * Z * Z * bytes * Z) :=
  match fuel with
  | O => Hang
  | S f =>
      if zlen p >=? 8 then c_sip_loop f (c_sip_mix v (sip_load p)) buf (skipn 8 p)
      else olet b := (if zlen p >? 0 then c_memcpy buf 0 p else Ret buf) in Ret (v, b, zlen p)
  end.
(* siphash_add, siphash.c 95-119 *)
Definition c_sip_add (s : sip) (p : bytes) : out sip :=
  let used := sused s in
  let free := 8 - used in
  let len8 := (slen8 s + zlen p) mod 256 in
  if zlen p <? free then
    olet b := c_memcpy (sbuf s) used p in Ret (Sip (sv s) b (used + zlen p) len8)
  else
    olet r := (if used >? 0 then
                 olet b := c_memcpy (sbuf s) used (firstn (Z.to_nat free) p) in
                 Ret (c_sip_mix (sv s) (sip_load b), b, skipn (Z.to_nat free) p)
               else Ret (sv s, sbuf s, p)) in
    let '(v, b, p) := r in
    olet r := c_sip_loop (S (length p)) v b p in
    let '(v, b, u) := r in
    Ret (Sip v b u len8).

(* siphash_final_rounds, siphash.c 121-127 *)
Definition c_final_rounds (v : Z * Z * Z * Z) : (Z * Z * Z * Z) * Z :=
  let v := c_sip_round (c_sip_round (c_sip_round (c_sip_round v))) in
  let '(v0, v1, v2, v3) := v in (v, Z.lxor (Z.lxor (Z.lxor v0 v1) v2) v3).
(* the last word, siphash.c 134-145: bytes of buffer below len8 & 7, from the
   top down *)
Definition c_last_word (s : sip) : Z :=
  fold_right (fun i w => Z.lor w (c_shl 64 (nth i (sbuf s) 0) (8 * Z.of_nat i)))
    (c_shl 64 (slen8 s) 56) (seq 0 (Z.to_nat (Z.land (slen8 s) 7))).
(* siphash_final, siphash.c 129-154 *)
Definition c_sip_final (outlen : Z) (s : sip) : sip * out bytes :=
  let '(v0, v1, v2, v3) := c_sip_mix (sv s) (c_last_word s) in
  let v2 := Z.lxor v2 (if outlen =? 16 then 0xEE else 0xFF) in
  let '(v, x) := c_final_rounds (v0, v1, v2, v3) in
  if outlen =? 16 then
    let '(v0, v1, v2, v3) := v in
    let '(v, y) := c_final_rounds (v0, Z.lxor v1 0xDD, v2, v3) in
    (Sip v (sbuf s) (sused s) (slen8 s), Ret (sip_store x ++ sip_store y))
  else (Sip v (sbuf s) (sused s) (slen8 s), Ret (sip_store x)).

(* class siphash, cryptokit.ml 1505-1527: wipe_bytes overwrites the context
   with zeros *)
Definition siphash_class (sz : Z) : hash :=
  c_hash sip (sz / 8) c_sip_add (c_sip_final (sz / 8)) (fun _ => Sip (0, 0, 0, 0) (zeros 8) 0 0).
Definition siphash_new (fresh : Z -> bytes) (sz : Z) (key : bytes) : out hobj :=
  if (zlen key =? 16) && ((sz =? 64) || (sz =? 128))
  then Ret (HObj (siphash_class sz) (c_sip_init fresh key (sz / 8)))
  else Raise (Error Wrong_key_size).
