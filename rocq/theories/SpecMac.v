(* Specification of HMAC (RFC 2104), CBC-MAC, CMAC (NIST SP 800-38B) and
   SipHash (Aumasson and Bernstein 2012).  Independent of the cryptokit
   model. *)
From Verif Require Import Prelude BytesNum SpecBlock SpecModes SpecHash Word.

(* ---- HMAC, RFC 2104 section 2 ---- *)
(* the key padded with zeros to B bytes, hashed first if longer than B *)
Definition hmac_key (d : bytes -> bytes) (B : Z) (key : bytes) : bytes :=
  let k := if zlen key >? B then d key else key in k ++ zeros (B - zlen k).
Definition hmac_spec (d : bytes -> bytes) (B : Z) (key m : bytes) : bytes :=
  let k0 := hmac_key d B key in
  let ipad := repeat 0x36 (Z.to_nat B) in
  let opad := repeat 0x5C (Z.to_nat B) in
  d (xorb k0 opad ++ d (xorb k0 ipad ++ m)).

(* ---- CBC-MAC ---- *)
(* the last block of the CBC encryption of the blocks X (the IV if there is
   none), see cbc_mac_last in Mac.v *)
Definition cbc_mac (E : bytes -> bytes) (iv : bytes) (X : list bytes) : bytes :=
  fold_left (fun c b => E (xorb b c)) X iv.

(* ---- CMAC, SP 800-38B sections 5.3, 6.1, 6.2, for blocks of 128 bits ---- *)
(* multiplication by x in GF(2^128) modulo x^128 + x^7 + x^2 + x + 1 *)
Definition gf_double (x : Z) : Z :=
  if x <? 2 ^ 127 then 2 * x else Z.lxor (2 * x) (2 ^ 128 + 0x87).
Definition cmac_K1 (E : bytes -> bytes) : bytes := to_be 16 (gf_double (be (E (zeros 16)))).
Definition cmac_K2 (E : bytes -> bytes) : bytes := to_be 16 (gf_double (gf_double (be (E (zeros 16))))).
Definition cmac_last (E : bytes -> bytes) (b : bytes) : bytes :=
  if zlen b =? 16 then xorb b (cmac_K1 E)
  else xorb (b ++ [128] ++ zeros (15 - zlen b)) (cmac_K2 E).
Definition cmac_spec (E : bytes -> bytes) (iv m : bytes) : bytes :=
  let M := chunks 16 m in
  cbc_mac E iv (removelast M ++ [cmac_last E (last M [])]).

(* ---- SipHash-c-d with c = 2, d = 4 ---- *)
Definition sip_state := (Z * Z * Z * Z)%type.
Definition sip_round (v : sip_state) : sip_state :=
  let '(v0, v1, v2, v3) := v in
  let v0 := (v0 + v1) mod 2 ^ 64 in           let v2 := (v2 + v3) mod 2 ^ 64 in
  let v1 := rotl 64 13 v1 in                  let v3 := rotl 64 16 v3 in
  let v1 := Z.lxor v1 v0 in                   let v3 := Z.lxor v3 v2 in
  let v0 := rotl 64 32 v0 in
  let v2 := (v2 + v1) mod 2 ^ 64 in           let v0 := (v0 + v3) mod 2 ^ 64 in
  let v1 := rotl 64 17 v1 in                  let v3 := rotl 64 21 v3 in
  let v1 := Z.lxor v1 v2 in                   let v3 := Z.lxor v3 v0 in
  let v2 := rotl 64 32 v2 in
  (v0, v1, v2, v3).
Definition sip_compress (v : sip_state) (m : Z) : sip_state :=
  let '(v0, v1, v2, v3) := v in
  let '(v0, v1, v2, v3) := Nat.iter 2 sip_round (v0, v1, v2, Z.lxor v3 m) in
  (Z.lxor v0 m, v1, v2, v3).
(* the message, zeros up to the last byte of a word, which is the length
   modulo 256 *)
Definition sip_pad (m : bytes) : bytes := m ++ zeros ((- (zlen m + 1)) mod 8) ++ [zlen m mod 256].
Definition sip_xor (v : sip_state) : Z :=
  let '(v0, v1, v2, v3) := v in Z.lxor (Z.lxor (Z.lxor v0 v1) v2) v3.
(* "somepseudorandomlygeneratedbytes" *)
Definition sip_init (key : bytes) : sip_state :=
  let k0 := le (firstn 8 key) in
  let k1 := le (skipn 8 key) in
  (Z.lxor k0 0x736f6d6570736575, Z.lxor k1 0x646f72616e646f6d,
   Z.lxor k0 0x6c7967656e657261, Z.lxor k1 0x7465646279746573).
Definition siphash64 (key m : bytes) : bytes :=
  let '(v0, v1, v2, v3) := fold_left sip_compress (le_words 8 (sip_pad m)) (sip_init key) in
  to_le 8 (sip_xor (Nat.iter 4 sip_round (v0, v1, Z.lxor v2 0xff, v3))).
(* the variant with 128 bits of output: v1 is first xored with ee; then v2 is
   xored with ee instead of ff; the second word is extracted after xoring v1
   with dd and four more rounds *)
Definition siphash128 (key m : bytes) : bytes :=
  let '(v0, v1, v2, v3) := sip_init key in
  let '(v0, v1, v2, v3) := fold_left sip_compress (le_words 8 (sip_pad m)) (v0, Z.lxor v1 0xee, v2, v3) in
  let w := Nat.iter 4 sip_round (v0, v1, Z.lxor v2 0xee, v3) in
  let '(w0, w1, w2, w3) := w in
  to_le 8 (sip_xor w) ++ to_le 8 (sip_xor (Nat.iter 4 sip_round (w0, Z.lxor w1 0xdd, w2, w3))).
