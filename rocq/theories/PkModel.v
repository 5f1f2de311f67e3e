(* modules RSA, Paillier and DH, cryptokit.ml 1955-2236. *)
From Verif Require Import Prelude BytesNum HashModel HashSpec ShaModel RngModel BnModel.

(* ------------------------------------------------------------------ *)
(* RSA keys, cryptokit.ml 1957-1972 *)
Record rsa_public := RsaPub { rp_size : Z; rp_n : bytes; rp_e : bytes }.
Record rsa_private := RsaPriv { rk_size : Z; rk_n : bytes; rk_d : bytes; rk_p : bytes; rk_q : bytes; rk_dp : bytes; rk_dq : bytes; rk_qinv : bytes }.
(* wipe_key, cryptokit.ml 1974-1981 *)
Definition rsa_wipe_key (k : rsa_private) : rsa_private :=
  let w := map (fun _ : Z => 0) in
  RsaPriv (rk_size k) (w (rk_n k)) (w (rk_d k)) (w (rk_p k)) (w (rk_q k)) (w (rk_dp k)) (w (rk_dq k)) (w (rk_qinv k)).
(* encrypt and unwrap_signature, cryptokit.ml 1983-1993 *)
Definition rsa_encrypt (key : rsa_public) (msg : bytes) : out bytes :=
  let m := bn_of_bytes msg in let n := bn_of_bytes (rp_n key) in let e := bn_of_bytes (rp_e key) in
  if m >=? n then Raise (Error Message_too_long) else
  olet r := bn_mod_power m e n in bn_to_bytes (Some (rp_size key)) r.
Definition rsa_unwrap_signature := rsa_encrypt.
(* decrypt and sign, cryptokit.ml 1995-2005 *)
Definition rsa_decrypt (key : rsa_private) (msg : bytes) : out bytes :=
  let m := bn_of_bytes msg in let n := bn_of_bytes (rk_n key) in let d := bn_of_bytes (rk_d key) in
  if m >=? n then Raise (Error Message_too_long) else
  olet r := bn_mod_power m d n in bn_to_bytes (Some (rk_size key)) r.
Definition rsa_sign := rsa_decrypt.
(* decrypt_CRT and sign_CRT, cryptokit.ml 2007-2022 *)
Definition rsa_decrypt_CRT (key : rsa_private) (msg : bytes) : out bytes :=
  let m := bn_of_bytes msg in let n := bn_of_bytes (rk_n key) in
  if m >=? n then Raise (Error Message_too_long) else
  olet r := bn_mod_power_CRT m (bn_of_bytes (rk_p key)) (bn_of_bytes (rk_q key)) (bn_of_bytes (rk_dp key)) (bn_of_bytes (rk_dq key)) (bn_of_bytes (rk_qinv key)) in
  bn_to_bytes (Some (rk_size key)) r.
Definition rsa_sign_CRT := rsa_decrypt_CRT.

Section Keys.
Variable fresh : Z -> bytes.
Variable R : rng.
Variable nextprime : Z -> Z.
(* [fuel] bounds every loop that waits for suitable random numbers *)
(* gen_factor, cryptokit.ml 2030-2037 *)
Fixpoint gen_factor (fuel : nat) (s : r_st R) (e : option Z) (nbits : Z) : r_st R * out Z :=
  match fuel with
  | O => (s, Hang)
  | S f =>
    let! (s, n) := bn_random_prime fresh R nextprime fuel s nbits in
    match e with
    | None => (s, Ret n)
    | Some e => if bn_relative_prime (n - 1) e then (s, Ret n) else gen_factor f s (Some e) nbits
    end
  end.
(* gen_factors, cryptokit.ml 2039-2044.  [let p = .. and q = ..]: the order of evaluation
   is not specified; q is computed first by the compilers, which does not matter here. *)
Fixpoint gen_factors (fuel : nat) (s : r_st R) (e : option Z) (nbits : Z) : r_st R * out (Z * Z) :=
  match fuel with
  | O => (s, Hang)
  | S f =>
    let! (s, q) := gen_factor fuel s e nbits in
    let! (s, p) := gen_factor fuel s e nbits in
    if p =? q then gen_factors f s e nbits else
    if p <? q then (s, Ret (q, p)) else (s, Ret (p, q))
  end.
(* gen_exponent, cryptokit.ml 2055-2060 *)
Fixpoint gen_exponent (fuel : nat) (s : r_st R) (numbits p1 q1 : Z) : r_st R * out Z :=
  match fuel with
  | O => (s, Hang)
  | S f =>
    let! (s, n) := bn_random fresh R s false numbits in
    if bn_relative_prime n p1 && bn_relative_prime n q1 then (s, Ret n) else gen_exponent f s numbits p1 q1
  end.
(* new_key, cryptokit.ml 2024-2087 *)
Definition rsa_new_key (fuel : nat) (s : r_st R) (e : option Z) (numbits : Z) : r_st R * out (rsa_private * rsa_public) :=
  if (numbits <? 32) || (Z.land numbits 1 >? 0) then (s, Raise (Error Wrong_key_size)) else
  let numbits2 := Z.quot numbits 2 in
  let! (s, pq) := gen_factors fuel s e numbits2 in
  let p := fst pq in let q := snd pq in
  let p1 := p - 1 in let q1 := q - 1 in
  let! (s, e) := match e with Some e => (s, Ret e) | None => gen_exponent fuel s numbits p1 q1 end in
  let n := p * q in
  (s,
   olet d := z_invert e (p1 * q1) in
   olet dp := z_rem d p1 in
   olet dq := z_rem d q1 in
   olet qinv := z_invert q p in
   olet bn := bn_to_bytes (Some numbits) n in
   olet bd := bn_to_bytes (Some numbits) d in
   olet bp := bn_to_bytes (Some numbits2) p in
   olet bq := bn_to_bytes (Some numbits2) q in
   olet bdp := bn_to_bytes (Some numbits2) dp in
   olet bdq := bn_to_bytes (Some numbits2) dq in
   olet bqinv := bn_to_bytes (Some numbits2) qinv in
   olet be := bn_to_bytes (Some numbits) e in
   Ret (RsaPriv numbits bn bd bp bq bdp bdq bqinv, RsaPub numbits bn be)).

(* ------------------------------------------------------------------ *)
(* Paillier keys, cryptokit.ml 2093-2108 *)
Record pai_public := PaiPub { pp_size : Z; pp_n : bytes; pp_n2 : bytes; pp_g : bytes }.
Record pai_private := PaiPriv { pk_size : Z; pk_n : bytes; pk_n2 : bytes; pk_p : bytes; pk_q : bytes; pk_lambda : bytes; pk_mu : bytes }.
(* get_r, cryptokit.ml 2119-2122 *)
Fixpoint pai_get_r (fuel : nat) (s : r_st R) (key : pai_public) : r_st R * out bytes :=
  match fuel with
  | O => (s, Hang)
  | S f =>
    let! (s, r) := bn_random fresh R s false (pp_size key - 1) in
    if bn_relative_prime r (bn_of_bytes (pp_n key)) && (r <? bn_of_bytes (pp_n key)) then (s, bn_to_bytes None r)
    else pai_get_r f s key
  end.
(* encrypt, cryptokit.ml 2118-2126 *)
Definition pai_encrypt (fuel : nat) (s : r_st R) (key : pai_public) (msg : bytes) : r_st R * out bytes :=
  let! (s, r) := pai_get_r fuel s key in
  (s, olet gm := mod_power (pp_g key) msg (pp_n2 key) in
      olet rn := mod_power r (pp_n key) (pp_n2 key) in
      mod_mult gm rn (pp_n2 key)).
(* decrypt, cryptokit.ml 2128-2140 *)
Definition pai_decrypt (key : pai_private) (c : bytes) : out bytes :=
  let n := bn_of_bytes (pk_n key) in
  olet cn := bn_mod_power (bn_of_bytes c) (bn_of_bytes (pk_lambda key)) (bn_of_bytes (pk_n2 key)) in
  olet lx := z_div (cn - 1) n in
  olet m := z_rem (lx * bn_of_bytes (pk_mu key)) n in
  bn_to_bytes None m.
(* add, cryptokit.ml 2142-2143 *)
Definition pai_add (key : pai_public) (c1 c2 : bytes) : out bytes := mod_mult c1 c2 (pp_n2 key).
(* gen_factors, cryptokit.ml 2149-2158 *)
Fixpoint pai_gen_factors (fuel : nat) (s : r_st R) (nbits : Z) : r_st R * out (Z * Z) :=
  match fuel with
  | O => (s, Hang)
  | S f =>
    let! (s, q) := bn_random_prime fresh R nextprime fuel s nbits in
    let! (s, p) := bn_random_prime fresh R nextprime fuel s nbits in
    if p =? q then pai_gen_factors f s nbits else
    if bn_relative_prime (p * q) ((p - 1) * (q - 1)) then (s, Ret (p, q)) else pai_gen_factors f s nbits
  end.
(* new_key, cryptokit.ml 2145-2183 *)
Definition pai_new_key (fuel : nat) (s : r_st R) (numbits : Z) : r_st R * out (pai_private * pai_public) :=
  if (numbits <? 32) || (Z.land numbits 1 >? 0) then (s, Raise (Error Wrong_key_size)) else
  let numbits2 := Z.quot numbits 2 in
  let! (s, pq) := pai_gen_factors fuel s numbits2 in
  let p := fst pq in let q := snd pq in
  let p1 := p - 1 in let q1 := q - 1 in
  let n := p * q in
  let lambda := Z.lcm p1 q1 in
  (s,
   olet mu := z_invert lambda n in
   olet bn := bn_to_bytes (Some numbits) n in
   olet bn2 := bn_to_bytes None (n * n) in
   olet bp := bn_to_bytes (Some numbits2) p in
   olet bq := bn_to_bytes (Some numbits2) q in
   olet bl := bn_to_bytes None lambda in
   olet bmu := bn_to_bytes None mu in
   olet bg := bn_to_bytes None (n + 1) in
   Ret (PaiPriv numbits bn bn2 bp bq bl bmu, PaiPub numbits bn bn2 bg)).

(* ------------------------------------------------------------------ *)
(* Diffie-Hellman, cryptokit.ml 2189-2236 *)
Record dh_params := DhParams { dh_p : bytes; dh_g : bytes; dh_privlen : Z }.
(* find_generator, cryptokit.ml 2199-2201 *)
Fixpoint dh_find_generator (fuel : nat) (s : r_st R) (numbits : Z) : r_st R * out Z :=
  match fuel with
  | O => (s, Hang)
  | S f =>
    let! (s, g) := bn_random fresh R s false (numbits - 1) in
    if g <=? 1 then dh_find_generator f s numbits else (s, Ret g)
  end.
(* new_parameters, cryptokit.ml 2196-2206 *)
Definition dh_new_parameters (fuel : nat) (s : r_st R) (privlen numbits : Z) : r_st R * out dh_params :=
  if (numbits <? 32) || (numbits <=? privlen) then (s, Raise (Error Wrong_key_size)) else
  let! (s, np) := bn_random_prime fresh R nextprime fuel s numbits in
  let! (s, ng) := dh_find_generator fuel s numbits in
  (s, olet bp := bn_to_bytes (Some numbits) np in
      olet bg := bn_to_bytes (Some numbits) ng in
      Ret (DhParams bp bg privlen)).
(* private_secret, cryptokit.ml 2209-2210.  A private secret is a big integer. *)
Definition dh_private_secret (s : r_st R) (params : dh_params) : r_st R * out Z :=
  bn_random fresh R s false (dh_privlen params).
(* message, cryptokit.ml 2212-2214 *)
Definition dh_message (params : dh_params) (privsec : Z) : out bytes :=
  olet r := bn_mod_power (bn_of_bytes (dh_g params)) privsec (bn_of_bytes (dh_p params)) in
  bn_to_bytes (Some (zlen (dh_p params) * 8)) r.
(* shared_secret, cryptokit.ml 2216-2220: the private secret afterwards, and the result *)
Definition dh_shared_secret (params : dh_params) (privsec : Z) (othermsg : bytes) : Z * out bytes :=
  match (olet r := bn_mod_power (bn_of_bytes othermsg) privsec (bn_of_bytes (dh_p params)) in
         bn_to_bytes (Some (zlen (dh_p params) * 8)) r) with
  | Ret res => (z_wipe privsec, Ret res)
  | r => (privsec, r)
  end.
End Keys.

(* string_of_int of a positive integer: decimal digits *)
Fixpoint decimal (fuel : nat) (n : Z) : bytes :=
  match fuel with
  | O => []
  | S f => (if n <? 10 then [] else decimal f (n / 10)) ++ [48 + n mod 10]
  end.
Definition string_of_int (n : Z) : bytes := decimal 20 n.                    (* n < 2^62 < 10^20 *)
(* derive_key, cryptokit.ml 2222-2234, with the hash object hobj = Hash.sha256 () *)
Section Derive.
Variable new_hash : hobj.
Fixpoint derive (fuel : nat) (result : bytes) (div secret : bytes) (numbytes pos counter : Z) : out bytes :=
  match fuel with
  | O => Hang
  | S f =>
    if pos <? numbytes then
      olet h := obj_hash_string new_hash (div ++ secret ++ string_of_int counter) in
      olet result := blit h 0 result pos (Z.min (zlen h) (numbytes - pos)) in
      derive f result div secret numbytes (pos + zlen h) (counter + 1)
    else Ret result
  end.
End Derive.
Definition dh_derive_key (fresh : Z -> bytes) (div secret : bytes) (numbytes : Z) : out bytes :=
  if (numbytes <? 0) || (numbytes >? max_string_length) then Raise Invalid_argument else
  derive (sha256_obj fresh) (S (Z.to_nat numbytes)) (fresh numbytes) div secret numbytes 0 1.
