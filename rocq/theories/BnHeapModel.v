(* Module Bn (cryptokitBignum.ml) and modules RSA, Paillier and DH (cryptokit.ml 1955-2220) over a memory: strings and big integers are cells, Bn.wipe and
   wipe_string act on the cells, and the functions of ZArith may return one of their arguments instead of a new number.  BnModel.v and PkModel.v are the same
   functions on values.  The caller's heap is any list of cells; cells are never reused. *)
From Verif Require Import Prelude BytesNum HashModel RngModel BnModel PkModel.

(* A block of memory: a big integer that does not fit in 63 bits, or a string. *)
Inductive cell := Num (z : Z) | Str (b : bytes).
Definition heap := list cell.
(* a value of type Z.t: an immediate integer, or the address of a block (ZArith, z.mli and caml_z.c) *)
Inductive bn := Imm (z : Z) | Blk (a : nat).
Definition cell_at (h : heap) (a : nat) : cell := nth a h (Num 0).
Definition num (h : heap) (v : bn) : Z := match v with Imm z => z | Blk a => match cell_at h a with Num z => z | Str _ => 0 end end.
Definition str (h : heap) (a : nat) : bytes := match cell_at h a with Str b => b | Num _ => [] end.
Definition alloc (h : heap) (c : cell) : heap * nat := (h ++ [c], length h).
Definition store (h : heap) (a : nat) (c : cell) : heap := firstn a h ++ c :: skipn (S a) h.
(* wipe_bytes, cryptokitBignum.ml 70 and cryptokit.ml 31; wipe_string, 32 *)
Definition m_wipe_bytes (h : heap) (a : nat) : heap := store h a (Str (zeros (zlen (str h a)))).
(* caml_wipe_z, stubs-misc.c 50-56 *)
Definition m_wipe (h : heap) (v : bn) : heap := match v with Imm _ => h | Blk a => store h a (Num 0) end.
Definition m_wipe_all (vs : list bn) (h : heap) : heap := fold_left m_wipe vs h.

Section Share.
(* Which of the arguments (of the right value) a function of ZArith returns, if any.  ZArith is not part of /repo: any choice, at any time. *)
Variable share : heap -> Z -> list bn -> nat.

(* The result z of a function of ZArith with the arguments args *)
Definition z_res (h : heap) (z : Z) (args : list bn) : heap * bn :=
  if (- 2 ^ 62 <=? z) && (z <? 2 ^ 62) then (h, Imm z) else
  match nth_error args (share h z args) with
  | Some v => if num h v =? z then (h, v) else (h ++ [Num z], Blk (length h))
  | None => (h ++ [Num z], Blk (length h))
  end.
Definition z_ret (h : heap) (r : out Z) (args : list bn) : heap * out bn :=
  match r with
  | Ret z => let (h, v) := z_res h z args in (h, Ret v)
  | Raise e => (h, Raise e) | Undef => (h, Undef) | Hang => (h, Hang)
  end.
(* Z.add, Z.sub, Z.mul, Z.gcd, Z.lcm; Z.rem, Z.div, Z.invert; cryptokitBignum.ml 28-39, 70 *)
Definition m_add h a b := z_ret h (Ret (num h a + num h b)) [a; b].
Definition m_sub h a b := z_ret h (Ret (num h a - num h b)) [a; b].
Definition m_mult h a b := z_ret h (Ret (num h a * num h b)) [a; b].
Definition m_lcm h a b := z_ret h (Ret (Z.lcm (num h a) (num h b))) [a; b].
Definition m_rem h a b := z_ret h (z_rem (num h a) (num h b)) [a; b].
Definition m_div h a b := z_ret h (z_div (num h a) (num h b)) [a; b].
Definition m_invert h a b := z_ret h (z_invert (num h a) (num h b)) [a; b].
(* Z.powm_sec (ml_z_powm_sec in caml_z.c) always makes a new number *)
Definition m_mod_power h b e m := z_ret h (z_powm_sec (num h b) (num h e) (num h m)) [].
(* relative_prime, cryptokitBignum.ml 36-37 *)
Definition m_relative_prime (h : heap) (a b : bn) : heap * out bool :=
  let! (h, g) := z_ret h (Ret (Z.gcd (num h a) (num h b))) [a; b] in (h, Ret (num h g =? 1)).
(* sub_mod, lines 41-43 *)
Definition m_sub_mod (h : heap) (a b p : bn) : heap * out bn :=
  let! (h, d) := m_sub h a b in
  if num h d <? 0 then m_add h d p else (h, Ret d).
(* mod_power_CRT, lines 55-66 *)
Definition m_mod_power_CRT (h : heap) (a p q dp dq qinv : bn) : heap * out bn :=
  let! (h, amodp) := m_rem h a p in
  let! (h, amodq) := m_rem h a q in
  let! (h, mp) := m_mod_power h amodp dp p in
  let! (h, mq) := m_mod_power h amodq dq q in
  let! (h, diff) := m_sub_mod h mp mq p in
  let! (h, diff_qinv) := m_mult h diff qinv in
  let! (h, diff_qinv_mod_p) := m_rem h diff_qinv p in
  let! (h, x) := m_mult h q diff_qinv_mod_p in
  let! (h, res) := m_add h x mq in
  let h := m_wipe h amodp in
  let h := m_wipe h amodq in
  (h, Ret res).
(* of_bytes, lines 72-78; t is shown once filled *)
Definition m_of_bytes (h : heap) (s : nat) : heap * out bn :=
  let (h, t) := alloc h (Str (rev (str h s))) in
  let (h, n) := z_res h (le (str h t)) [] in
  (m_wipe_bytes h t, Ret n).
(* to_bytes, lines 80-91: the address of the result; t is shown once filled *)
Definition m_to_bytes (h : heap) (numbits : option Z) (n : bn) : heap * out nat :=
  let (h, s) := alloc h (Str (z_to_bits (num h n))) in
  let! (h, l) := (h, match numbits with
                     | None => Ret (zlen (str h s))
                     | Some nb => if z_numbits (num h n) <=? nb then Ret (Z.quot (nb + 7) 8) else Raise Assert_failure
                     end) in
  if (l <? 0) || (l >? max_string_length) then (h, Raise Invalid_argument) else
  let! (h, b) := (h, to_bytes_loop (zeros l) l 0 (str h s)) in
  let (h, t) := alloc h (Str b) in
  (m_wipe_bytes h s, Ret t).

(* ------------------------------------------------------------------ *)
(* mod_power and mod_mult, cryptokit.ml 43-49 *)
Definition m_pow (h : heap) (a b c : nat) : heap * out nat :=
  let! (h, va) := m_of_bytes h a in let! (h, vb) := m_of_bytes h b in let! (h, vc) := m_of_bytes h c in
  let! (h, r) := m_mod_power h va vb vc in
  m_to_bytes h (Some (zlen (str h c) * 8)) r.
Definition m_mul (h : heap) (a b c : nat) : heap * out nat :=
  let! (h, va) := m_of_bytes h a in let! (h, vb) := m_of_bytes h b in
  let! (h, p) := m_mult h va vb in
  let! (h, vc) := m_of_bytes h c in
  let! (h, r) := m_rem h p vc in
  m_to_bytes h (Some (zlen (str h c) * 8)) r.

(* ------------------------------------------------------------------ *)
(* RSA keys, cryptokit.ml 1957-1972: records of strings *)
Record m_rsa_public := MRsaPub { mrp_size : Z; mrp_n : nat; mrp_e : nat }.
Record m_rsa_private := MRsaPriv { mrk_size : Z; mrk_n : nat; mrk_d : nat; mrk_p : nat; mrk_q : nat; mrk_dp : nat; mrk_dq : nat; mrk_qinv : nat }.
(* wipe_key, cryptokit.ml 1974-1981 *)
Definition m_rsa_wipe_key (h : heap) (k : m_rsa_private) : heap :=
  fold_left m_wipe_bytes [mrk_n k; mrk_d k; mrk_p k; mrk_q k; mrk_dp k; mrk_dq k; mrk_qinv k] h.
(* encrypt, cryptokit.ml 1983-1991 *)
Definition m_rsa_encrypt (h : heap) (key : m_rsa_public) (msg : nat) : heap * out nat :=
  let! (h, m) := m_of_bytes h msg in
  let! (h, n) := m_of_bytes h (mrp_n key) in
  let! (h, e) := m_of_bytes h (mrp_e key) in
  if num h m >=? num h n then (h, Raise (Error Message_too_long)) else
  let! (h, r) := m_mod_power h m e n in
  let! (h, s) := m_to_bytes h (Some (mrp_size key)) r in
  (m_wipe_all [m; n; e; r] h, Ret s).
(* decrypt, cryptokit.ml 1995-2003 *)
Definition m_rsa_decrypt (h : heap) (key : m_rsa_private) (msg : nat) : heap * out nat :=
  let! (h, m) := m_of_bytes h msg in
  let! (h, n) := m_of_bytes h (mrk_n key) in
  let! (h, d) := m_of_bytes h (mrk_d key) in
  if num h m >=? num h n then (h, Raise (Error Message_too_long)) else
  let! (h, r) := m_mod_power h m d n in
  let! (h, s) := m_to_bytes h (Some (mrk_size key)) r in
  (m_wipe_all [m; n; d; r] h, Ret s).
(* decrypt_CRT, cryptokit.ml 2007-2020 *)
Definition m_rsa_decrypt_CRT (h : heap) (key : m_rsa_private) (msg : nat) : heap * out nat :=
  let! (h, m) := m_of_bytes h msg in
  let! (h, n) := m_of_bytes h (mrk_n key) in
  let! (h, p) := m_of_bytes h (mrk_p key) in
  let! (h, q) := m_of_bytes h (mrk_q key) in
  let! (h, dp) := m_of_bytes h (mrk_dp key) in
  let! (h, dq) := m_of_bytes h (mrk_dq key) in
  let! (h, qinv) := m_of_bytes h (mrk_qinv key) in
  if num h m >=? num h n then (h, Raise (Error Message_too_long)) else
  let! (h, r) := m_mod_power_CRT h m p q dp dq qinv in
  let! (h, s) := m_to_bytes h (Some (mrk_size key)) r in
  (m_wipe_all [m; n; p; q; dp; dq; qinv; r] h, Ret s).

(* ------------------------------------------------------------------ *)
Section Keys.
Variable fresh : Z -> bytes.
Variable R : rng.
Variable nextprime : Z -> Z.
Definition ms : Type := r_st R * heap.
Definition on_heap {A} (s : ms) (r : heap * out A) : ms * out A := lift (fun h => (fst s, h)) r.
(* Bn.random, cryptokitBignum.ml 96-112; buf is shown once it has its last contents, and not at all if the generator fails *)
Definition m_random (s : ms) (odd : bool) (numbits : Z) : ms * out bn :=
  let numbytes := Z.quot (numbits + 7) 8 in
  let! (s, buf) := lift (fun r => (r, snd s)) (rng_string fresh R (fst s) numbytes) in
  let! (s, buf) := (s, if odd then change_byte buf 0 (fun b => Z.lor b 1) else Ret buf) in
  let mask := Z.shiftl 1 (Z.land (numbits - 1) 7) in
  let! (s, buf) := (s, change_byte buf (numbytes - 1) (fun b => Z.lor (Z.land b (mask - 1)) mask)) in
  let (h, a) := alloc (snd s) (Str buf) in
  let (h, n) := z_res h (le (str h a)) [] in
  let h := m_wipe_bytes h a in
  if negb (z_numbits (num h n) =? numbits) then ((fst s, h), Raise Assert_failure) else
  if odd && Z.even (num h n) then ((fst s, h), Raise Assert_failure) else ((fst s, h), Ret n).
(* random_prime, lines 114-120 *)
Fixpoint m_random_prime (fuel : nat) (s : ms) (numbits : Z) : ms * out bn :=
  match fuel with
  | O => (s, Hang)
  | S f =>
    let! (s, n) := m_random s true numbits in
    let! (s, p) := on_heap s (z_ret (snd s) (Ret (nextprime (num (snd s) n))) [n]) in
    if z_numbits (num (snd s) p) =? numbits then (s, Ret p) else m_random_prime f s numbits
  end.
(* gen_factor, cryptokit.ml 2030-2037; Bn.one and Bn.of_int e are immediate integers *)
Fixpoint m_gen_factor (fuel : nat) (s : ms) (e : option Z) (nbits : Z) : ms * out bn :=
  match fuel with
  | O => (s, Hang)
  | S f =>
    let! (s, n) := m_random_prime fuel s nbits in
    match e with
    | None => (s, Ret n)
    | Some e =>
      let! (s, n1) := on_heap s (m_sub (snd s) n (Imm 1)) in
      let! (s, ok) := on_heap s (m_relative_prime (snd s) n1 (Imm e)) in
      if ok : bool then (s, Ret n) else m_gen_factor f s (Some e) nbits
    end
  end.
(* gen_factors, cryptokit.ml 2039-2044, in the order of PkModel.gen_factors *)
Fixpoint m_gen_factors (fuel : nat) (s : ms) (e : option Z) (nbits : Z) : ms * out (bn * bn) :=
  match fuel with
  | O => (s, Hang)
  | S f =>
    let! (s, q) := m_gen_factor fuel s e nbits in
    let! (s, p) := m_gen_factor fuel s e nbits in
    if num (snd s) p =? num (snd s) q then m_gen_factors f s e nbits else
    if num (snd s) p <? num (snd s) q then (s, Ret (q, p)) else (s, Ret (p, q))
  end.
(* gen_exponent, cryptokit.ml 2055-2060; && does not evaluate its second argument when the first is false *)
Fixpoint m_gen_exponent (fuel : nat) (s : ms) (numbits : Z) (p1 q1 : bn) : ms * out bn :=
  match fuel with
  | O => (s, Hang)
  | S f =>
    let! (s, n) := m_random s false numbits in
    let! (s, ok) := on_heap s (m_relative_prime (snd s) n p1) in
    let! (s, ok) := if ok : bool then on_heap s (m_relative_prime (snd s) n q1) else (s, Ret false) in
    if ok : bool then (s, Ret n) else m_gen_exponent f s numbits p1 q1
  end.
(* new_key, cryptokit.ml 2024-2087 *)
Definition m_rsa_new_key (fuel : nat) (s : ms) (e : option Z) (numbits : Z) : ms * out (m_rsa_private * m_rsa_public) :=
  if (numbits <? 32) || (Z.land numbits 1 >? 0) then (s, Raise (Error Wrong_key_size)) else
  let numbits2 := Z.quot numbits 2 in
  let! (s, pq) := m_gen_factors fuel s e numbits2 in
  let p := fst pq in let q := snd pq in
  let! (s, p1) := on_heap s (m_sub (snd s) p (Imm 1)) in
  let! (s, q1) := on_heap s (m_sub (snd s) q (Imm 1)) in
  let! (s, e) := match e with Some e => (s, Ret (Imm e)) | None => m_gen_exponent fuel s numbits p1 q1 end in
  on_heap s (
   let h := snd s in
   let! (h, n) := m_mult h p q in
   let! (h, phi) := m_mult h p1 q1 in
   let! (h, d) := m_invert h e phi in
   let! (h, dp) := m_rem h d p1 in
   let! (h, dq) := m_rem h d q1 in
   let! (h, qinv) := m_invert h q p in
   let! (h, bn) := m_to_bytes h (Some numbits) n in
   let! (h, bd) := m_to_bytes h (Some numbits) d in
   let! (h, bp) := m_to_bytes h (Some numbits2) p in
   let! (h, bq) := m_to_bytes h (Some numbits2) q in
   let! (h, bdp) := m_to_bytes h (Some numbits2) dp in
   let! (h, bdq) := m_to_bytes h (Some numbits2) dq in
   let! (h, bqinv) := m_to_bytes h (Some numbits2) qinv in
   let! (h, bn') := m_to_bytes h (Some numbits) n in
   let! (h, be) := m_to_bytes h (Some numbits) e in
   (m_wipe_all [n; e; d; p; q; p1; q1; dp; dq; qinv] h,
    Ret (MRsaPriv numbits bn bd bp bq bdp bdq bqinv, MRsaPub numbits bn' be))).

(* ------------------------------------------------------------------ *)
(* Paillier keys, cryptokit.ml 2093-2108 *)
Record m_pai_public := MPaiPub { mpp_size : Z; mpp_n : nat; mpp_n2 : nat; mpp_g : nat }.
Record m_pai_private := MPaiPriv { mpk_size : Z; mpk_n : nat; mpk_n2 : nat; mpk_p : nat; mpk_q : nat; mpk_lambda : nat; mpk_mu : nat }.
(* wipe_key, cryptokit.ml 2110-2116 *)
Definition m_pai_wipe_key (h : heap) (k : m_pai_private) : heap :=
  fold_left m_wipe_bytes [mpk_n k; mpk_n2 k; mpk_p k; mpk_q k; mpk_lambda k; mpk_mu k] h.
(* get_r, cryptokit.ml 2119-2122; && as above *)
Fixpoint m_pai_get_r (fuel : nat) (s : ms) (key : m_pai_public) : ms * out nat :=
  match fuel with
  | O => (s, Hang)
  | S f =>
    let! (s, r) := m_random s false (mpp_size key - 1) in
    let! (s, n) := on_heap s (m_of_bytes (snd s) (mpp_n key)) in
    let! (s, ok) := on_heap s (m_relative_prime (snd s) r n) in
    let! (s, ok) := if ok : bool then let! (s, n) := on_heap s (m_of_bytes (snd s) (mpp_n key)) in (s, Ret (num (snd s) r <? num (snd s) n)) else (s, Ret false) in
    if ok : bool then on_heap s (m_to_bytes (snd s) None r) else m_pai_get_r f s key
  end.
(* encrypt, cryptokit.ml 2118-2126 *)
Definition m_pai_encrypt (fuel : nat) (s : ms) (key : m_pai_public) (msg : nat) : ms * out nat :=
  let! (s, r) := m_pai_get_r fuel s key in
  on_heap s (
    let h := snd s in
    let! (h, gm) := m_pow h (mpp_g key) msg (mpp_n2 key) in
    let! (h, rn) := m_pow h r (mpp_n key) (mpp_n2 key) in
    m_mul h gm rn (mpp_n2 key)).
(* decrypt, cryptokit.ml 2128-2140 *)
Definition m_pai_decrypt (h : heap) (key : m_pai_private) (c : nat) : heap * out nat :=
  let! (h, vc) := m_of_bytes h c in
  let! (h, n) := m_of_bytes h (mpk_n key) in
  let! (h, n2) := m_of_bytes h (mpk_n2 key) in
  let! (h, lambda) := m_of_bytes h (mpk_lambda key) in
  let! (h, mu) := m_of_bytes h (mpk_mu key) in
  let! (h, cn) := m_mod_power h vc lambda n2 in
  let! (h, cn1) := m_sub h cn (Imm 1) in
  let! (h, lx) := m_div h cn1 n in
  let! (h, x) := m_mult h lx mu in
  let! (h, m) := m_rem h x n in
  let! (h, msg) := m_to_bytes h None m in
  (m_wipe_all [vc; n; n2; lambda; mu; cn; lx; m] h, Ret msg).
(* gen_factors, cryptokit.ml 2149-2158; p1 and q1 are computed before the comparison *)
Fixpoint m_pai_gen_factors (fuel : nat) (s : ms) (nbits : Z) : ms * out (bn * bn * bn * bn) :=
  match fuel with
  | O => (s, Hang)
  | S f =>
    let! (s, q) := m_random_prime fuel s nbits in
    let! (s, p) := m_random_prime fuel s nbits in
    let! (s, p1) := on_heap s (m_sub (snd s) p (Imm 1)) in
    let! (s, q1) := on_heap s (m_sub (snd s) q (Imm 1)) in
    if num (snd s) p =? num (snd s) q then m_pai_gen_factors f s nbits else
    let! (s, n) := on_heap s (m_mult (snd s) p q) in
    let! (s, phi) := on_heap s (m_mult (snd s) p1 q1) in
    let! (s, ok) := on_heap s (m_relative_prime (snd s) n phi) in
    if ok : bool then (s, Ret (p, q, p1, q1)) else m_pai_gen_factors f s nbits
  end.
(* new_key, cryptokit.ml 2145-2183 *)
Definition m_pai_new_key (fuel : nat) (s : ms) (numbits : Z) : ms * out (m_pai_private * m_pai_public) :=
  if (numbits <? 32) || (Z.land numbits 1 >? 0) then (s, Raise (Error Wrong_key_size)) else
  let numbits2 := Z.quot numbits 2 in
  let! (s, f) := m_pai_gen_factors fuel s numbits2 in
  let p := fst (fst (fst f)) in let q := snd (fst (fst f)) in let p1 := snd (fst f) in let q1 := snd f in
  on_heap s (
   let h := snd s in
   let! (h, n) := m_mult h p q in
   let! (h, n2) := m_mult h n n in
   let! (h, g) := m_add h n (Imm 1) in
   let! (h, lambda) := m_lcm h p1 q1 in
   let! (h, mu) := m_invert h lambda n in
   let! (h, bn) := m_to_bytes h (Some numbits) n in
   let! (h, bn2) := m_to_bytes h None n2 in
   let! (h, bp) := m_to_bytes h (Some numbits2) p in
   let! (h, bq) := m_to_bytes h (Some numbits2) q in
   let! (h, bl) := m_to_bytes h None lambda in
   let! (h, bmu) := m_to_bytes h None mu in
   let! (h, bn') := m_to_bytes h (Some numbits) n in
   let! (h, bn2') := m_to_bytes h None n2 in
   let! (h, bg) := m_to_bytes h None g in
   (m_wipe_all [n; n2; g; p; q; p1; q1; lambda; mu] h,
    Ret (MPaiPriv numbits bn bn2 bp bq bl bmu, MPaiPub numbits bn' bn2' bg))).

(* ------------------------------------------------------------------ *)
(* Diffie-Hellman, cryptokit.ml 2189-2220 *)
Record m_dh_params := MDhParams { mdh_p : nat; mdh_g : nat; mdh_privlen : Z }.
(* private_secret, 2209-2210 *)
Definition m_dh_private_secret (s : ms) (params : m_dh_params) : ms * out bn := m_random s false (mdh_privlen params).
(* message, 2212-2214 *)
Definition m_dh_message (h : heap) (params : m_dh_params) (privsec : bn) : heap * out nat :=
  let! (h, g) := m_of_bytes h (mdh_g params) in
  let! (h, p) := m_of_bytes h (mdh_p params) in
  let! (h, r) := m_mod_power h g privsec p in
  m_to_bytes h (Some (zlen (str h (mdh_p params)) * 8)) r.
(* shared_secret, 2216-2220 *)
Definition m_dh_shared_secret (h : heap) (params : m_dh_params) (privsec : bn) (othermsg : nat) : heap * out nat :=
  let! (h, o) := m_of_bytes h othermsg in
  let! (h, p) := m_of_bytes h (mdh_p params) in
  let! (h, r) := m_mod_power h o privsec p in
  let! (h, res) := m_to_bytes h (Some (zlen (str h (mdh_p params)) * 8)) r in
  (m_wipe h privsec, Ret res).
End Keys.
End Share.
