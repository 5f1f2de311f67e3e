(* cryptokitBignum.ml, over the ZArith library, and the functions mod_power and
   mod_mult of cryptokit.ml.  Big integers are Coq's; Bn.wipe sets to zero the numbers
   that are not immediate, and everywhere but in DH.shared_secret it is called on numbers
   not used any more. *)
From Coq Require Import Zpow_facts.
From Verif Require Import Prelude BytesNum RngModel.

(* ------------------------------------------------------------------ *)
(* ZArith.  Not part of /repo: what its documentation and C code (caml_z.c) say. *)
(* Z.numbits *)
Definition z_numbits (n : Z) : Z := if n =? 0 then 0 else Z.log2 (Z.abs n) + 1.
(* Z.to_bits: the absolute value, little-endian, in a whole number of 64-bit limbs *)
Definition z_limbs (n : Z) : Z := (z_numbits n + 63) / 64.
Definition z_to_bits (n : Z) : bytes := to_le (8 * Z.to_nat (z_limbs n)) (Z.abs n).
(* Z.powm_sec: the exponent must be positive and the modulus odd.  Zpow_mod b e m = b^e mod m. *)
Definition z_powm_sec (b e m : Z) : out Z :=
  if (e <=? 0) || Z.even m then Raise Invalid_argument else Ret (Zpow_mod b e (Z.abs m)).
(* Z.invert, by the extended Euclidean algorithm; invariants r0 = a s0, r1 = a s1 modulo m *)
Fixpoint egcd (fuel : nat) (r0 s0 r1 s1 : Z) : Z * Z :=
  match fuel with
  | O => (r0, s0)
  | S f => if r1 =? 0 then (r0, s0) else egcd f r1 s1 (r0 mod r1) (s0 - (r0 / r1) * s1)
  end.
Definition z_invert (a m : Z) : out Z :=
  if m <=? 0 then Raise Division_by_zero else                              (* moduli here are positive *)
  let (g, s) := egcd (2 * Z.to_nat (z_numbits m) + 2) m 0 (a mod m) 1 in
  if g =? 1 then Ret (s mod m) else Raise Division_by_zero.
(* Z.rem and Z.div truncate; division by zero *)
Definition z_rem (a b : Z) : out Z := if b =? 0 then Raise Division_by_zero else Ret (Z.rem a b).
Definition z_div (a b : Z) : out Z := if b =? 0 then Raise Division_by_zero else Ret (Z.quot a b).
(* caml_wipe_z, stubs-misc.c 50-56: nothing for immediate integers; otherwise the header
   and the limbs are cleared, which is a representation of zero *)
Definition z_wipe (n : Z) : Z := if (- 2 ^ 62 <=? n) && (n <? 2 ^ 62) then n else 0.

(* ------------------------------------------------------------------ *)
(* relative_prime, cryptokitBignum.ml 36-37 *)
Definition bn_relative_prime (a b : Z) : bool := Z.gcd a b =? 1.
(* mod_power, line 39 *)
Definition bn_mod_power := z_powm_sec.
(* sub_mod, lines 41-43 *)
Definition bn_sub_mod (a b p : Z) : Z := let d := a - b in if d <? 0 then d + p else d.
(* mod_power_CRT, lines 55-66 *)
Definition bn_mod_power_CRT (a p q dp dq qinv : Z) : out Z :=
  olet amodp := z_rem a p in
  olet amodq := z_rem a q in
  olet mp := bn_mod_power amodp dp p in
  olet mq := bn_mod_power amodq dq q in
  let diff := bn_sub_mod mp mq p in
  olet diff_qinv_mod_p := z_rem (diff * qinv) p in
  Ret (q * diff_qinv_mod_p + mq).
(* of_bytes, lines 72-78: the loop reverses the string, Z.of_bits reads it as little-endian *)
Definition bn_of_bytes (s : bytes) : Z := le (rev s).
(* to_bytes, lines 80-91 *)
Fixpoint to_bytes_loop (t : bytes) (l i : Z) (s : bytes) : out bytes :=
  match s with
  | [] => Ret t
  | c :: s => olet t := bytes_set t (l - 1 - i) c in to_bytes_loop t l (i + 1) s
  end.
Definition bn_to_bytes (numbits : option Z) (n : Z) : out bytes :=
  let s := z_to_bits n in
  olet l := match numbits with
            | None => Ret (zlen s)
            | Some nb => if z_numbits n <=? nb then Ret (Z.quot (nb + 7) 8) else Raise Assert_failure
            end in
  if (l <? 0) || (l >? max_string_length) then Raise Invalid_argument else
  to_bytes_loop (zeros l) l 0 s.
(* change_byte, lines 93-94.  Char.chr *)
Definition change_byte (s : bytes) (i : Z) (f : Z -> Z) : out bytes :=
  olet b := bytes_get s i in
  if (0 <=? f b) && (f b <? 256) then bytes_set s i (f b) else Raise Invalid_argument.
Section Random.
Variable fresh : Z -> bytes.
Variable R : rng.
(* random, lines 96-112; the first lines are those of Random.string *)
Definition bn_random (s : r_st R) (odd : bool) (numbits : Z) : r_st R * out Z :=
  let numbytes := Z.quot (numbits + 7) 8 in
  let! (s, buf) := rng_string fresh R s numbytes in
  let! (s, buf) := (s, if odd then change_byte buf 0 (fun b => Z.lor b 1) else Ret buf) in
  let mask := Z.shiftl 1 (Z.land (numbits - 1) 7) in
  let! (s, buf) := (s, change_byte buf (numbytes - 1) (fun b => Z.lor (Z.land b (mask - 1)) mask)) in
  let n := le buf in
  if negb (z_numbits n =? numbits) then (s, Raise Assert_failure) else
  if odd && Z.even n then (s, Raise Assert_failure) else (s, Ret n).
(* Z.nextprime: an oracle *)
Variable nextprime : Z -> Z.
(* random_prime, lines 114-120 *)
Fixpoint bn_random_prime (fuel : nat) (s : r_st R) (numbits : Z) : r_st R * out Z :=
  match fuel with
  | O => (s, Hang)
  | S f =>
    let! (s, n) := bn_random s true numbits in
    let p := nextprime n in
    if z_numbits p =? numbits then (s, Ret p) else bn_random_prime f s numbits
  end.
End Random.

(* ------------------------------------------------------------------ *)
(* mod_power and mod_mult, cryptokit.ml 43-49 *)
Definition mod_power (a b c : bytes) : out bytes :=
  olet r := bn_mod_power (bn_of_bytes a) (bn_of_bytes b) (bn_of_bytes c) in bn_to_bytes (Some (zlen c * 8)) r.
Definition mod_mult (a b c : bytes) : out bytes :=
  olet r := z_rem (bn_of_bytes a * bn_of_bytes b) (bn_of_bytes c) in bn_to_bytes (Some (zlen c * 8)) r.
