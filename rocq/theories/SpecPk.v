(* Specifications for public-key operations. [be]: big-endian value; [to_be w x]: x on w bytes. *)
From Coq Require Import Znumtheory.
From Verif Require Import Prelude BytesNum RngModel BnModel PkModel.
Open Scope Z_scope.

(* the number of bytes of numbers of [size] bits *)
Definition width (size : Z) : nat := Z.to_nat ((size + 7) / 8).
(* ... when that is a whole number of 64-bit limbs *)
Definition aligned (size : Z) : Prop := (8 | (size + 7) / 8).
(* bounds without which the strings could not exist *)
Definition size_ok (size : Z) : Prop := 0 <= size /\ (size + 7) / 8 <= 2 ^ 57 - 9.

(* RSA: n = pq, and the exponents are inverse modulo p-1 and q-1 *)
Definition rsa_numbers (p q e d : Z) : Prop :=
  prime p /\ prime q /\ p <> q /\ 2 < p /\ 2 < q /\ 0 < e /\ 0 < d /\ (p - 1 | e * d - 1) /\ (q - 1 | e * d - 1).
Definition rsa_pair (sk : rsa_private) (pk : rsa_public) : Prop :=
  exists p q, rsa_numbers p q (be (rp_e pk)) (be (rk_d sk)) /\
  be (rp_n pk) = p * q /\ be (rk_n sk) = p * q /\ rk_size sk = rp_size pk /\ p * q <= 2 ^ rp_size pk /\ size_ok (rp_size pk).
(* the other components of a private key, as documented *)
Definition rsa_crt (sk : rsa_private) : Prop :=
  let p := be (rk_p sk) in let q := be (rk_q sk) in let d := be (rk_d sk) in
  prime p /\ prime q /\ p <> q /\ 2 < p /\ 2 < q /\ be (rk_n sk) = p * q /\ p * q <= 2 ^ rk_size sk /\ size_ok (rk_size sk) /\
  0 < d /\ rel_prime d (p - 1) /\ rel_prime d (q - 1) /\
  be (rk_dp sk) = d mod (p - 1) /\ be (rk_dq sk) = d mod (q - 1) /\
  0 <= be (rk_qinv sk) /\ (p | q * be (rk_qinv sk) - 1).

(* a key from RSA.new_key *)
Definition new_key_spec (e : option Z) (numbits : Z) (k : rsa_private * rsa_public) : Prop :=
  let sk := fst k in let pk := snd k in let n := be (rp_n pk) in let p := be (rk_p sk) in let q := be (rk_q sk) in let d := be (rk_d sk) in
  rk_size sk = numbits /\ rp_size pk = numbits /\ rk_n sk = rp_n pk /\ 2 ^ (numbits - 2) <= n < 2 ^ numbits /\ n = p * q /\
  prime p /\ prime q /\ q < p /\ 2 ^ (numbits / 2 - 1) <= q /\ p < 2 ^ (numbits / 2) /\ 0 < be (rp_e pk) /\ (forall x, e = Some x -> be (rp_e pk) = x) /\
  0 < d < (p - 1) * (q - 1) /\ ((p - 1) * (q - 1) | be (rp_e pk) * d - 1) /\
  be (rk_dp sk) = d mod (p - 1) /\ be (rk_dq sk) = d mod (q - 1) /\ 0 <= be (rk_qinv sk) < p /\ (p | q * be (rk_qinv sk) - 1).

(* Paillier *)
Definition pai_pair (sk : pai_private) (pk : pai_public) : Prop :=
  exists p q, let n := p * q in
  prime p /\ prime q /\ p <> q /\ 2 < p /\ 2 < q /\ rel_prime n ((p - 1) * (q - 1)) /\
  be (pp_n pk) = n /\ be (pk_n sk) = n /\ be (pp_n2 pk) = n * n /\ be (pk_n2 sk) = n * n /\ be (pp_g pk) = n + 1 /\
  be (pk_lambda sk) = Z.lcm (p - 1) (q - 1) /\ 0 <= be (pk_mu sk) /\ (n | be (pk_lambda sk) * be (pk_mu sk) - 1).

(* decimal numbers, in ASCII *)
Definition is_decimal (l : list Z) (n : Z) : Prop :=
  Forall (fun c => 48 <= c <= 57) l /\ fold_left (fun a c => 10 * a + (c - 48)) l 0 = n /\ hd 0 l <> 48.

(* strings of bytes of any length that leaves room for some more *)
Definition str_ok (s : bytes) : Prop := bytes_ok s /\ zlen s <= 2 ^ 56.
(* Paillier keys whose modulus n^2 has a whole number of limbs *)
Definition pai_key (sk : pai_private) (pk : pai_public) : Prop := pai_pair sk pk /\ str_ok (pk_n sk) /\ str_ok (pp_n pk) /\ str_ok (pp_n2 pk) /\ (8 | zlen (pp_n2 pk)).
(* Diffie-Hellman parameters with an odd modulus, in a whole number of limbs *)
Definition dh_ok (pr : dh_params) : Prop := str_ok (dh_p pr) /\ (8 | zlen (dh_p pr)) /\ Z.odd (be (dh_p pr)) = true /\ 0 < be (dh_p pr).

(* generators delivering bytes; generators that moreover always succeed *)
Definition rng_bytes (R : rng) : Prop := forall s buf ofs len, bytes_ok buf -> bytes_ok (snd (fst (r_bytes R s buf ofs len))).
Definition rng_total (R : rng) : Prop := forall s buf len, 0 <= len -> zlen buf = len ->
  snd (r_bytes R s buf 0 len) = Ret tt /\ zlen (snd (fst (r_bytes R s buf 0 len))) = len.
Definition fresh_ok (fresh : Z -> bytes) : Prop := forall n, 0 <= n -> zlen (fresh n) = n /\ bytes_ok (fresh n).
(* the computation returns, or did not terminate with the given fuel *)
Definition ret_or_hang (R : rng) {A} (r : r_st R * out A) : Prop := (exists a, snd r = Ret a) \/ snd r = Hang.
(* the ciphertexts made from encryptions by additions; the first index is the sum of the messages *)
Inductive ciphertext (pk : pai_public) : Z -> bytes -> Prop :=
  | C_enc fresh R fuel s msg s' c : fresh_ok fresh -> rng_bytes R -> 0 < be msg -> pai_encrypt fresh R fuel s pk msg = (s', Ret c) -> ciphertext pk (be msg) c
  | C_add m1 c1 m2 c2 c : ciphertext pk m1 c1 -> ciphertext pk m2 c2 -> pai_add pk c1 c2 = Ret c -> ciphertext pk (m1 + m2) c.
