(* Vocabulary for the memory used by the public-key functions. *)
From Verif Require Import Prelude RngModel BnModel PkModel BnHeapModel.

(* a block that holds zeros only *)
Definition cleared (c : cell) : Prop := match c with Num z => z = 0 | Str b => Forall (fun x => x = 0) b end.
(* the blocks of h are all in h', unchanged *)
Definition keeps (h h' : heap) : Prop := (length h <= length h')%nat /\ forall i, (i < length h)%nat -> cell_at h' i = cell_at h i.
(* the string returned *)
Definition string_of (r : heap * out nat) : out bytes := olet a := snd r in Ret (str (fst r) a).
(* which is a new string *)
Definition new_string (h : heap) (r : heap * out nat) : Prop := forall a, snd r = Ret a -> (length h <= a < length (fst r))%nat.
(* the keys as strings *)
Definition rsa_pub_of (h : heap) (k : m_rsa_public) : rsa_public := RsaPub (mrp_size k) (str h (mrp_n k)) (str h (mrp_e k)).
Definition rsa_priv_of (h : heap) (k : m_rsa_private) : rsa_private :=
  RsaPriv (mrk_size k) (str h (mrk_n k)) (str h (mrk_d k)) (str h (mrk_p k)) (str h (mrk_q k)) (str h (mrk_dp k)) (str h (mrk_dq k)) (str h (mrk_qinv k)).
Definition pai_pub_of (h : heap) (k : m_pai_public) : pai_public := PaiPub (mpp_size k) (str h (mpp_n k)) (str h (mpp_n2 k)) (str h (mpp_g k)).
Definition pai_priv_of (h : heap) (k : m_pai_private) : pai_private :=
  PaiPriv (mpk_size k) (str h (mpk_n k)) (str h (mpk_n2 k)) (str h (mpk_p k)) (str h (mpk_q k)) (str h (mpk_lambda k)) (str h (mpk_mu k)).
Definition dh_params_of (h : heap) (p : m_dh_params) : dh_params := DhParams (str h (mdh_p p)) (str h (mdh_g p)) (mdh_privlen p).
(* the strings of a key *)
Definition rsa_pub_strings (k : m_rsa_public) : list nat := [mrp_n k; mrp_e k].
Definition rsa_priv_strings (k : m_rsa_private) : list nat := [mrk_n k; mrk_d k; mrk_p k; mrk_q k; mrk_dp k; mrk_dq k; mrk_qinv k].
Definition pai_pub_strings (k : m_pai_public) : list nat := [mpp_n k; mpp_n2 k; mpp_g k].
Definition pai_priv_strings (k : m_pai_private) : list nat := [mpk_n k; mpk_n2 k; mpk_p k; mpk_q k; mpk_lambda k; mpk_mu k].
(* these strings are in the heap *)
Definition present (h : heap) (l : list nat) : Prop := Forall (fun a => (a < length h)%nat) l.
(* every block made since h, except those of l, holds zeros only *)
Definition nothing_left_but (l : list nat) (h h' : heap) : Prop := forall i, (length h <= i < length h')%nat -> ~ In i l -> cleared (cell_at h' i).
(* an immediate integer is not in a block *)
Definition immediate (z : Z) : Prop := - 2 ^ 62 <= z < 2 ^ 62.

(* A number that comes directly from the random numbers: one that was drawn, the prime that follows it, this prime less one, and their divisors in common
   with other numbers. *)
Definition drawn (fresh : Z -> bytes) (R : rng) (nextprime : Z -> Z) (z : Z) : Prop :=
  exists s s' odd nbits n, bn_random fresh R s odd nbits = (s', Ret n) /\
  (z = n \/ z = nextprime n \/ z = nextprime n - 1 \/ exists y, z = Z.gcd n y \/ z = Z.gcd (nextprime n - 1) y).
(* A prime that follows a number drawn *)
Definition drawn_prime (fresh : Z -> bytes) (R : rng) (nextprime : Z -> Z) (z : Z) : Prop :=
  exists s s' odd nbits n, bn_random fresh R s odd nbits = (s', Ret n) /\ z = nextprime n.
(* the same, or the product of two such primes, the product of these less one, their common divisor *)
Definition drawn_product (fresh : Z -> bytes) (R : rng) (nextprime : Z -> Z) (z : Z) : Prop :=
  drawn fresh R nextprime z \/ exists p q, drawn_prime fresh R nextprime p /\ drawn_prime fresh R nextprime q /\
  (z = p * q \/ z = (p - 1) * (q - 1) \/ z = Z.gcd (p * q) ((p - 1) * (q - 1))).
(* The intermediate numbers of the Chinese Remainder Theorem: m^dp mod p, m^dq mod q, their difference, and so on *)
Definition crt_numbers (m p q dp dq qinv : Z) : list Z :=
  let mp := Z.rem m p ^ dp mod Z.abs p in let mq := Z.rem m q ^ dq mod Z.abs q in
  let diff := if mp - mq <? 0 then mp - mq + p else mp - mq in
  [mp; mq; mp - mq; diff; diff * qinv; Z.rem (diff * qinv) p; q * Z.rem (diff * qinv) p].
(* and of Paillier.decrypt: c^lambda mod n2 less one; its quotient by n multiplied by mu, which is the message modulo n *)
Definition paillier_numbers (n n2 lambda mu c : Z) : list Z :=
  let cn := c ^ lambda mod Z.abs n2 in [cn - 1; Z.quot (cn - 1) n * mu].
(* a private secret of Diffie-Hellman that the caller has: an immediate integer, or a block with a number, zero once erased *)
Definition secret_ok (h : heap) (v : bn) : Prop :=
  match v with Imm z => immediate z | Blk a => (a < length h)%nat /\ exists z, cell_at h a = Num z /\ (z = 0 \/ ~ immediate z) end.
