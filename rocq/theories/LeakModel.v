(* rijndaelEncrypt with the list of the table entries it reads (C116): what another process
   sees through the memory cache.  Reads of the round keys and of the block are at fixed
   places and are left out.  The C standard leaves the order of the reads of one
   expression open; here it is from left to right. *)
From Verif Require Import Prelude BytesNum SpecBlock Word WordIO KeccakModel BlockModel CipherModel AesModel.

Definition reads : Type := list (nat * Z).
(* number of the table: Te0 to Te4 *)
Definition Te (t : nat) : list Z := nth t [Te0; Te1; Te2; Te3; Te4] [].
Definition rd (t : nat) (i : Z) : Z * reads := (tab (Te t) i, [(t, i)]).

(* Te0[a >> 24] ^ Te1[(b >> 16) & 0xff] ^ Te2[(c >> 8) & 0xff] ^ Te3[d & 0xff] ^ k,
   rijndael-alg-fst.c 944-999 *)
Definition tword_l (a b c d k : Z) : Z * reads :=
  let '(x3, l3) := rd 0 (b3 a) in
  let '(x2, l2) := rd 1 (b2 b) in
  let '(x1, l1) := rd 2 (b1 c) in
  let '(x0, l0) := rd 3 (b0 d) in
  (Z.lxor (Z.lxor (Z.lxor (Z.lxor x3 x2) x1) x0) k, l3 ++ l2 ++ l1 ++ l0).
(* one full round, 944-971, 976-999 *)
Definition enc_round_l (rk : list Z) (p : nat) (s : quad) : quad * reads :=
  let '(s0, s1, s2, s3) := s in
  let '(t0, l0) := tword_l s0 s1 s2 s3 (kget rk p) in
  let '(t1, l1) := tword_l s1 s2 s3 s0 (kget rk (p + 1)) in
  let '(t2, l2) := tword_l s2 s3 s0 s1 (kget rk (p + 2)) in
  let '(t3, l3) := tword_l s3 s0 s1 s2 (kget rk (p + 3)) in
  ((t0, t1, t2, t3), l0 ++ l1 ++ l2 ++ l3).
(* the loop, 941-1000 *)
Fixpoint two_rounds_l (round : nat -> quad -> quad * reads) (r : nat) (p : nat) (s : quad) : quad * nat * reads :=
  match r with
  | O => (s, p, [])
  | S r' => let '(t, l) := round (p + 4)%nat s in
            let p := (p + 8)%nat in
            match r' with
            | O => (t, p, l)
            | S _ => let '(s', l') := round p t in
                     let '(u, q, l'') := two_rounds_l round r' p s' in (u, q, l ++ l' ++ l'')
            end
  end.
(* (Te4[a >> 24] & 0xff000000) ^ ... ^ k and PUTU32, 1005-1011 *)
Definition last_l (a b c d k : Z) : bytes * reads :=
  let '(x3, l3) := rd 4 (b3 a) in
  let '(x2, l2) := rd 4 (b2 b) in
  let '(x1, l1) := rd 4 (b1 c) in
  let '(x0, l0) := rd 4 (b0 d) in
  (PUTU32 (Z.lxor (Z.lxor (Z.lxor (Z.lxor (Z.land x3 0xff000000) (Z.land x2 0x00ff0000)) (Z.land x1 0x0000ff00)) (Z.land x0 0x000000ff)) k),
   l3 ++ l2 ++ l1 ++ l0).
(* the last round, 1001-1032 *)
Definition enc_last_l (rk : list Z) (p : nat) (t : quad) : bytes * reads :=
  let '(t0, t1, t2, t3) := t in
  let '(c0, l0) := last_l t0 t1 t2 t3 (kget rk p) in
  let '(c1, l1) := last_l t1 t2 t3 t0 (kget rk (p + 1)) in
  let '(c2, l2) := last_l t2 t3 t0 t1 (kget rk (p + 2)) in
  let '(c3, l3) := last_l t3 t0 t1 t2 (kget rk (p + 3)) in
  (c0 ++ c1 ++ c2 ++ c3, l0 ++ l1 ++ l2 ++ l3).
(* 854-1033; if the behaviour is undefined, no reads are listed *)
Definition rijndaelEncrypt_l (rk : list Z) (Nr : Z) (pt : bytes) : out bytes * reads :=
  if rk_reads_ok rk Nr then
    let '(t, p, l) := two_rounds_l (enc_round_l rk) (Z.to_nat (Nr / 2)) 0 (aes_load rk pt) in
    let '(c, l') := enc_last_l rk p t in
    (Ret c, l ++ l')
  else (Undef, []).
(* caml_aes_encrypt, stubs-aes.c 65-80, without AES-NI, on an object made with this key *)
Definition aes_encrypt_l (fresh : Z -> bytes) (key b : bytes) : out bytes * reads :=
  let k := caml_aes_cook_encrypt_key fresh key in rijndaelEncrypt_l (fst k) (snd k) b.
