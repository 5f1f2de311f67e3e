(* Model: the compression functions, initial values and outputs of sha1.c,
   sha256.c and sha512.c, and the hash classes built on them. *)
From Verif Require Import Prelude BytesNum SpecBlock Word HashModel MdModel.

(* SHA1_copy_and_swap (sha1.c 26-42) and the same functions of sha256.c
   (31-47) and sha512.c (31-53), on the little-endian machines supported here:
   each word of n bytes is copied with its bytes reversed.  The C code treats
   one word per iteration. *)
Definition copy_and_swap (n : Z) (src : bytes) : bytes := concat (map (@rev Z) (chunks n src)).
(* an array of little-endian n-byte words read from / stored to memory *)
Definition load_words (n : Z) (b : bytes) : list Z := map le (chunks n b).
Definition store_words (n : Z) (l : list Z) : bytes := concat (map (to_le (Z.to_nat n)) l).

(* big-endian length field: SHA1_copy_and_swap(ctx->length, ctx->buffer + 56, 2) *)
Definition enc_length_be (n hi lo : Z) : bytes := copy_and_swap n (store_words n [hi; lo]).

(* for (i = 16; i < 80; i++) data[i] = next data i.  Entries are written in
   increasing order and never read before: the array is represented by the
   list of the entries written so far. *)
Fixpoint expand (next : list Z -> nat -> Z) (count i : nat) (data : list Z) : list Z :=
  match count with
  | O => data
  | S k => expand next k (S i) (data ++ [next data i])
  end.

(* for (i = lo; i < lo + count; i++) *)
Definition for_range {S} (lo count : nat) (body : S -> nat -> S) (s : S) : S :=
  fold_left body (seq lo count) s.

(* ---- sha1.c ---- *)
(* macros F, G, H, sha1.c 44-46 *)
Definition sha1_F x y z := Z.lxor z (Z.land x (Z.lxor y z)).
Definition sha1_G x y z := Z.lor (Z.land x y) (Z.land z (Z.lor x y)).
Definition sha1_H x y z := Z.lxor (Z.lxor x y) z.

(* body of the loops, sha1.c 75-91 *)
Definition sha1_step (f : Z -> Z -> Z -> Z) (Y : Z) (data : list Z)
    (v : Z * Z * Z * Z * Z) (i : nat) : Z * Z * Z * Z * Z :=
  let '(a, b, c, d, e) := v in
  let t := c_add 32 (c_add 32 (c_add 32 (c_add 32 (f b c d) Y) (c_rol 32 a 5)) e) (nth i data 0) in
  (t, a, c_rol 32 b 30, c, d).

(* SHA1_transform, sha1.c 53-99 *)
Definition sha1_transform (st : list Z) (buf : bytes) : list Z :=
  let data := load_words 4 (copy_and_swap 4 buf) in
  let data := expand (fun data i =>
    let t := Z.lxor (Z.lxor (Z.lxor (nth (i - 3) data 0) (nth (i - 8) data 0)) (nth (i - 14) data 0)) (nth (i - 16) data 0) in
    c_rol 32 t 1) 64 16 data in
  let v := (nth 0 st 0, nth 1 st 0, nth 2 st 0, nth 3 st 0, nth 4 st 0) in
  let v := for_range 0 20 (sha1_step sha1_F 0x5A827999 data) v in
  let v := for_range 20 20 (sha1_step sha1_H 0x6ED9EBA1 data) v in
  let v := for_range 40 20 (sha1_step sha1_G 0x8F1BBCDC data) v in
  let v := for_range 60 20 (sha1_step sha1_H 0xCA62C1D6 data) v in
  let '(a, b, c, d, e) := v in
  [c_add 32 (nth 0 st 0) a; c_add 32 (nth 1 st 0) b; c_add 32 (nth 2 st 0) c;
   c_add 32 (nth 3 st 0) d; c_add 32 (nth 4 st 0) e].

(* SHA1_init, sha1.c 101-111 *)
Definition sha1_iv : list Z := [0x67452301; 0xEFCDAB89; 0x98BADCFE; 0x10325476; 0xC3D2E1F0].

Definition sha1_add_data := md_add_data 64 32 sha1_transform.
Definition sha1_final := md_final 64 32 sha1_transform (enc_length_be 4)
  (fun st => copy_and_swap 4 (store_words 4 (firstn 5 st))).

(* class sha1, cryptokit.ml 1076-1094 *)
Definition sha1_class : hash := c_hash md_ctx 20 sha1_add_data sha1_final md_wipe.

Section Objects.
Variable fresh : Z -> bytes.
Definition sha1_obj : hobj := HObj sha1_class (md_init sha1_iv (fresh 64)).
End Objects.

(* ---- sha256.c and sha512.c ---- *)
(* macros CH, MAJ: sha256.c 24-25, sha512.c 24-25 *)
Definition CH x y z := Z.lxor z (Z.land x (Z.lxor y z)).
Definition MAJ x y z := Z.lor (Z.land x y) (Z.land z (Z.lor x y)).

Section Transform.
Variable w : Z.
Variables SIGMA0 SIGMA1 sigma0 sigma1 : Z -> Z.
Variable constants : list Z.
Variable rounds8 : nat.                 (* number of groups of 8 rounds *)

(* macro STEP(a,b,c,d,e,f,g,h,i), sha256.c 101-105, sha512.c 171-175:
   returns the new values of d and h *)
Definition STEP (data : list Z) (a b c d e f g h : Z) (i : nat) : Z * Z :=
  let t1 := c_add w (c_add w (c_add w (c_add w h (SIGMA1 e)) (CH e f g)) (nth i constants 0)) (nth i data 0) in
  let t2 := c_add w (SIGMA0 a) (MAJ a b c) in
  (c_add w d t1, c_add w t1 t2).

(* body of the loop, sha256.c 107-116, sha512.c 177-186; i = 8 * k *)
Definition eight (data : list Z) (v : Z * Z * Z * Z * Z * Z * Z * Z) (k : nat)
    : Z * Z * Z * Z * Z * Z * Z * Z :=
  let i := (8 * k)%nat in
  let '(a, b, c, d, e, f, g, h) := v in
  let '(d, h) := STEP data a b c d e f g h i in
  let '(c, g) := STEP data h a b c d e f g (i + 1) in
  let '(b, f) := STEP data g h a b c d e f (i + 2) in
  let '(a, e) := STEP data f g h a b c d e (i + 3) in
  let '(h, d) := STEP data e f g h a b c d (i + 4) in
  let '(g, c) := STEP data d e f g h a b c (i + 5) in
  let '(f, b) := STEP data c d e f g h a b (i + 6) in
  let '(e, a) := STEP data b c d e f g h a (i + 7) in
  (a, b, c, d, e, f, g, h).

(* SHA256_transform sha256.c 68-128, SHA512_transform sha512.c 138-198 *)
Definition sha2_transform (st : list Z) (buf : bytes) : list Z :=
  let data := load_words (w / 8) (copy_and_swap (w / 8) buf) in
  let data := expand (fun data i =>
    c_add w (c_add w (c_add w (sigma1 (nth (i - 2) data 0)) (nth (i - 7) data 0))
      (sigma0 (nth (i - 15) data 0))) (nth (i - 16) data 0)) 64 16 data in
  let v := (nth 0 st 0, nth 1 st 0, nth 2 st 0, nth 3 st 0, nth 4 st 0, nth 5 st 0, nth 6 st 0, nth 7 st 0) in
  let '(a, b, c, d, e, f, g, h) := for_range 0 rounds8 (eight data) v in
  [c_add w (nth 0 st 0) a; c_add w (nth 1 st 0) b; c_add w (nth 2 st 0) c; c_add w (nth 3 st 0) d;
   c_add w (nth 4 st 0) e; c_add w (nth 5 st 0) f; c_add w (nth 6 st 0) g; c_add w (nth 7 st 0) h].
End Transform.

(* macros SIGMA0 .. sigma1, sha256.c 26-29 *)
Definition SIGMA0_256 x := Z.lxor (Z.lxor (c_ror 32 x 2) (c_ror 32 x 13)) (c_ror 32 x 22).
Definition SIGMA1_256 x := Z.lxor (Z.lxor (c_ror 32 x 6) (c_ror 32 x 11)) (c_ror 32 x 25).
Definition sigma0_256 x := Z.lxor (Z.lxor (c_ror 32 x 7) (c_ror 32 x 18)) (c_shr x 3).
Definition sigma1_256 x := Z.lxor (Z.lxor (c_ror 32 x 17) (c_ror 32 x 19)) (c_shr x 10).
(* SHA256_constants, sha256.c 49-66 *)
Definition SHA256_constants : list Z :=
  [ 0x428a2f98; 0x71374491; 0xb5c0fbcf; 0xe9b5dba5; 0x3956c25b; 0x59f111f1;
    0x923f82a4; 0xab1c5ed5; 0xd807aa98; 0x12835b01; 0x243185be; 0x550c7dc3;
    0x72be5d74; 0x80deb1fe; 0x9bdc06a7; 0xc19bf174; 0xe49b69c1; 0xefbe4786;
    0x0fc19dc6; 0x240ca1cc; 0x2de92c6f; 0x4a7484aa; 0x5cb0a9dc; 0x76f988da;
    0x983e5152; 0xa831c66d; 0xb00327c8; 0xbf597fc7; 0xc6e00bf3; 0xd5a79147;
    0x06ca6351; 0x14292967; 0x27b70a85; 0x2e1b2138; 0x4d2c6dfc; 0x53380d13;
    0x650a7354; 0x766a0abb; 0x81c2c92e; 0x92722c85; 0xa2bfe8a1; 0xa81a664b;
    0xc24b8b70; 0xc76c51a3; 0xd192e819; 0xd6990624; 0xf40e3585; 0x106aa070;
    0x19a4c116; 0x1e376c08; 0x2748774c; 0x34b0bcb5; 0x391c0cb3; 0x4ed8aa4a;
    0x5b9cca4f; 0x682e6ff3; 0x748f82ee; 0x78a5636f; 0x84c87814; 0x8cc70208;
    0x90befffa; 0xa4506ceb; 0xbef9a3f7; 0xc67178f2 ].

(* macros of sha512.c 26-29 *)
Definition SIGMA0_512 x := Z.lxor (Z.lxor (c_ror 64 x 28) (c_ror 64 x 34)) (c_ror 64 x 39).
Definition SIGMA1_512 x := Z.lxor (Z.lxor (c_ror 64 x 14) (c_ror 64 x 18)) (c_ror 64 x 41).
Definition sigma0_512 x := Z.lxor (Z.lxor (c_ror 64 x 1) (c_ror 64 x 8)) (c_shr x 7).
Definition sigma1_512 x := Z.lxor (Z.lxor (c_ror 64 x 19) (c_ror 64 x 61)) (c_shr x 6).
(* SHA512_constants, sha512.c 55-136 *)
Definition SHA512_constants : list Z :=
  [ 0x428a2f98d728ae22; 0x7137449123ef65cd; 0xb5c0fbcfec4d3b2f; 0xe9b5dba58189dbbc;
    0x3956c25bf348b538; 0x59f111f1b605d019; 0x923f82a4af194f9b; 0xab1c5ed5da6d8118;
    0xd807aa98a3030242; 0x12835b0145706fbe; 0x243185be4ee4b28c; 0x550c7dc3d5ffb4e2;
    0x72be5d74f27b896f; 0x80deb1fe3b1696b1; 0x9bdc06a725c71235; 0xc19bf174cf692694;
    0xe49b69c19ef14ad2; 0xefbe4786384f25e3; 0x0fc19dc68b8cd5b5; 0x240ca1cc77ac9c65;
    0x2de92c6f592b0275; 0x4a7484aa6ea6e483; 0x5cb0a9dcbd41fbd4; 0x76f988da831153b5;
    0x983e5152ee66dfab; 0xa831c66d2db43210; 0xb00327c898fb213f; 0xbf597fc7beef0ee4;
    0xc6e00bf33da88fc2; 0xd5a79147930aa725; 0x06ca6351e003826f; 0x142929670a0e6e70;
    0x27b70a8546d22ffc; 0x2e1b21385c26c926; 0x4d2c6dfc5ac42aed; 0x53380d139d95b3df;
    0x650a73548baf63de; 0x766a0abb3c77b2a8; 0x81c2c92e47edaee6; 0x92722c851482353b;
    0xa2bfe8a14cf10364; 0xa81a664bbc423001; 0xc24b8b70d0f89791; 0xc76c51a30654be30;
    0xd192e819d6ef5218; 0xd69906245565a910; 0xf40e35855771202a; 0x106aa07032bbd1b8;
    0x19a4c116b8d2d0c8; 0x1e376c085141ab53; 0x2748774cdf8eeb99; 0x34b0bcb5e19b48a8;
    0x391c0cb3c5c95a63; 0x4ed8aa4ae3418acb; 0x5b9cca4f7763e373; 0x682e6ff3d6b2b8a3;
    0x748f82ee5defb2fc; 0x78a5636f43172f60; 0x84c87814a1f0ab72; 0x8cc702081a6439ec;
    0x90befffa23631e28; 0xa4506cebde82bde9; 0xbef9a3f7b2c67915; 0xc67178f2e372532b;
    0xca273eceea26619c; 0xd186b8c721c0c207; 0xeada7dd6cde0eb1e; 0xf57d4f7fee6ed178;
    0x06f067aa72176fba; 0x0a637dc5a2c898a6; 0x113f9804bef90dae; 0x1b710b35131c471b;
    0x28db77f523047d84; 0x32caab7b40c72493; 0x3c9ebe0a15c9bebc; 0x431d67c49c100d4c;
    0x4cc5d4becb3e42b6; 0x597f299cfc657e2a; 0x5fcb6fab3ad6faec; 0x6c44198c4a475817 ].

Definition sha256_transform := sha2_transform 32 SIGMA0_256 SIGMA1_256 sigma0_256 sigma1_256 SHA256_constants 8.
Definition sha512_transform := sha2_transform 64 SIGMA0_512 SIGMA1_512 sigma0_512 sigma1_512 SHA512_constants 10.

(* SHA256_init, sha256.c 130-162; SHA512_init, sha512.c 200-232 *)
Definition sha256_iv (bitsize : Z) : list Z :=
  if bitsize =? 224 then
    [0xc1059ed8; 0x367cd507; 0x3070dd17; 0xf70e5939; 0xffc00b31; 0x68581511; 0x64f98fa7; 0xbefa4fa4]
  else if bitsize =? 256 then
    [0x6A09E667; 0xBB67AE85; 0x3C6EF372; 0xA54FF53A; 0x510E527F; 0x9B05688C; 0x1F83D9AB; 0x5BE0CD19]
  else zeros 8.
Definition sha512_iv (bitsize : Z) : list Z :=
  if bitsize =? 512 then
    [0x6a09e667f3bcc908; 0xbb67ae8584caa73b; 0x3c6ef372fe94f82b; 0xa54ff53a5f1d36f1;
     0x510e527fade682d1; 0x9b05688c2b3e6c1f; 0x1f83d9abfb41bd6b; 0x5be0cd19137e2179]
  else if bitsize =? 384 then
    [0xcbbb9d5dc1059ed8; 0x629a292a367cd507; 0x9159015a3070dd17; 0x152fecd8f70e5939;
     0x67332667ffc00b31; 0x8eb44a8768581511; 0xdb0c2e0d64f98fa7; 0x47b5481dbefa4fa4]
  else zeros 8.

(* last lines of SHA256_finish (sha256.c 220-229) and SHA512_finish
   (sha512.c 290-299): number of words copied *)
Definition sha2_output (w : Z) (words : nat) (st : list Z) : bytes :=
  copy_and_swap (w / 8) (store_words (w / 8) (firstn words st)).

Definition sha256_final (words : nat) := md_final 64 32 sha256_transform (enc_length_be 4) (sha2_output 32 words).
Definition sha512_final (words : nat) := md_final 128 64 sha512_transform (enc_length_be 8) (sha2_output 64 words).
Definition sha256_add_data := md_add_data 64 32 sha256_transform.
Definition sha512_add_data := md_add_data 128 64 sha512_transform.

(* classes sha224, sha256, sha384, sha512: cryptokit.ml 1098-1116, 1120-1138,
   1142-1160, 1164-1182, with the hash_size each declares *)
Definition sha224_class : hash := c_hash md_ctx 24 sha256_add_data (sha256_final 7) md_wipe.
Definition sha256_class : hash := c_hash md_ctx 32 sha256_add_data (sha256_final 8) md_wipe.
Definition sha384_class : hash := c_hash md_ctx 48 sha512_add_data (sha512_final 6) md_wipe.
Definition sha512_class : hash := c_hash md_ctx 64 sha512_add_data (sha512_final 8) md_wipe.

Section Objects2.
Variable fresh : Z -> bytes.
Definition sha224_obj : hobj := HObj sha224_class (md_init (sha256_iv 224) (fresh 64)).
Definition sha256_obj : hobj := HObj sha256_class (md_init (sha256_iv 256) (fresh 64)).
Definition sha384_obj : hobj := HObj sha384_class (md_init (sha512_iv 384) (fresh 128)).
Definition sha512_obj : hobj := HObj sha512_class (md_init (sha512_iv 512) (fresh 128)).

(* sha2, cryptokit.ml 1186-1192 *)
Definition sha2_obj (sz : Z) : out hobj :=
  if sz =? 224 then Ret sha224_obj else if sz =? 256 then Ret sha256_obj
  else if sz =? 384 then Ret sha384_obj else if sz =? 512 then Ret sha512_obj
  else Raise (Error Wrong_key_size).
End Objects2.
