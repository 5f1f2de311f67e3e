(* Model: the buffering of sha1.c, sha256.c, sha512.c and ripemd160.c.  The
   four files contain the same code up to the block size, the width of the
   length words, their order and the compression function; the model has
   these as parameters. *)
From Verif Require Import Prelude BytesNum Word.

(* memcpy into a C array: undefined behaviour outside of it *)
Definition c_memcpy (dst : bytes) (ofs : Z) (src : bytes) : out bytes :=
  if in_range dst ofs (zlen src) then Ret (splice dst ofs src) else Undef.
(* memset (dst + ofs, 0, n); a negative n is a huge size_t *)
Definition c_memset0 (dst : bytes) (ofs n : Z) : out bytes :=
  if in_range dst ofs n then Ret (splice dst ofs (zeros n)) else Undef.

(* struct SHA1Context (sha1.h), SHA256Context, SHA512Context,
   RIPEMD160Context; md_hi and md_lo are length[0] and length[1] in the SHA
   files, length[1] and length[0] in ripemd160.c *)
Record md_ctx := MD {
  md_state : list Z; md_hi : Z; md_lo : Z; md_num : Z; md_buf : bytes }.

Section MD.
Variable B : Z.                        (* block size, bytes: 64 or 128 *)
Variable W : Z.                        (* bits of a length word: 32 or 64 *)
Variable compress : list Z -> bytes -> list Z.
Variable enc_length : Z -> Z -> bytes. (* high word, low word *)

(* "Update length": sha1.c 118-122, sha256.c 169-173, sha512.c 239-243,
   ripemd160.c 338-342.  len is a 64-bit unsigned long. *)
Definition md_add_length (hi lo len : Z) : Z * Z :=
  let lo' := c_add W lo (c_shl 64 len 3 mod 2 ^ W) in
  let hi1 := if lo' <? lo then c_add W hi 1 else hi in
  (c_add W hi1 (c_shr len (W - 3) mod 2 ^ W), lo').

(* "Munge data in 64-byte chunks" and "Save remaining data": sha1.c 137-146,
   sha256.c 188-197, sha512.c 258-267, ripemd160.c 357-366.  One iteration
   per block: [length data] iterations are enough (B > 0). *)
Fixpoint md_blocks (fuel : nat) (st : list Z) (buf data : bytes) : out (list Z * Z * bytes) :=
  match fuel with
  | O => Hang
  | S f =>
      if zlen data >=? B then
        olet buf := c_memcpy buf 0 (firstn (Z.to_nat B) data) in
        md_blocks f (compress st buf) buf (skipn (Z.to_nat B) data)
      else
        olet buf := c_memcpy buf 0 data in
        Ret (st, zlen data, buf)
  end.

(* SHA1_add_data sha1.c 113-147, SHA256_add_data sha256.c 164-198,
   SHA512_add_data sha512.c 234-268, RIPEMD160_add_data ripemd160.c 333-367 *)
Definition md_add_data (c : md_ctx) (data : bytes) : out md_ctx :=
  let '(hi, lo) := md_add_length (md_hi c) (md_lo c) (zlen data) in
  let rest st buf data :=
    olet r := md_blocks (S (length data)) st buf data in
    let '(st, num, buf) := r in Ret (MD st hi lo num buf) in
  if negb (md_num c =? 0) then
    let t := B - md_num c in
    if zlen data <? t then
      olet buf := c_memcpy (md_buf c) (md_num c) data in
      Ret (MD (md_state c) hi lo (md_num c + zlen data) buf)
    else
      olet buf := c_memcpy (md_buf c) (md_num c) (firstn (Z.to_nat t) data) in
      rest (compress (md_state c) buf) buf (skipn (Z.to_nat t) data)
  else rest (md_state c) (md_buf c) data.

(* SHA1_finish sha1.c 149-170, SHA256_finish sha256.c 200-230, SHA512_finish
   sha512.c 270-300, RIPEMD160_finish ripemd160.c 369-390, without the final
   copy of the state to the output *)
Definition md_finish (c : md_ctx) : out md_ctx :=
  let L := 2 * (W / 8) in
  olet buf := c_memcpy (md_buf c) (md_num c) [128] in
  let i := md_num c + 1 in
  olet r := (if i >? B - L then
               olet buf := c_memset0 buf i (B - i) in
               Ret (compress (md_state c) buf, buf, 0)
             else Ret (md_state c, buf, i)) in
  let '(st, buf, i) := r in
  olet buf := c_memset0 buf i (B - L - i) in
  olet buf := c_memcpy buf (B - L) (enc_length (md_hi c) (md_lo c)) in
  Ret (MD (compress st buf) (md_hi c) (md_lo c) (md_num c) buf).

(* the C stub: finish, then copy the state to a fresh string
   (stubs-sha1.c 34-42 and the same functions of stubs-sha256.c,
   stubs-sha512.c, stubs-ripemd160.c) *)
Definition md_final (output : list Z -> bytes) (c : md_ctx) : md_ctx * out bytes :=
  match md_finish c with
  | Ret c' => (c', Ret (output (md_state c')))
  | Raise e => (c, Raise e) | Undef => (c, Undef) | Hang => (c, Hang)
  end.

(* SHA1_init sha1.c 101-111 etc.: numbytes = 0, length = 0; the buffer is not
   initialized *)
Definition md_init (iv : list Z) (buf : bytes) : md_ctx := MD iv 0 0 0 buf.

(* wipe_bytes context: all zero *)
Definition md_wipe (c : md_ctx) : md_ctx :=
  MD (map (fun _ => 0) (md_state c)) 0 0 0 (zeros (zlen (md_buf c))).
End MD.
