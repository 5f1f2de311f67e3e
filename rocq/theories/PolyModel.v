(* Poly1305: poly1305-donna.c, poly1305-donna-64.h, poly1305-donna-32.h,
   stubs-poly1305.c. *)
From Verif Require Import Prelude BytesNum Word MdModel.

(* The arithmetic of the two variants is written with a parameter
   [w : Z -> Z -> Z]: [w n x] is what a sum or product x computed in an
   unsigned n-bit type gives.  The machine is [mach]; the theorems hold for any w
   that is right on the results that fit, so no such result overflows.  Where
   the code relies on truncation (left shifts, the conversions to uint32_t of
   the final addition, the borrow in the comparison with p) the model has an
   explicit mod. *)
Definition mach (n x : Z) : Z := x mod 2 ^ n.

(* U8TO64 / U8TO32, -64.h 39-50, -32.h 24-31: n bytes at offset i *)
Definition u8to (n : Z) (m : bytes) (i : Z) : Z := le (sub m i n).

(* what the two variants provide: the limbs, poly1305_init, one iteration of
   poly1305_blocks with hibit (st->final = 0) or without, and the computation
   of the tag in poly1305_finish *)
Record poly_impl := {
  pi_st : Type;
  pi_init : bytes -> pi_st;
  pi_block : pi_st -> bool -> bytes -> pi_st;
  pi_tag : pi_st -> bytes;
  pi_zero : pi_st }.

Section W.
Variable w : Z -> Z -> Z.

(* ---- 64-bit variant ---- *)
Record p64 := P64 { x_r0 : Z; x_r1 : Z; x_r2 : Z; x_h0 : Z; x_h1 : Z; x_h2 : Z; x_pad0 : Z; x_pad1 : Z }.

(* poly1305-donna-64.h 62-86 *)
Definition p64_init (key : bytes) : p64 :=
  let t0 := u8to 8 key 0 in
  let t1 := u8to 8 key 8 in
  P64 (Z.land t0 0xffc0fffffff)
      (Z.land (Z.lor (c_shr t0 44) (c_shl 64 t1 20)) 0xfffffc0ffff)
      (Z.land (c_shr t1 24) 0x00ffffffc0f)
      0 0 0 (u8to 8 key 16) (u8to 8 key 24).

(* body of the loop of poly1305_blocks, poly1305-donna-64.h 88-139 *)
Definition p64_block (s : p64) (final : bool) (m : bytes) : p64 :=
  let hibit := if final then 0 else 2 ^ 40 in
  let r0 := x_r0 s in let r1 := x_r1 s in let r2 := x_r2 s in
  let s1 := w 64 (r1 * 20) in
  let s2 := w 64 (r2 * 20) in
  let t0 := u8to 8 m 0 in
  let t1 := u8to 8 m 8 in
  let h0 := w 64 (x_h0 s + Z.land t0 0xfffffffffff) in
  let h1 := w 64 (x_h1 s + Z.land (Z.lor (c_shr t0 44) (c_shl 64 t1 20)) 0xfffffffffff) in
  let h2 := w 64 (x_h2 s + Z.lor (Z.land (c_shr t1 24) 0x3ffffffffff) hibit) in
  let d0 := w 128 (w 128 (w 128 (h0 * r0) + w 128 (h1 * s2)) + w 128 (h2 * s1)) in
  let d1 := w 128 (w 128 (w 128 (h0 * r1) + w 128 (h1 * r0)) + w 128 (h2 * s2)) in
  let d2 := w 128 (w 128 (w 128 (h0 * r2) + w 128 (h1 * r1)) + w 128 (h2 * r0)) in
  let c := w 64 (c_shr d0 44) in let h0 := Z.land (d0 mod 2 ^ 64) 0xfffffffffff in
  let d1 := w 128 (d1 + c) in
  let c := w 64 (c_shr d1 44) in let h1 := Z.land (d1 mod 2 ^ 64) 0xfffffffffff in
  let d2 := w 128 (d2 + c) in
  let c := w 64 (c_shr d2 42) in let h2 := Z.land (d2 mod 2 ^ 64) 0x3ffffffffff in
  let h0 := w 64 (h0 + w 64 (c * 5)) in
  let c := c_shr h0 44 in let h0 := Z.land h0 0xfffffffffff in
  let h1 := w 64 (h1 + c) in
  P64 r0 r1 r2 h0 h1 h2 (x_pad0 s) (x_pad1 s).

(* poly1305_finish after the last block, poly1305-donna-64.h 158-211 *)
Definition p64_tag (s : p64) : bytes :=
  let h0 := x_h0 s in let h1 := x_h1 s in let h2 := x_h2 s in
  let c := c_shr h1 44 in let h1 := Z.land h1 0xfffffffffff in
  let h2 := w 64 (h2 + c) in let c := c_shr h2 42 in let h2 := Z.land h2 0x3ffffffffff in
  let h0 := w 64 (h0 + w 64 (c * 5)) in let c := c_shr h0 44 in let h0 := Z.land h0 0xfffffffffff in
  let h1 := w 64 (h1 + c) in let c := c_shr h1 44 in let h1 := Z.land h1 0xfffffffffff in
  let h2 := w 64 (h2 + c) in let c := c_shr h2 42 in let h2 := Z.land h2 0x3ffffffffff in
  let h0 := w 64 (h0 + w 64 (c * 5)) in let c := c_shr h0 44 in let h0 := Z.land h0 0xfffffffffff in
  let h1 := w 64 (h1 + c) in
  (* compute h + -p *)
  let g0 := w 64 (h0 + 5) in let c := c_shr g0 44 in let g0 := Z.land g0 0xfffffffffff in
  let g1 := w 64 (h1 + c) in let c := c_shr g1 44 in let g1 := Z.land g1 0xfffffffffff in
  let g2 := (w 64 (h2 + c) - 2 ^ 42) mod 2 ^ 64 in
  (* select h if h < p, or h + -p if h >= p *)
  let c := (c_shr g2 63 - 1) mod 2 ^ 64 in
  let g0 := Z.land g0 c in let g1 := Z.land g1 c in let g2 := Z.land g2 c in
  let c := c_not 64 c in
  let h0 := Z.lor (Z.land h0 c) g0 in
  let h1 := Z.lor (Z.land h1 c) g1 in
  let h2 := Z.lor (Z.land h2 c) g2 in
  (* h = (h + pad) *)
  let t0 := x_pad0 s in let t1 := x_pad1 s in
  let h0 := w 64 (h0 + Z.land t0 0xfffffffffff) in
  let c := c_shr h0 44 in let h0 := Z.land h0 0xfffffffffff in
  let h1 := w 64 (h1 + w 64 (Z.land (Z.lor (c_shr t0 44) (c_shl 64 t1 20)) 0xfffffffffff + c)) in
  let c := c_shr h1 44 in let h1 := Z.land h1 0xfffffffffff in
  let h2 := w 64 (h2 + w 64 (Z.land (c_shr t1 24) 0x3ffffffffff + c)) in
  let h2 := Z.land h2 0x3ffffffffff in
  (* mac = h % (2^128) *)
  let o0 := Z.lor h0 (c_shl 64 h1 44) in
  let o1 := Z.lor (c_shr h1 20) (c_shl 64 h2 24) in
  to_le 8 o0 ++ to_le 8 o1.

Definition poly64 : poly_impl := {|
  pi_st := p64; pi_init := p64_init; pi_block := p64_block; pi_tag := p64_tag;
  pi_zero := P64 0 0 0 0 0 0 0 0 |}.

(* ---- 32-bit variant ---- *)
Record p32 := P32 { y_r0 : Z; y_r1 : Z; y_r2 : Z; y_r3 : Z; y_r4 : Z;
  y_h0 : Z; y_h1 : Z; y_h2 : Z; y_h3 : Z; y_h4 : Z;
  y_pad0 : Z; y_pad1 : Z; y_pad2 : Z; y_pad3 : Z }.

(* poly1305-donna-32.h 43-69 *)
Definition p32_init (key : bytes) : p32 :=
  P32 (Z.land (u8to 4 key 0) 0x3ffffff)
      (Z.land (c_shr (u8to 4 key 3) 2) 0x3ffff03)
      (Z.land (c_shr (u8to 4 key 6) 4) 0x3ffc0ff)
      (Z.land (c_shr (u8to 4 key 9) 6) 0x3f03fff)
      (Z.land (c_shr (u8to 4 key 12) 8) 0x00fffff)
      0 0 0 0 0
      (u8to 4 key 16) (u8to 4 key 20) (u8to 4 key 24) (u8to 4 key 28).

(* a 64-bit sum of five products of 32-bit numbers *)
Definition sum5 (a b c d e : Z) : Z :=
  w 64 (w 64 (w 64 (w 64 (w 64 a + w 64 b) + w 64 c) + w 64 d) + w 64 e).

(* body of the loop of poly1305_blocks, poly1305-donna-32.h 71-130 *)
Definition p32_block (s : p32) (final : bool) (m : bytes) : p32 :=
  let hibit := if final then 0 else 2 ^ 24 in
  let r0 := y_r0 s in let r1 := y_r1 s in let r2 := y_r2 s in let r3 := y_r3 s in let r4 := y_r4 s in
  let s1 := w 32 (r1 * 5) in let s2 := w 32 (r2 * 5) in
  let s3 := w 32 (r3 * 5) in let s4 := w 32 (r4 * 5) in
  let h0 := w 32 (y_h0 s + Z.land (u8to 4 m 0) 0x3ffffff) in
  let h1 := w 32 (y_h1 s + Z.land (c_shr (u8to 4 m 3) 2) 0x3ffffff) in
  let h2 := w 32 (y_h2 s + Z.land (c_shr (u8to 4 m 6) 4) 0x3ffffff) in
  let h3 := w 32 (y_h3 s + Z.land (c_shr (u8to 4 m 9) 6) 0x3ffffff) in
  let h4 := w 32 (y_h4 s + Z.lor (c_shr (u8to 4 m 12) 8) hibit) in
  let d0 := sum5 (h0 * r0) (h1 * s4) (h2 * s3) (h3 * s2) (h4 * s1) in
  let d1 := sum5 (h0 * r1) (h1 * r0) (h2 * s4) (h3 * s3) (h4 * s2) in
  let d2 := sum5 (h0 * r2) (h1 * r1) (h2 * r0) (h3 * s4) (h4 * s3) in
  let d3 := sum5 (h0 * r3) (h1 * r2) (h2 * r1) (h3 * r0) (h4 * s4) in
  let d4 := sum5 (h0 * r4) (h1 * r3) (h2 * r2) (h3 * r1) (h4 * r0) in
  let c := w 32 (c_shr d0 26) in let h0 := Z.land (d0 mod 2 ^ 32) 0x3ffffff in
  let d1 := w 64 (d1 + c) in
  let c := w 32 (c_shr d1 26) in let h1 := Z.land (d1 mod 2 ^ 32) 0x3ffffff in
  let d2 := w 64 (d2 + c) in
  let c := w 32 (c_shr d2 26) in let h2 := Z.land (d2 mod 2 ^ 32) 0x3ffffff in
  let d3 := w 64 (d3 + c) in
  let c := w 32 (c_shr d3 26) in let h3 := Z.land (d3 mod 2 ^ 32) 0x3ffffff in
  let d4 := w 64 (d4 + c) in
  let c := w 32 (c_shr d4 26) in let h4 := Z.land (d4 mod 2 ^ 32) 0x3ffffff in
  let h0 := w 32 (h0 + w 32 (c * 5)) in
  let c := c_shr h0 26 in let h0 := Z.land h0 0x3ffffff in
  let h1 := w 32 (h1 + c) in
  P32 r0 r1 r2 r3 r4 h0 h1 h2 h3 h4 (y_pad0 s) (y_pad1 s) (y_pad2 s) (y_pad3 s).

(* poly1305_finish after the last block, poly1305-donna-32.h 150-218 *)
Definition p32_tag (s : p32) : bytes :=
  let h0 := y_h0 s in let h1 := y_h1 s in let h2 := y_h2 s in let h3 := y_h3 s in let h4 := y_h4 s in
  let c := c_shr h1 26 in let h1 := Z.land h1 0x3ffffff in
  let h2 := w 32 (h2 + c) in let c := c_shr h2 26 in let h2 := Z.land h2 0x3ffffff in
  let h3 := w 32 (h3 + c) in let c := c_shr h3 26 in let h3 := Z.land h3 0x3ffffff in
  let h4 := w 32 (h4 + c) in let c := c_shr h4 26 in let h4 := Z.land h4 0x3ffffff in
  let h0 := w 32 (h0 + w 32 (c * 5)) in let c := c_shr h0 26 in let h0 := Z.land h0 0x3ffffff in
  let h1 := w 32 (h1 + c) in
  (* compute h + -p *)
  let g0 := w 32 (h0 + 5) in let c := c_shr g0 26 in let g0 := Z.land g0 0x3ffffff in
  let g1 := w 32 (h1 + c) in let c := c_shr g1 26 in let g1 := Z.land g1 0x3ffffff in
  let g2 := w 32 (h2 + c) in let c := c_shr g2 26 in let g2 := Z.land g2 0x3ffffff in
  let g3 := w 32 (h3 + c) in let c := c_shr g3 26 in let g3 := Z.land g3 0x3ffffff in
  let g4 := (w 32 (h4 + c) - 2 ^ 26) mod 2 ^ 32 in
  (* select h if h < p, or h + -p if h >= p *)
  let mask := (c_shr g4 31 - 1) mod 2 ^ 32 in
  let g0 := Z.land g0 mask in let g1 := Z.land g1 mask in let g2 := Z.land g2 mask in
  let g3 := Z.land g3 mask in let g4 := Z.land g4 mask in
  let mask := c_not 32 mask in
  let h0 := Z.lor (Z.land h0 mask) g0 in
  let h1 := Z.lor (Z.land h1 mask) g1 in
  let h2 := Z.lor (Z.land h2 mask) g2 in
  let h3 := Z.lor (Z.land h3 mask) g3 in
  let h4 := Z.lor (Z.land h4 mask) g4 in
  (* h = h % (2^128) *)
  let o0 := Z.lor h0 (c_shl 32 h1 26) in
  let o1 := Z.lor (c_shr h1 6) (c_shl 32 h2 20) in
  let o2 := Z.lor (c_shr h2 12) (c_shl 32 h3 14) in
  let o3 := Z.lor (c_shr h3 18) (c_shl 32 h4 8) in
  (* mac = (h + pad) % (2^128) *)
  let f := w 64 (o0 + y_pad0 s) in let o0 := f mod 2 ^ 32 in
  let f := w 64 (w 64 (o1 + y_pad1 s) + c_shr f 32) in let o1 := f mod 2 ^ 32 in
  let f := w 64 (w 64 (o2 + y_pad2 s) + c_shr f 32) in let o2 := f mod 2 ^ 32 in
  let f := w 64 (w 64 (o3 + y_pad3 s) + c_shr f 32) in let o3 := f mod 2 ^ 32 in
  to_le 4 o0 ++ to_le 4 o1 ++ to_le 4 o2 ++ to_le 4 o3.

Definition poly32 : poly_impl := {|
  pi_st := p32; pi_init := p32_init; pi_block := p32_block; pi_tag := p32_tag;
  pi_zero := P32 0 0 0 0 0 0 0 0 0 0 0 0 0 0 |}.
End W.

(* ---- common part ---- *)
Section Common.
Variable P : poly_impl.

(* struct poly1305_state_internal_t *)
Record pctx := PC { pc_st : pi_st P; pc_left : Z; pc_buf : bytes; pc_final : bool }.

(* poly1305_blocks: n iterations *)
Fixpoint poly_blocks (n : nat) (s : pi_st P) (final : bool) (m : bytes) : pi_st P :=
  match n with
  | O => s
  | S n' => poly_blocks n' (pi_block P s final (firstn 16 m)) final (skipn 16 m)
  end.

(* poly1305_update, poly1305-donna.c 15-51; m is the data *)
Definition poly_rest (c : pctx) (m : bytes) : out pctx :=
  let want := if 16 <=? zlen m then 16 * (zlen m / 16) (* bytes & ~15 *) else 0 in
  let s := poly_blocks (Z.to_nat (want / 16)) (pc_st c) (pc_final c) m in
  let m := skipn (Z.to_nat want) m in
  if zlen m =? 0 then Ret (PC s (pc_left c) (pc_buf c) (pc_final c))
  else olet buf := c_memcpy (pc_buf c) (pc_left c) m in
       Ret (PC s (pc_left c + zlen m) buf (pc_final c)).
Definition poly_update (c : pctx) (m : bytes) : out pctx :=
  if pc_left c =? 0 then poly_rest c m
  else
    let want := Z.min (16 - pc_left c) (zlen m) in
    olet buf := c_memcpy (pc_buf c) (pc_left c) (firstn (Z.to_nat want) m) in
    let m := skipn (Z.to_nat want) m in
    let left := pc_left c + want in
    if left <? 16 then Ret (PC (pc_st c) left buf (pc_final c))
    else poly_rest (PC (poly_blocks 1 (pc_st c) (pc_final c) buf) 0 buf (pc_final c)) m.

(* poly1305_finish, poly1305-donna-64.h 141-211, -32.h 132-218: the remaining
   block, the tag, and the clearing of the state *)
Definition poly_finish (c : pctx) : pctx * out bytes :=
  if pc_left c =? 0 then (PC (pi_zero P) 0 (pc_buf c) (pc_final c), Ret (pi_tag P (pc_st c)))
  else match c_memcpy (pc_buf c) (pc_left c) (1 :: zeros (15 - pc_left c)) with
       | Ret buf =>
           let s := poly_blocks 1 (pc_st c) true buf in
           (PC (pi_zero P) (pc_left c) buf true, Ret (pi_tag P s))
       | Raise e => (c, Raise e) | Undef => (c, Undef) | Hang => (c, Hang)
       end.

(* stubs-poly1305.c 20-42.  The context is allocated but not filled; 32 bytes
   of the key are read without a check. *)
Definition poly1305_init (fresh : Z -> bytes) (key : bytes) : out pctx :=
  if zlen key <? 32 then Undef else Ret (PC (pi_init P key) 0 (fresh 16) false).
Definition poly1305_update (c : pctx) (src : bytes) (ofs len : Z) : pctx * out unit :=
  if in_range src ofs len then
    match poly_update c (sub src ofs len) with
    | Ret c' => (c', Ret tt)
    | Raise e => (c, Raise e) | Undef => (c, Undef) | Hang => (c, Hang)
    end
  else (c, Undef).
Definition poly1305_final (c : pctx) : pctx * out bytes := poly_finish c.
(* wipe_bytes on the context *)
Definition poly1305_wipe (c : pctx) : pctx := PC (pi_zero P) 0 (zeros 16) false.
End Common.
Arguments PC {P}. Arguments pc_st {P}. Arguments pc_left {P}. Arguments pc_buf {P}. Arguments pc_final {P}.
