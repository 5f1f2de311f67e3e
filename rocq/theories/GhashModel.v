(* Model of /repo/src/ghash.c, pclmul.c and stubs-ghash.c. *)
From Verif Require Import Prelude BytesNum Word.

(* ---- ghash.c: tables of 16 entries, HH and HL ---- *)
Record gctx := GC { g_HH : list Z; g_HL : list Z }.

(* ghash.c 24-35: get_uint64_be *)
Definition get_uint64_be (b : bytes) (i : nat) : Z :=
  let B j := nth (i + j) b 0 in
  Z.lor (Z.lor (Z.lor (Z.lor (Z.lor (Z.lor (Z.lor (c_shl 64 (B 0%nat) 56) (c_shl 64 (B 1%nat) 48)) (c_shl 64 (B 2%nat) 40)) (c_shl 64 (B 3%nat) 32))
    (c_shl 64 (B 4%nat) 24)) (c_shl 64 (B 5%nat) 16)) (c_shl 64 (B 6%nat) 8)) (B 7%nat).
(* ghash.c 37-47: put_uint64_be; the stores keep the low 8 bits *)
Definition put_uint64_be (n : Z) : bytes :=
  map (fun k => c_shr n k mod 256) [56; 48; 40; 32; 24; 16; 8; 0].

Definition upd (l : list Z) (i : nat) (x : Z) : list Z := firstn i l ++ x :: skipn (S i) l.

(* ghash.c 53-56 *)
Definition last4 : list Z := [
  0x0000; 0x1c20; 0x3840; 0x2460; 0x7080; 0x6ca0; 0x48c0; 0x54e0;
  0xe100; 0xfd20; 0xd940; 0xc560; 0x9180; 0x8da0; 0xa9c0; 0xb5e0].

(* ghash.c 71-77, 79-84: shift by four bits, reduce, add a table entry *)
Definition gh_step (c : gctx) (z : Z * Z) (nib : Z) : Z * Z :=
  let '(zh, zl) := z in
  let rem := Z.land zl 0x0f in
  let zl := Z.lor (c_shl 64 zh 60) (c_shr zl 4) in
  let zh := c_shr zh 4 in
  let zh := Z.lxor zh (c_shl 64 (nth (Z.to_nat rem) last4 0) 48) in
  (Z.lxor zh (nth (Z.to_nat nib) (g_HH c) 0), Z.lxor zl (nth (Z.to_nat nib) (g_HL c) 0)).

(* ghash.c 49-88: ghash_mult; the loop body for one i *)
Definition gh_byte (c : gctx) (input : bytes) (z : Z * Z) (i : nat) : Z * Z :=
  let lo := Z.land (nth i input 0) 0x0f in
  let hi := c_shr (nth i input 0) 4 in
  let z := if (i =? 15)%nat then z else gh_step c z lo in
  gh_step c z hi.
Definition tab_mult (c : gctx) (input : bytes) : bytes :=
  let lo := Z.to_nat (Z.land (nth 15 input 0) 0x0f) in
  let '(zh, zl) := fold_left (gh_byte c input) (rev (seq 0 16)) (nth lo (g_HH c) 0, nth lo (g_HL c) 0) in
  put_uint64_be zh ++ put_uint64_be zl.

(* ghash.c 90-125: ghash_init *)
Definition gi_shift (s : gctx * (Z * Z)) (i : nat) : gctx * (Z * Z) :=
  let '(c, (vh, vl)) := s in
  let T := Z.land vl 1 * 0xe1000000 in
  let vl := Z.lor (c_shl 64 vh 63) (c_shr vl 1) in
  let vh' := Z.lxor (c_shr vh 1) (c_shl 64 T 32) in
  (GC (upd (g_HH c) i vh') (upd (g_HL c) i vl), (vh', vl)).
Definition gi_fill (c : gctx) (i : nat) : gctx :=
  let vh := nth i (g_HH c) 0 in
  let vl := nth i (g_HL c) 0 in
  fold_left (fun c j => GC (upd (g_HH c) (i + j) (Z.lxor vh (nth j (g_HH c) 0))) (upd (g_HL c) (i + j) (Z.lxor vl (nth j (g_HL c) 0))))
    (seq 1 (i - 1)) c.
Definition tab_init (h : bytes) : gctx :=
  let c := GC (repeat 0 16) (repeat 0 16) in
  let vh := get_uint64_be h 0 in
  let vl := get_uint64_be h 8 in
  let c := GC (upd (upd (g_HH c) 8 vh) 0 0) (upd (upd (g_HL c) 8 vl) 0 0) in
  let '(c, _) := fold_left gi_shift [4; 2; 1]%nat (c, (vh, vl)) in
  fold_left gi_fill [2; 4; 8]%nat c.

(* ---- pclmul.c 49-101.  A register is a number below 2^128, little endian;
   the intrinsics as in Intel's manual.  Lanes are joined with xor: they do
   not overlap. ---- *)
Definition clmul64 (a b : Z) : Z :=
  fold_left (fun z i => if Z.testbit b (Z.of_nat i) then Z.lxor z (Z.shiftl a (Z.of_nat i)) else z) (seq 0 64) 0.
Definition mm_half (x : Z) (high : bool) : Z := if high then Z.shiftr x 64 else x mod 2 ^ 64.
Definition mm_clmulepi64 (a b : Z) (imm : Z) : Z := clmul64 (mm_half a (Z.testbit imm 0)) (mm_half b (Z.testbit imm 4)).
Definition mm_slli_si128 (x n : Z) : Z := Z.shiftl x (8 * n) mod 2 ^ 128.
Definition mm_srli_si128 (x n : Z) : Z := Z.shiftr x (8 * n).
Definition lane32 (x i : Z) : Z := Z.shiftr x (32 * i) mod 2 ^ 32.
Definition lanes32 (f : Z -> Z) (x : Z) : Z :=
  Z.lxor (Z.lxor (f (lane32 x 0)) (Z.shiftl (f (lane32 x 1)) 32)) (Z.lxor (Z.shiftl (f (lane32 x 2)) 64) (Z.shiftl (f (lane32 x 3)) 96)).
Definition mm_slli_epi32 (x n : Z) : Z := lanes32 (fun l => c_shl 32 l n) x.
Definition mm_srli_epi32 (x n : Z) : Z := lanes32 (fun l => c_shr l n) x.

(* pclmul.c 57-68: the product, low and high halves *)
Definition pcl_product (tmp0 tmp1 : Z) : Z * Z :=
  let tmp3 := mm_clmulepi64 tmp0 tmp1 0x00 in
  let tmp4 := mm_clmulepi64 tmp0 tmp1 0x10 in
  let tmp5 := mm_clmulepi64 tmp0 tmp1 0x01 in
  let tmp6 := mm_clmulepi64 tmp0 tmp1 0x11 in
  let tmp4 := Z.lxor tmp4 tmp5 in
  let tmp5 := mm_slli_si128 tmp4 8 in
  let tmp4 := mm_srli_si128 tmp4 8 in
  let tmp3 := Z.lxor tmp3 tmp5 in
  let tmp6 := Z.lxor tmp6 tmp4 in
  (tmp3, tmp6).
(* 70-80: shift the product left by one bit *)
Definition pcl_shift (p : Z * Z) : Z * Z :=
  let '(tmp3, tmp6) := p in
  let tmp7 := mm_srli_epi32 tmp3 31 in
  let tmp8 := mm_srli_epi32 tmp6 31 in
  let tmp3 := mm_slli_epi32 tmp3 1 in
  let tmp6 := mm_slli_epi32 tmp6 1 in
  let tmp9 := mm_srli_si128 tmp7 12 in
  let tmp8 := mm_slli_si128 tmp8 4 in
  let tmp7 := mm_slli_si128 tmp7 4 in
  let tmp3 := Z.lor tmp3 tmp7 in
  let tmp6 := Z.lor tmp6 tmp8 in
  let tmp6 := Z.lor tmp6 tmp9 in
  (tmp3, tmp6).
(* 82-98: reduce *)
Definition pcl_reduce (p : Z * Z) : Z :=
  let '(tmp3, tmp6) := p in
  let tmp7 := mm_slli_epi32 tmp3 31 in
  let tmp8 := mm_slli_epi32 tmp3 30 in
  let tmp9 := mm_slli_epi32 tmp3 25 in
  let tmp7 := Z.lxor tmp7 tmp8 in
  let tmp7 := Z.lxor tmp7 tmp9 in
  let tmp8 := mm_srli_si128 tmp7 4 in
  let tmp7 := mm_slli_si128 tmp7 12 in
  let tmp3 := Z.lxor tmp3 tmp7 in
  let tmp2 := mm_srli_epi32 tmp3 1 in
  let tmp4 := mm_srli_epi32 tmp3 2 in
  let tmp5 := mm_srli_epi32 tmp3 7 in
  let tmp2 := Z.lxor tmp2 tmp4 in
  let tmp2 := Z.lxor tmp2 tmp5 in
  let tmp2 := Z.lxor tmp2 tmp8 in
  let tmp3 := Z.lxor tmp3 tmp2 in
  Z.lxor tmp6 tmp3.
(* 39-47, 54-55, 100-101: copy_reverse_16 makes the registers big-endian numbers *)
Definition pclmul_mult (arg1 arg2 : bytes) : bytes :=
  let tmp0 := le (rev (firstn 16 arg1)) in
  let tmp1 := le (rev (firstn 16 arg2)) in
  rev (to_le 16 (pcl_reduce (pcl_shift (pcl_product tmp0 tmp1)))).

(* ---- stubs-ghash.c 41-66.  [accel]: the processor has PCLMULQDQ.  Then the
   context is the key itself.  Lengths are not checked. ---- *)
Inductive ghash_ctx := GKey (key : bytes) | GTab (c : gctx).
Definition ghash_init (accel : bool) (key : bytes) : out ghash_ctx :=
  if accel then Ret (GKey key)
  else if zlen key <? 16 then Undef else Ret (GTab (tab_init key)).
(* the result replaces the first 16 bytes of x *)
Definition ghash_mult (c : ghash_ctx) (x : bytes) : out bytes :=
  if zlen x <? 16 then Undef else
  match c with
  | GKey key => if zlen key <? 16 then Undef else Ret (splice x 0 (pclmul_mult key x))
  | GTab t => Ret (splice x 0 (tab_mult t x))
  end.
