(* Model: blake2.c, stubs-blake2.c, classes blake2b and blake2s.  The code for
   BLAKE2b and for BLAKE2s is the same up to the word size, the number of
   rounds, the rotations and the initial values; the model has these as
   parameters. *)
From Verif Require Import Prelude BytesNum SpecBlock Word WordIO HashModel MdModel ShaModel KeccakModel.

(* BLAKE2_sigma, blake2.c 21-34 *)
Definition BLAKE2_sigma : list (list nat) :=
  [[0; 1; 2; 3; 4; 5; 6; 7; 8; 9; 10; 11; 12; 13; 14; 15];
   [14; 10; 4; 8; 9; 15; 13; 6; 1; 12; 0; 2; 11; 7; 5; 3];
   [11; 8; 12; 0; 5; 2; 15; 13; 10; 14; 3; 6; 7; 1; 9; 4];
   [7; 9; 3; 1; 13; 12; 11; 14; 2; 6; 5; 10; 4; 0; 15; 8];
   [9; 0; 5; 7; 2; 4; 10; 15; 14; 1; 11; 12; 6; 8; 3; 13];
   [2; 12; 6; 10; 0; 11; 8; 3; 4; 13; 7; 5; 15; 14; 1; 9];
   [12; 5; 1; 15; 14; 13; 4; 10; 0; 7; 6; 3; 9; 2; 8; 11];
   [13; 11; 7; 14; 12; 1; 3; 9; 5; 0; 15; 4; 8; 6; 2; 10];
   [6; 15; 14; 9; 11; 3; 0; 8; 12; 2; 13; 7; 1; 4; 10; 5];
   [10; 2; 8; 4; 7; 6; 1; 5; 15; 11; 9; 14; 3; 12; 13; 0];
   [0; 1; 2; 3; 4; 5; 6; 7; 8; 9; 10; 11; 12; 13; 14; 15];
   [14; 10; 4; 8; 9; 15; 13; 6; 1; 12; 0; 2; 11; 7; 5; 3]]%nat.

(* struct blake2b, blake2s: blake2.h 18-23 and 34-39 *)
Record b2_ctx := B2 { b2_h : list Z; b2_len0 : Z; b2_len1 : Z; b2_num : Z; b2_buf : bytes }.

Section Blake2.
Variable w : Z.                       (* 64, 32 *)
Variable rounds : nat.                (* 12, 10 *)
Variables r1 r2 r3 r4 : Z.
Variable iv : list Z.
Let k := Z.to_nat (w / 8).            (* bytes per word *)
Let B := 16 * (w / 8).                (* BLAKE2b_BLOCKSIZE, BLAKE2s_BLOCKSIZE *)

(* MIX2B, blake2.c 62-72; MIX2S, 201-211: the new values of a, b, c, d *)
Definition MIX2_vals (a b c d x y : Z) : Z * Z * Z * Z :=
  let a := c_add w a (c_add w b x) in
  let d := c_ror w (Z.lxor d a) r1 in
  let c := c_add w c d in
  let b := c_ror w (Z.lxor b c) r2 in
  let a := c_add w a (c_add w b y) in
  let d := c_ror w (Z.lxor d a) r3 in
  let c := c_add w c d in
  let b := c_ror w (Z.lxor b c) r4 in
  (a, b, c, d).
(* the variables v0 .. v15 are the elements of v *)
Definition MIX2 (v : list Z) (a b c d : nat) (x y : Z) : list Z :=
  let '(xa, xb, xc, xd) := MIX2_vals (kget v a) (kget v b) (kget v c) (kget v d) x y in
  kput (kput (kput (kput v a xa) b xb) c xc) d xd.

(* body of the loop, blake2.c 101-111 and 240-250 *)
Definition mix_round (m : list Z) (v : list Z) (i : nat) : list Z :=
  let sigma := nth i BLAKE2_sigma [] in
  let x j := nth (nth j sigma 0%nat) m 0 in
  let v := MIX2 v 0 4 8 12 (x 0%nat) (x 1%nat) in
  let v := MIX2 v 1 5 9 13 (x 2%nat) (x 3%nat) in
  let v := MIX2 v 2 6 10 14 (x 4%nat) (x 5%nat) in
  let v := MIX2 v 3 7 11 15 (x 6%nat) (x 7%nat) in
  let v := MIX2 v 0 5 10 15 (x 8%nat) (x 9%nat) in
  let v := MIX2 v 1 6 11 12 (x 10%nat) (x 11%nat) in
  let v := MIX2 v 2 7 8 13 (x 12%nat) (x 13%nat) in
  MIX2 v 3 4 9 14 (x 14%nat) (x 15%nat).

(* blake2b_compress, blake2.c 74-117; blake2s_compress, 213-256.  Returns the
   new h and len. *)
Definition b2_compress (h : list Z) (len0 len1 : Z) (data : bytes) (numbytes : Z) (is_last : bool) : list Z * Z * Z :=
  let len0 := c_add w len0 numbytes in
  let len1 := if len0 <? numbytes then c_add w len1 1 else len1 in
  let i n := nth n iv 0 in
  let v := [kget h 0; kget h 1; kget h 2; kget h 3; kget h 4; kget h 5; kget h 6; kget h 7;
            i 0%nat; i 1%nat; i 2%nat; i 3%nat; Z.lxor (i 4%nat) len0; Z.lxor (i 5%nat) len1;
            if is_last then c_not w (i 6%nat) else i 6%nat; i 7%nat] in
  let m := map (fun j => load_le w k (skipn (j * k) data)) (seq 0 16) in
  let v := for_range 0 rounds (mix_round m) v in
  (map (fun j => Z.lxor (kget h j) (Z.lxor (kget v j) (kget v (j + 8)))) (seq 0 8), len0, len1).

(* blake2b_init, blake2.c 119-135; blake2s_init, 258-274 *)
Definition b2_init (hashlen : Z) (key : bytes) (buf : bytes) : out b2_ctx :=
  let h := kput iv 0 (Z.lxor (kget iv 0) (Z.lor (Z.lor 0x01010000 (Z.shiftl (zlen key) 8)) hashlen)) in
  if zlen key >? 0 then
    olet buf := c_memset0 buf 0 B in
    olet buf := c_memcpy buf 0 key in
    Ret (B2 h 0 0 B buf)
  else Ret (B2 h 0 0 0 buf).

(* the loop and the end of blake2b_add_data, blake2.c 154-161; 293-300 *)
Fixpoint b2_blocks (fuel : nat) (h : list Z) (len0 len1 : Z) (buf data : bytes) : out b2_ctx :=
  match fuel with
  | O => Hang
  | S f =>
      if zlen data >? B then
        let '(h, len0, len1) := b2_compress h len0 len1 (firstn (Z.to_nat B) data) B false in
        b2_blocks f h len0 len1 buf (skipn (Z.to_nat B) data)
      else
        olet buf := c_memcpy buf 0 data in
        Ret (B2 h len0 len1 (zlen data) buf)
  end.
(* blake2b_add_data, blake2.c 137-162; blake2s_add_data, 276-301 *)
Definition b2_add_data (c : b2_ctx) (data : bytes) : out b2_ctx :=
  if b2_num c >? 0 then
    let n := B - b2_num c in
    if zlen data <=? n then
      olet buf := c_memcpy (b2_buf c) (b2_num c) data in
      Ret (B2 (b2_h c) (b2_len0 c) (b2_len1 c) (b2_num c + zlen data) buf)
    else
      olet buf := c_memcpy (b2_buf c) (b2_num c) (firstn (Z.to_nat n) data) in
      let '(h, len0, len1) := b2_compress (b2_h c) (b2_len0 c) (b2_len1 c) buf B false in
      let data := skipn (Z.to_nat n) data in
      b2_blocks (S (length data)) h len0 len1 buf data
  else b2_blocks (S (length data)) (b2_h c) (b2_len0 c) (b2_len1 c) (b2_buf c) data.

(* blake2b_final, blake2.c 164-175; blake2s_final, 303-314 *)
Definition b2_final (hashlen : Z) (c : b2_ctx) : b2_ctx * out bytes :=
  match c_memset0 (b2_buf c) (b2_num c) (B - b2_num c) with
  | Ret buf =>
      let '(h, len0, len1) := b2_compress (b2_h c) (b2_len0 c) (b2_len1 c) buf (b2_num c) true in
      (B2 h len0 len1 (b2_num c) buf,
       Ret (map (fun i => Z.shiftr (nth (i / k) h 0) (8 * Z.of_nat (i mod k)) mod 256) (seq 0 (Z.to_nat hashlen))))
  | Raise e => (c, Raise e) | Undef => (c, Undef) | Hang => (c, Hang)
  end.

(* wipe_bytes context *)
Definition b2_wipe (c : b2_ctx) : b2_ctx := B2 (map (fun _ => 0) (b2_h c)) 0 0 0 (zeros (zlen (b2_buf c))).

(* classes blake2b, cryptokit.ml 1264-1284, and blake2s, 1289-1309 *)
Definition blake2_class (sz : Z) : hash := c_hash b2_ctx (sz / 8) b2_add_data (b2_final (sz / 8)) b2_wipe.
Definition blake2_new (fresh : Z -> bytes) (sz : Z) (key : bytes) : out hobj :=
  if (sz >=? 8) && (sz <=? 8 * w) && (sz mod 8 =? 0) && (zlen key <=? w)
  then olet c := b2_init (sz / 8) key (fresh B) in Ret (HObj (blake2_class sz) c)
  else Raise (Error Wrong_key_size).
End Blake2.

(* blake2b_iv, blake2.c 51-60; blake2s_iv, 190-199 *)
Definition blake2b_iv : list Z :=
  [0x6a09e667f3bcc908; 0xbb67ae8584caa73b; 0x3c6ef372fe94f82b; 0xa54ff53a5f1d36f1;
   0x510e527fade682d1; 0x9b05688c2b3e6c1f; 0x1f83d9abfb41bd6b; 0x5be0cd19137e2179].
Definition blake2s_iv : list Z :=
  [0x6A09E667; 0xBB67AE85; 0x3C6EF372; 0xA54FF53A; 0x510E527F; 0x9B05688C; 0x1F83D9AB; 0x5BE0CD19].

(* Hash.blake2b sz = new blake2b sz "" (cryptokit.ml 1286), MAC.blake2b sz key
   = new Hash.blake2b sz key (1463): limits sz <= 512, key <= 64 *)
Definition blake2b_obj := blake2_new 64 12 32 24 16 63 blake2b_iv.
(* Hash.blake2s (1311), MAC.blake2s (1466): limits sz <= 256, key <= 32 *)
Definition blake2s_obj := blake2_new 32 10 16 12 8 7 blake2s_iv.
