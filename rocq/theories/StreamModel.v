(* Model: arcfour.c, chacha20.c, their stubs, the classes of module Stream and
   Cipher.arcfour, Cipher.chacha20. *)
From Verif Require Import Prelude BytesNum Word TransformModel SpecTransducer EncModel EncLawful KeccakModel CipherModel.

(* struct arcfour_key, arcfour.h 16-20 *)
Record arc := Arc { arc_state : list Z; arc_x : Z; arc_y : Z }.
(* arcfour_cook_key, arcfour.c 30-35: one iteration; index1 and index2 are unsigned chars *)
Definition arc_cook_step (key : bytes) (s : list Z * Z * Z) (i : nat) : list Z * Z * Z :=
  let '(st, index1, index2) := s in
  let index2 := (nth (Z.to_nat index1) key 0 + kget st i + index2) mod 256 in
  let t := kget st i in
  let st := kput st i (kget st (Z.to_nat index2)) in
  let st := kput st (Z.to_nat index2) t in
  let index1 := (index1 + 1) mod 256 in
  (st, if index1 >=? zlen key then 0 else index1, index2).
(* arcfour.c 16-36 *)
Definition arcfour_cook_key (key : bytes) : arc :=
  let '(st, _, _) := fold_left (arc_cook_step key) (seq 0 256) (map Z.of_nat (seq 0 256), 0, 0) in
  Arc st 0 0.
(* arcfour_encrypt, arcfour.c 38-55; caml_arcfour_transform, stubs-arcfour.c 34-42.  The
   source and destination ranges are taken not to overlap, unless they are equal. *)
Fixpoint arc_loop (st : list Z) (x y : Z) (l : bytes) : list Z * Z * Z * bytes :=
  match l with
  | [] => (st, x, y, [])
  | c :: l =>
      let x := Z.land (x + 1) 0xFF in
      let kx := kget st (Z.to_nat x) in
      let y := Z.land (kx + y) 0xFF in
      let ky := kget st (Z.to_nat y) in
      let st := kput st (Z.to_nat x) ky in
      let st := kput st (Z.to_nat y) kx in
      let o := Z.lxor c (kget st (Z.to_nat (Z.land (kx + ky) 0xFF))) in
      let '(st, x, y, r) := arc_loop st x y l in (st, x, y, o :: r)
  end.
Definition arcfour_encrypt (k : arc) (l : bytes) : arc * out bytes :=
  let '(st, x, y, r) := arc_loop (arc_state k) (arc_x k) (arc_y k) l in (Arc st x y, Ret r).
(* wipe_bytes ckey *)
Definition arc_wipe (k : arc) : arc := Arc (map (fun _ => 0) (arc_state k)) 0 0.

(* chacha20_ctx, chacha20.h 8-13 *)
Record chacha := Chacha { cc_input : list Z; cc_output : bytes; cc_next : Z; cc_ivlen : Z }.
(* U8TO32_LITTLE, chacha20.c 24-30 *)
Definition cc_load (p : bytes) (i : nat) : Z :=
  c_add 32 (c_add 32 (c_add 32 (nth i p 0) (c_shl 32 (nth (i + 1) p 0) 8)) (c_shl 32 (nth (i + 2) p 0) 16)) (c_shl 32 (nth (i + 3) p 0) 24).
(* U32TO8_LITTLE, chacha20.c 12-22: the low byte first on machines of either endianness *)
Definition cc_store (v : Z) : bytes := [v mod 256; c_shr v 8 mod 256; c_shr v 16 mod 256; c_shr v 24 mod 256].
(* QUARTERROUND, chacha20.c 37-41 *)
Definition c_quarter (a b c d : Z) : Z * Z * Z * Z :=
  let a := c_add 32 a b in let d := c_rol 32 (Z.lxor d a) 16 in
  let c := c_add 32 c d in let b := c_rol 32 (Z.lxor b c) 12 in
  let a := c_add 32 a b in let d := c_rol 32 (Z.lxor d a) 8 in
  let c := c_add 32 c d in let b := c_rol 32 (Z.lxor b c) 7 in
  (a, b, c, d).
(* the body of the loop, chacha20.c 64-73 *)
Definition c_double_round (x : list Z) : list Z :=
  match x with
  | [x0; x1; x2; x3; x4; x5; x6; x7; x8; x9; x10; x11; x12; x13; x14; x15] =>
      let '(x0, x4, x8, x12) := c_quarter x0 x4 x8 x12 in
      let '(x1, x5, x9, x13) := c_quarter x1 x5 x9 x13 in
      let '(x2, x6, x10, x14) := c_quarter x2 x6 x10 x14 in
      let '(x3, x7, x11, x15) := c_quarter x3 x7 x11 x15 in
      let '(x0, x5, x10, x15) := c_quarter x0 x5 x10 x15 in
      let '(x1, x6, x11, x12) := c_quarter x1 x6 x11 x12 in
      let '(x2, x7, x8, x13) := c_quarter x2 x7 x8 x13 in
      let '(x3, x4, x9, x14) := c_quarter x3 x4 x9 x14 in
      [x0; x1; x2; x3; x4; x5; x6; x7; x8; x9; x10; x11; x12; x13; x14; x15]
  | _ => x
  end.
(* chacha20_block, chacha20.c 43-110; the last lines increment the counter *)
Definition chacha20_block (c : chacha) : chacha :=
  let input := cc_input c in
  let x := fold_left (fun x _ => c_double_round x) (seq 0 10) input in
  let x := map (fun i => c_add 32 (kget x i) (kget input i)) (seq 0 16) in
  let output := flat_map cc_store x in
  let n12 := c_add 32 (kget input 12) 1 in
  let input' := kput input 12 n12 in
  let input' := if n12 =? 0 then if cc_ivlen c =? 8 then kput input' 13 (c_add 32 (kget input' 13) 1) else input' else input' in
  Chacha input' output (cc_next c) (cc_ivlen c).
(* one iteration of the loops of chacha20_transform and chacha20_extract: the next byte *)
Definition cc_byte (c : chacha) : Z * chacha :=
  let c := if cc_next c >=? 64 then let c := chacha20_block c in Chacha (cc_input c) (cc_output c) 0 (cc_ivlen c) else c in
  (nth (Z.to_nat (cc_next c)) (cc_output c) 0, Chacha (cc_input c) (cc_output c) (cc_next c + 1) (cc_ivlen c)).
(* chacha20_transform, chacha20.c 112-121; caml_chacha20_transform, stubs-chacha20.c 35-43 *)
Fixpoint chacha20_transform (c : chacha) (l : bytes) : chacha * bytes :=
  match l with
  | [] => (c, [])
  | b :: l => let (k, c) := cc_byte c in let (c, r) := chacha20_transform c l in (c, Z.lxor b k :: r)
  end.
(* chacha20_extract, chacha20.c 123-132; caml_chacha20_extract, stubs-chacha20.c 51-58 *)
Fixpoint chacha20_extract (c : chacha) (n : nat) : chacha * bytes :=
  match n with
  | O => (c, [])
  | S n => let (k, c) := cc_byte c in let (c, r) := chacha20_extract c n in (c, k :: r)
  end.
(* chacha20_init, chacha20.c 134-168; caml_chacha20_cook_key, stubs-chacha20.c 24-33.  The
   64-byte output area of the new context has arbitrary contents. *)
Definition chacha20_init (fresh : Z -> bytes) (key iv : bytes) (counter : Z) : chacha :=
  let counter := counter mod 2 ^ 64 in                                   (* uint64_t *)
  let constants := if zlen key =? 32 then [101;120;112;97;110;100;32;51;50;45;98;121;116;101;32;107]
                   else [101;120;112;97;110;100;32;49;54;45;98;121;116;101;32;107] in
  let k2 := if zlen key =? 32 then 16%nat else 0%nat in
  let common :=
    [cc_load constants 0; cc_load constants 4; cc_load constants 8; cc_load constants 12;
     cc_load key 0; cc_load key 4; cc_load key 8; cc_load key 12;
     cc_load key (k2 + 0); cc_load key (k2 + 4); cc_load key (k2 + 8); cc_load key (k2 + 12);
     counter mod 2 ^ 32] in
  let tail := if zlen iv =? 8 then [c_shr counter 32 mod 2 ^ 32; cc_load iv 0; cc_load iv 4]
              else [cc_load iv 0; cc_load iv 4; cc_load iv 8] in
  Chacha (common ++ tail) (fresh 64) 64 (zlen iv).
(* wipe_bytes ckey clears the whole context *)
Definition chacha_wipe (c : chacha) : chacha := Chacha (map (fun _ => 0) (cc_input c)) (map (fun _ => 0) (cc_output c)) 0 0.

(* stream cipher objects *)
Record sobj := SObj { so_sc : stream_cipher; so_st : sc_st so_sc }.
(* class arcfour, cryptokit.ml 994-1008 *)
Definition arcfour_class : stream_cipher := raw_stream arc arcfour_encrypt arc_wipe.
Definition new_arcfour (key : bytes) : out sobj :=
  if (zlen key >? 0) && (zlen key <=? 256) then Ret (SObj arcfour_class (arcfour_cook_key key)) else Raise (Error Wrong_key_size).
(* class chacha20, cryptokit.ml 1010-1032; ctr is an int64 *)
Definition chacha20_class : stream_cipher := raw_stream chacha (fun c l => let (c, r) := chacha20_transform c l in (c, Ret r)) chacha_wipe.
Definition new_chacha20 (fresh : Z -> bytes) (iv : option bytes) (ctr : Z) (key : bytes) : out sobj :=
  if negb ((zlen key =? 16) || (zlen key =? 32)) then Raise (Error Wrong_key_size)
  else
    olet iv := match iv with
               | None => Ret (zeros 8)
               | Some s => if (zlen s =? 8) || ((zlen s =? 12) && (ctr <? 0x1000000)) then Ret s else Raise (Error Wrong_IV_size)
               end in
    Ret (SObj chacha20_class (chacha20_init fresh key iv ctr)).
(* class Stream.cipher applied to an object; Cipher.arcfour and Cipher.chacha20,
   cryptokit.ml 1401-1404.  The direction is not used. *)
Definition stream_cipher_obj (fresh : Z -> bytes) (o : sobj) : tobj :=
  TObj (stream_transform fresh (so_sc o)) (stream_new fresh (so_sc o) (so_st o)).
Definition Cipher_arcfour (fresh : Z -> bytes) (key : bytes) (d : dir) : out tobj :=
  olet o := new_arcfour key in Ret (stream_cipher_obj fresh o).
Definition Cipher_chacha20 (fresh : Z -> bytes) (iv : option bytes) (ctr : Z) (key : bytes) (d : dir) : out tobj :=
  olet o := new_chacha20 fresh iv ctr key in Ret (stream_cipher_obj fresh o).
