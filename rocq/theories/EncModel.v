(* Base64 and hexadecimal encodings, cryptokit.ml 2240-2487, and the wrapping
   of a stream cipher as a transform, cryptokit.ml 1036-1068. *)
From Verif Require Import Prelude BufOutModel TransformModel.

(* ------------------------------------------------------------------ *)
(* The four encoding classes have put_substring and put_string written as
   loops over put_char, and inherit buffered_output.  Their state is a pair
   of the class's own variables and the output buffer. *)
Section Charwise.
Variables (X : Type)
  (put_char put_byte : X * bo -> Z -> (X * bo) * out unit)
  (flush finish : X * bo -> (X * bo) * out unit)
  (wipe : X -> X).

(* for i = ofs to ofs + len - 1 do self#put_char (Bytes.get s i) done,
   cryptokit.ml 2279-2280; n is the number of iterations left *)
Fixpoint put_loop (n : nat) (s : X * bo) (str : bytes) (i : Z) : (X * bo) * out unit :=
  match n with
  | O => (s, Ret tt)
  | S n' =>
      let! (s, c) := (s, bytes_get str i) in
      let! (s, u) := put_char s c in
      put_loop n' s str (i + 1)
  end.

(* String.iter self#put_char s, cryptokit.ml 2282-2283 *)
Fixpoint put_iter (s : X * bo) (str : bytes) : (X * bo) * out unit :=
  match str with
  | [] => (s, Ret tt)
  | c :: l => let! (s, u) := put_char s c in put_iter s l
  end.

Definition on_bo {A} (s : X * bo) (r : bo * out A) : (X * bo) * out A := ((fst s, fst r), snd r).

Definition charwise : transform := {|
  t_st := X * bo;
  t_put_substring := fun s str ofs len =>
    put_loop (Z.to_nat (wrap63 (ofs + len - 1) - ofs + 1)) s str ofs;
  t_put_string := put_iter;
  t_put_char := put_char;
  t_put_byte := put_byte;
  t_flush := flush;
  t_finish := finish;
  t_available := fun s => bo_available (snd s);
  t_get_string := fun s => on_bo s (bo_get_string (snd s));
  t_get_substring := fun s => on_bo s (bo_get_substring (snd s));
  t_get_char := fun s => on_bo s (bo_get_char (snd s));
  t_get_byte := fun s => on_bo s (bo_get_char (snd s));
  t_wipe := fun s => ((wipe (fst s), bo_wipe (snd s)), Ret tt) |}.

(* self#put_char (Char.chr b), cryptokit.ml 2285 *)
Definition put_byte_chr (s : X * bo) (b : Z) : (X * bo) * out unit :=
  if (0 <=? b) && (b <? 256) then put_char s b else (s, Raise Invalid_argument).
End Charwise.

Section Enc.
Variable fresh : Z -> bytes.

(* self#ensure_capacity n *)
Definition c_ensure {X} (s : X * bo) (n : Z) : (X * bo) * out unit :=
  on_bo X s (ensure_capacity fresh (snd s) n).
(* Bytes.set obuf (oend + k) c *)
Definition c_set {X} (s : X * bo) (k c : Z) : (X * bo) * out unit :=
  match bytes_set (obuf (snd s)) (oend (snd s) + k) c with
  | Ret ob => ((fst s, BO ob (obeg (snd s)) (oend (snd s))), Ret tt)
  | Raise e => (s, Raise e) | Undef => (s, Undef) | Hang => (s, Hang)
  end.
(* oend <- oend + k *)
Definition c_adv {X} (s : X * bo) (k : Z) : X * bo :=
  (fst s, BO (obuf (snd s)) (obeg (snd s)) (oend (snd s) + k)).

(* Successive Bytes.set obuf (oend+i) v_i where each v_i may raise *)
Fixpoint c_sets {X} (s : X * bo) (k : Z) (l : list (out Z)) : (X * bo) * out unit :=
  match l with
  | [] => (s, Ret tt)
  | v :: l' =>
      let! (s, c) := (s, v) in
      let! (s, u) := c_set s k c in
      c_sets s (k + 1) l'
  end.

(* ------------------------------------------------------------------ *)
(* Base64.encode, cryptokit.ml 2242-2323 *)

(* base64_conv_table, cryptokit.ml 2242-2243:
   "ABCDEFGHIJKLMNOPQRSTUVWXYZabcdefghijklmnopqrstuvwxyz0123456789+/" *)
Definition base64_conv_table : bytes :=
  [65;66;67;68;69;70;71;72;73;74;75;76;77;78;79;80;81;82;83;84;85;86;87;88;89;90;
   97;98;99;100;101;102;103;104;105;106;107;108;109;110;111;112;113;114;115;116;117;118;119;120;121;122;
   48;49;50;51;52;53;54;55;56;57;43;47].

(* ibuf, ipos, ocolumn: cryptokit.ml 2252-2254 *)
Record b64e := B64E { be_ibuf : bytes; be_ipos : Z; be_col : Z }.

Definition tbl (i : Z) : out Z := bytes_get base64_conv_table i.

Definition be_set_char (s : b64e * bo) (c : Z) : (b64e * bo) * out unit :=
  match bytes_set (be_ibuf (fst s)) (be_ipos (fst s)) c with
  | Ret ib => ((B64E ib (be_ipos (fst s)) (be_col (fst s)), snd s), Ret tt)
  | Raise e => (s, Raise e) | Undef => (s, Undef) | Hang => (s, Hang)
  end.
Definition be_upd (s : b64e * bo) (ipos col : Z) : b64e * bo :=
  (B64E (be_ibuf (fst s)) ipos col, snd s).

Section B64.
Variables multiline padding : bool.

(* put_char, cryptokit.ml 2256-2277 *)
Definition b64e_put_char (s : b64e * bo) (c : Z) : (b64e * bo) * out unit :=
  let! (s, u) := be_set_char s c in
  let s := be_upd s (be_ipos (fst s) + 1) (be_col (fst s)) in
  if be_ipos (fst s) =? 3 then
    let! (s, b0) := (s, bytes_get (be_ibuf (fst s)) 0) in
    let! (s, b1) := (s, bytes_get (be_ibuf (fst s)) 1) in
    let! (s, b2) := (s, bytes_get (be_ibuf (fst s)) 2) in
    let! (s, u) := c_ensure s 4 in
    let! (s, u) := c_sets s 0
      [tbl (Z.shiftr b0 2);
       tbl (Z.shiftl (Z.land b0 3) 4 + Z.shiftr b1 4);
       tbl (Z.shiftl (Z.land b1 15) 2 + Z.shiftr b2 6);
       tbl (Z.land b2 63)] in
    let s := c_adv s 4 in
    let s := be_upd s 0 (be_col (fst s) + 4) in
    if multiline && (be_col (fst s) >=? 72) then
      let! (s, u) := c_ensure s 1 in
      let! (s, u) := c_set s 0 10 in
      let s := c_adv s 1 in
      (be_upd s (be_ipos (fst s)) 0, Ret tt)
    else (s, Ret tt)
  else (s, Ret tt).

(* flush, cryptokit.ml 2287 *)
Definition b64e_flush (s : b64e * bo) : (b64e * bo) * out unit := (s, Raise (Error Wrong_data_length)).

(* finish, cryptokit.ml 2289-2319 *)
Definition b64e_finish (s : b64e * bo) : (b64e * bo) * out unit :=
  let! (s, u) :=
    if be_ipos (fst s) =? 1 then
      let! (s, u) := c_ensure s 2 in
      let! (s, b0) := (s, bytes_get (be_ibuf (fst s)) 0) in
      let! (s, u) := c_sets s 0 [tbl (Z.shiftr b0 2); tbl (Z.shiftl (Z.land b0 3) 4)] in
      (c_adv s 2, Ret tt)
    else if be_ipos (fst s) =? 2 then
      let! (s, u) := c_ensure s 3 in
      let! (s, b0) := (s, bytes_get (be_ibuf (fst s)) 0) in
      let! (s, b1) := (s, bytes_get (be_ibuf (fst s)) 1) in
      let! (s, u) := c_sets s 0
        [tbl (Z.shiftr b0 2); tbl (Z.shiftl (Z.land b0 3) 4 + Z.shiftr b1 4); tbl (Z.shiftl (Z.land b1 15) 2)] in
      (c_adv s 3, Ret tt)
    else (s, Ret tt) in
  let! (s, u) :=
    if multiline || padding then
      let num_equals := if be_ipos (fst s) =? 1 then 2 else if be_ipos (fst s) =? 2 then 1 else 0 in
      let! (s, u) := c_ensure s num_equals in
      match bytes_fill (obuf (snd s)) (oend (snd s)) num_equals 61 with
      | Ret ob => (c_adv (fst s, BO ob (obeg (snd s)) (oend (snd s))) num_equals, Ret tt)
      | Raise e => (s, Raise e) | Undef => (s, Undef) | Hang => (s, Hang)
      end
    else (s, Ret tt) in
  let! (s, u) :=
    if multiline && (be_col (fst s) >? 0) then
      let! (s, u) := c_ensure s 1 in
      let! (s, u) := c_set s 0 10 in
      (c_adv s 1, Ret tt)
    else (s, Ret tt) in
  (be_upd s (be_ipos (fst s)) 0, Ret tt).

(* wipe, cryptokit.ml 2321-2322 *)
Definition b64e_wipe (x : b64e) : b64e := B64E (zeros (zlen (be_ibuf x))) (be_ipos x) (be_col x).

Definition base64_encode : transform :=
  charwise b64e b64e_put_char (put_byte_chr b64e b64e_put_char) b64e_flush b64e_finish b64e_wipe.
End B64.
(* new encode multiline padding, cryptokit.ml 2245-2254 *)
Definition base64_encode_new : b64e * bo := (B64E (fresh 3) 0 0, bo_new fresh 256).

(* base64_decode_char, cryptokit.ml 2329-2337 *)
Definition base64_decode_char (c : Z) : out Z :=
  if (65 <=? c) && (c <=? 90) then Ret (c - 65)
  else if (97 <=? c) && (c <=? 122) then Ret (c - 97 + 26)
  else if (48 <=? c) && (c <=? 57) then Ret (c - 48 + 52)
  else if c =? 43 then Ret 62
  else if c =? 47 then Ret 63
  else if (c =? 32) || (c =? 9) || (c =? 10) || (c =? 13) then Ret (-1)
  else Raise (Error Bad_encoding).

(* ibuf, ipos, finished: cryptokit.ml 2346-2348.  ibuf is an int array;
   Array.get and Array.set have the same checks as on bytes. *)
Record b64d := B64D { bd_ibuf : bytes; bd_ipos : Z; bd_fin : bool }.

(* Char.chr *)
Definition chr (n : Z) : out Z := if (0 <=? n) && (n <? 256) then Ret n else Raise Invalid_argument.

Definition bd_set (s : b64d * bo) (n : Z) : (b64d * bo) * out unit :=
  match bytes_set (bd_ibuf (fst s)) (bd_ipos (fst s)) n with
  | Ret ib => ((B64D ib (bd_ipos (fst s)) (bd_fin (fst s)), snd s), Ret tt)
  | Raise e => (s, Raise e) | Undef => (s, Undef) | Hang => (s, Hang)
  end.
Definition bd_upd (s : b64d * bo) (ipos : Z) (fin : bool) : b64d * bo :=
  (B64D (bd_ibuf (fst s)) ipos fin, snd s).

(* the three expressions Char.chr(...) of cryptokit.ml 2359-2361, 2384-2389 *)
Definition bd_c0 (ib : bytes) : out Z :=
  olet x := bytes_get ib 0 in olet y := bytes_get ib 1 in chr (Z.shiftl x 2 + Z.shiftr y 4).
Definition bd_c1 (ib : bytes) : out Z :=
  olet x := bytes_get ib 1 in olet y := bytes_get ib 2 in chr (Z.shiftl (Z.land x 15) 4 + Z.shiftr y 2).
Definition bd_c2 (ib : bytes) : out Z :=
  olet x := bytes_get ib 2 in olet y := bytes_get ib 3 in chr (Z.shiftl (Z.land x 3) 6 + y).

(* put_char, cryptokit.ml 2350-2366 *)
Definition b64d_put_char (s : b64d * bo) (c : Z) : (b64d * bo) * out unit :=
  if c =? 61 then (bd_upd s (bd_ipos (fst s)) true, Ret tt)
  else
    let! (s, n) := (s, base64_decode_char c) in
    if n >=? 0 then
      if bd_fin (fst s) then (s, Raise (Error Bad_encoding)) else
      let! (s, u) := bd_set s n in
      let s := bd_upd s (bd_ipos (fst s) + 1) (bd_fin (fst s)) in
      if bd_ipos (fst s) =? 4 then
        let! (s, u) := c_ensure s 3 in
        let! (s, u) := c_sets s 0 [bd_c0 (bd_ibuf (fst s)); bd_c1 (bd_ibuf (fst s)); bd_c2 (bd_ibuf (fst s))] in
        let s := c_adv s 3 in
        (bd_upd s 0 (bd_fin (fst s)), Ret tt)
      else (s, Ret tt)
    else (s, Ret tt).

(* flush, cryptokit.ml 2376 *)
Definition b64d_flush (s : b64d * bo) : (b64d * bo) * out unit := (s, Raise (Error Wrong_data_length)).

(* finish, cryptokit.ml 2378-2391 *)
Definition b64d_finish (s : b64d * bo) : (b64d * bo) * out unit :=
  let s := bd_upd s (bd_ipos (fst s)) true in
  if bd_ipos (fst s) =? 1 then (s, Raise (Error Bad_encoding))
  else if bd_ipos (fst s) =? 2 then
    let! (s, u) := c_ensure s 1 in
    let! (s, u) := c_sets s 0 [bd_c0 (bd_ibuf (fst s))] in
    (c_adv s 1, Ret tt)
  else if bd_ipos (fst s) =? 3 then
    let! (s, u) := c_ensure s 2 in
    let! (s, u) := c_sets s 0 [bd_c0 (bd_ibuf (fst s)); bd_c1 (bd_ibuf (fst s))] in
    (c_adv s 2, Ret tt)
  else (s, Ret tt).

(* wipe, cryptokit.ml 2393-2394 *)
Definition b64d_wipe (x : b64d) : b64d := B64D (zeros 4) (bd_ipos x) (bd_fin x).

Definition base64_decode : transform :=
  charwise b64d b64d_put_char (put_byte_chr b64d b64d_put_char) b64d_flush b64d_finish b64d_wipe.
(* new decode, cryptokit.ml 2339-2348 *)
Definition base64_decode_new : b64d * bo := (B64D (zeros 4) 0 false, bo_new fresh 256).

(* ------------------------------------------------------------------ *)
(* Hexa, cryptokit.ml 2403-2487 *)

(* hex_conv_table "0123456789abcdef", cryptokit.ml 2405 *)
Definition hex_conv_table : bytes := [48;49;50;51;52;53;54;55;56;57;97;98;99;100;101;102].

(* lsr on 63-bit integers, by 0 < k < 63 *)
Definition lsr63 (x k : Z) : Z := Z.shiftr (x mod 2 ^ 63) k.

(* put_byte, cryptokit.ml 2414-2418 *)
Definition hexe_put_byte (s : unit * bo) (b : Z) : (unit * bo) * out unit :=
  let! (s, u) := c_ensure s 2 in
  let! (s, u) := c_sets s 0
    [bytes_get hex_conv_table (lsr63 b 4); bytes_get hex_conv_table (Z.land b 15)] in
  (c_adv s 2, Ret tt).

(* flush and finish do nothing, cryptokit.ml 2428-2429 *)
Definition nop {X} (s : X * bo) : (X * bo) * out unit := (s, Ret tt).

Definition hexa_encode : transform :=
  charwise unit hexe_put_byte hexe_put_byte nop nop (fun x => x).
Definition hexa_encode_new : unit * bo := (tt, bo_new fresh 256).

(* hex_decode_char, cryptokit.ml 2436-2442 *)
Definition hex_decode_char (c : Z) : out Z :=
  if (48 <=? c) && (c <=? 57) then Ret (c - 48)
  else if (65 <=? c) && (c <=? 70) then Ret (c - 65 + 10)
  else if (97 <=? c) && (c <=? 102) then Ret (c - 97 + 10)
  else if (c =? 32) || (c =? 9) || (c =? 10) || (c =? 13) then Ret (-1)
  else Raise (Error Bad_encoding).

(* ibuf, ipos: cryptokit.ml 2451-2452 *)
Record hexd := HexD { hd_ibuf : bytes; hd_ipos : Z }.
Definition hd_set (s : hexd * bo) (n : Z) : (hexd * bo) * out unit :=
  match bytes_set (hd_ibuf (fst s)) (hd_ipos (fst s)) n with
  | Ret ib => ((HexD ib (hd_ipos (fst s)), snd s), Ret tt)
  | Raise e => (s, Raise e) | Undef => (s, Undef) | Hang => (s, Hang)
  end.
Definition hd_upd (s : hexd * bo) (ipos : Z) : hexd * bo := (HexD (hd_ibuf (fst s)) ipos, snd s).
Definition hd_c (ib : bytes) : out Z :=
  olet x := bytes_get ib 0 in olet y := bytes_get ib 1 in chr (Z.lor (Z.shiftl x 4) y).

(* put_char, cryptokit.ml 2454-2465 *)
Definition hexd_put_char (s : hexd * bo) (c : Z) : (hexd * bo) * out unit :=
  let! (s, n) := (s, hex_decode_char c) in
  if n >=? 0 then
    let! (s, u) := hd_set s n in
    let s := hd_upd s (hd_ipos (fst s) + 1) in
    if hd_ipos (fst s) =? 2 then
      let! (s, u) := c_ensure s 1 in
      let! (s, u) := c_sets s 0 [hd_c (hd_ibuf (fst s))] in
      let s := c_adv s 1 in
      (hd_upd s 0, Ret tt)
    else (s, Ret tt)
  else (s, Ret tt).

(* flush, finish, wipe: cryptokit.ml 2475-2482 *)
Definition hexd_flush (s : hexd * bo) : (hexd * bo) * out unit :=
  if negb (hd_ipos (fst s) =? 0) then (s, Raise (Error Wrong_data_length)) else (s, Ret tt).
Definition hexd_finish (s : hexd * bo) : (hexd * bo) * out unit :=
  if negb (hd_ipos (fst s) =? 0) then (s, Raise (Error Bad_encoding)) else (s, Ret tt).
Definition hexd_wipe (x : hexd) : hexd := HexD (zeros 2) (hd_ipos x).

Definition hexa_decode : transform :=
  charwise hexd hexd_put_char (put_byte_chr hexd hexd_put_char) hexd_flush hexd_finish hexd_wipe.
Definition hexa_decode_new : hexd * bo := (HexD (zeros 2) 0, bo_new fresh 256).

(* ------------------------------------------------------------------ *)
(* Stream ciphers as transforms, cryptokit.ml 985-1068 *)

(* class type stream_cipher, cryptokit.ml 987-991: transform returns the new
   state, the new contents of dst and the outcome *)
Record stream_cipher := {
  sc_st : Type;
  sc_transform : sc_st -> bytes -> Z -> bytes -> Z -> Z -> (sc_st * bytes) * out unit;
  sc_wipe : sc_st -> sc_st }.

(* The classes arcfour and chacha20 (994-1032) have the same transform
   method: a range check, then the C primitive, which consumes len bytes of
   keystream: [prim k l] is the new state and the output bytes. *)
Definition raw_stream (K : Type) (prim : K -> bytes -> K * out bytes) (wipe : K -> K) : stream_cipher := {|
  sc_st := K;
  sc_transform := fun k src so dst d len =>
    if (len <? 0) || (so <? 0) || (so >? zlen src - len) || (d <? 0) || (d >? zlen dst - len)
    then ((k, dst), Raise Invalid_argument)
    else match prim k (sub src so len) with
         | (k', Ret r) => ((k', splice dst d r), Ret tt)
         | (k', Raise e) => ((k', dst), Raise e)
         | (k', Undef) => ((k', dst), Undef)
         | (k', Hang) => ((k', dst), Hang)
         end;
  sc_wipe := wipe |}.

Section Stream.
Variable C : stream_cipher.
(* charbuf and the cipher, cryptokit.ml 1038, then the output buffer *)
Record sct := SCT { sct_c : sc_st C; sct_buf : bytes; sct_bo : bo }.

Definition sct_ensure (s : sct) (n : Z) : sct * out unit :=
  lift (fun b => SCT (sct_c s) (sct_buf s) b) (ensure_capacity fresh (sct_bo s) n).
(* cipher#transform src ofs obuf oend len *)
Definition sct_transform (s : sct) (src : bytes) (ofs len : Z) : sct * out unit :=
  let b := sct_bo s in
  let r := sc_transform C (sct_c s) src ofs (obuf b) (oend b) len in
  (SCT (fst (fst r)) (sct_buf s) (BO (snd (fst r)) (obeg b) (oend b)), snd r).
Definition sct_adv (s : sct) (n : Z) : sct :=
  SCT (sct_c s) (sct_buf s) (BO (obuf (sct_bo s)) (obeg (sct_bo s)) (oend (sct_bo s) + n)).

(* put_substring, cryptokit.ml 1044-1047 *)
Definition sct_put_substring (s : sct) (src : bytes) (ofs len : Z) : sct * out unit :=
  let! (s, u) := sct_ensure s len in
  let! (s, u) := sct_transform s src ofs len in
  (sct_adv s len, Ret tt).

(* put_char, cryptokit.ml 1052-1056 *)
Definition sct_put_char (s : sct) (c : Z) : sct * out unit :=
  let! (s, u) := match bytes_set (sct_buf s) 0 c with
                 | Ret b => (SCT (sct_c s) b (sct_bo s), Ret tt)
                 | Raise e => (s, Raise e) | Undef => (s, Undef) | Hang => (s, Hang) end in
  let! (s, u) := sct_ensure s 1 in
  let! (s, u) := sct_transform s (sct_buf s) 0 1 in
  (sct_adv s 1, Ret tt).

Definition sct_bo_op {A} (s : sct) (r : bo * out A) : sct * out A :=
  (SCT (sct_c s) (sct_buf s) (fst r), snd r).

(* class cipher, cryptokit.ml 1036-1068.  put_byte uses Char.unsafe_chr:
   the low 8 bits of the argument end up in charbuf. *)
Definition stream_transform : transform := {|
  t_st := sct;
  t_put_substring := sct_put_substring;
  t_put_string := fun s str => sct_put_substring s str 0 (zlen str);
  t_put_char := sct_put_char;
  t_put_byte := fun s b => sct_put_char s (b mod 256);
  t_flush := fun s => (s, Ret tt);
  t_finish := fun s => (s, Ret tt);
  t_available := fun s => bo_available (sct_bo s);
  t_get_string := fun s => sct_bo_op s (bo_get_string (sct_bo s));
  t_get_substring := fun s => sct_bo_op s (bo_get_substring (sct_bo s));
  t_get_char := fun s => sct_bo_op s (bo_get_char (sct_bo s));
  t_get_byte := fun s => sct_bo_op s (bo_get_char (sct_bo s));
  t_wipe := fun s =>
    (SCT (sc_wipe C (sct_c s)) (zeros (zlen (sct_buf s))) (bo_wipe (sct_bo s)), Ret tt) |}.

Definition stream_new (c : sc_st C) : sct := SCT c (fresh 1) (bo_new fresh 256).
End Stream.
End Enc.
