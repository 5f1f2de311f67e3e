(* Model: d3des.c, stubs-des.c, classes des, triple_des_encrypt, triple_des_decrypt
   (cryptokit.ml 569-640).  The tables were copied from the C source by a script. *)
From Verif Require Import Prelude Word WordIO KeccakModel BlockModel CipherModel.

(* d3des.c 24-25 *)
Definition bytebit : list Z := [128; 64; 32; 16; 8; 4; 2; 1].
(* d3des.c 27-33 *)
Definition bigbyte : list Z := [
  0x800000; 0x400000; 0x200000; 0x100000; 0x80000; 0x40000; 0x20000; 0x10000; 0x8000; 0x4000; 0x2000; 0x1000; 0x800; 0x400; 0x200; 0x100; 0x80; 0x40; 0x20; 0x10; 0x8; 0x4; 0x2; 0x1].
(* d3des.c 37-41 *)
Definition pc1 : list nat := [
  56; 48; 40; 32; 24; 16; 8; 0; 57; 49; 41; 33; 25; 17; 9; 1; 58; 50; 42; 34; 26; 18; 10; 2; 59; 51; 43; 35; 62; 54; 46; 38; 30; 22; 14; 6; 61; 53; 45; 37; 29; 21; 13; 5; 60; 52; 44; 36; 28; 20; 12; 4; 27; 19; 11; 3]%nat.
(* d3des.c 43-44 *)
Definition totrot : list nat := [
  1; 2; 4; 6; 8; 10; 12; 14; 15; 17; 19; 21; 23; 25; 27; 28]%nat.
(* d3des.c 46-50 *)
Definition pc2 : list nat := [
  13; 16; 10; 23; 0; 4; 2; 27; 14; 5; 20; 9; 22; 18; 11; 3; 25; 7; 15; 6; 26; 19; 12; 1; 40; 51; 30; 36; 46; 54; 29; 39; 50; 44; 32; 47; 43; 48; 38; 55; 33; 52; 45; 41; 49; 35; 28; 31]%nat.
(* d3des.c 137-153 *)
Definition SP1 : list Z := [
  0x01010400; 0x00000000; 0x00010000; 0x01010404; 0x01010004; 0x00010404; 0x00000004; 0x00010000;
  0x00000400; 0x01010400; 0x01010404; 0x00000400; 0x01000404; 0x01010004; 0x01000000; 0x00000004;
  0x00000404; 0x01000400; 0x01000400; 0x00010400; 0x00010400; 0x01010000; 0x01010000; 0x01000404;
  0x00010004; 0x01000004; 0x01000004; 0x00010004; 0x00000000; 0x00000404; 0x00010404; 0x01000000;
  0x00010000; 0x01010404; 0x00000004; 0x01010000; 0x01010400; 0x01000000; 0x01000000; 0x00000400;
  0x01010004; 0x00010000; 0x00010400; 0x01000004; 0x00000400; 0x00000004; 0x01000404; 0x00010404;
  0x01010404; 0x00010004; 0x01010000; 0x01000404; 0x01000004; 0x00000404; 0x00010404; 0x01010400;
  0x00000404; 0x01000400; 0x01000400; 0x00000000; 0x00010004; 0x00010400; 0x00000000; 0x01010004].
(* d3des.c 155-171 *)
Definition SP2 : list Z := [
  0x80108020; 0x80008000; 0x00008000; 0x00108020; 0x00100000; 0x00000020; 0x80100020; 0x80008020;
  0x80000020; 0x80108020; 0x80108000; 0x80000000; 0x80008000; 0x00100000; 0x00000020; 0x80100020;
  0x00108000; 0x00100020; 0x80008020; 0x00000000; 0x80000000; 0x00008000; 0x00108020; 0x80100000;
  0x00100020; 0x80000020; 0x00000000; 0x00108000; 0x00008020; 0x80108000; 0x80100000; 0x00008020;
  0x00000000; 0x00108020; 0x80100020; 0x00100000; 0x80008020; 0x80100000; 0x80108000; 0x00008000;
  0x80100000; 0x80008000; 0x00000020; 0x80108020; 0x00108020; 0x00000020; 0x00008000; 0x80000000;
  0x00008020; 0x80108000; 0x00100000; 0x80000020; 0x00100020; 0x80008020; 0x80000020; 0x00100020;
  0x00108000; 0x00000000; 0x80008000; 0x00008020; 0x80000000; 0x80100020; 0x80108020; 0x00108000].
(* d3des.c 173-189 *)
Definition SP3 : list Z := [
  0x00000208; 0x08020200; 0x00000000; 0x08020008; 0x08000200; 0x00000000; 0x00020208; 0x08000200;
  0x00020008; 0x08000008; 0x08000008; 0x00020000; 0x08020208; 0x00020008; 0x08020000; 0x00000208;
  0x08000000; 0x00000008; 0x08020200; 0x00000200; 0x00020200; 0x08020000; 0x08020008; 0x00020208;
  0x08000208; 0x00020200; 0x00020000; 0x08000208; 0x00000008; 0x08020208; 0x00000200; 0x08000000;
  0x08020200; 0x08000000; 0x00020008; 0x00000208; 0x00020000; 0x08020200; 0x08000200; 0x00000000;
  0x00000200; 0x00020008; 0x08020208; 0x08000200; 0x08000008; 0x00000200; 0x00000000; 0x08020008;
  0x08000208; 0x00020000; 0x08000000; 0x08020208; 0x00000008; 0x00020208; 0x00020200; 0x08000008;
  0x08020000; 0x08000208; 0x00000208; 0x08020000; 0x00020208; 0x00000008; 0x08020008; 0x00020200].
(* d3des.c 191-207 *)
Definition SP4 : list Z := [
  0x00802001; 0x00002081; 0x00002081; 0x00000080; 0x00802080; 0x00800081; 0x00800001; 0x00002001;
  0x00000000; 0x00802000; 0x00802000; 0x00802081; 0x00000081; 0x00000000; 0x00800080; 0x00800001;
  0x00000001; 0x00002000; 0x00800000; 0x00802001; 0x00000080; 0x00800000; 0x00002001; 0x00002080;
  0x00800081; 0x00000001; 0x00002080; 0x00800080; 0x00002000; 0x00802080; 0x00802081; 0x00000081;
  0x00800080; 0x00800001; 0x00802000; 0x00802081; 0x00000081; 0x00000000; 0x00000000; 0x00802000;
  0x00002080; 0x00800080; 0x00800081; 0x00000001; 0x00802001; 0x00002081; 0x00002081; 0x00000080;
  0x00802081; 0x00000081; 0x00000001; 0x00002000; 0x00800001; 0x00002001; 0x00802080; 0x00800081;
  0x00002001; 0x00002080; 0x00800000; 0x00802001; 0x00000080; 0x00800000; 0x00002000; 0x00802080].
(* d3des.c 209-225 *)
Definition SP5 : list Z := [
  0x00000100; 0x02080100; 0x02080000; 0x42000100; 0x00080000; 0x00000100; 0x40000000; 0x02080000;
  0x40080100; 0x00080000; 0x02000100; 0x40080100; 0x42000100; 0x42080000; 0x00080100; 0x40000000;
  0x02000000; 0x40080000; 0x40080000; 0x00000000; 0x40000100; 0x42080100; 0x42080100; 0x02000100;
  0x42080000; 0x40000100; 0x00000000; 0x42000000; 0x02080100; 0x02000000; 0x42000000; 0x00080100;
  0x00080000; 0x42000100; 0x00000100; 0x02000000; 0x40000000; 0x02080000; 0x42000100; 0x40080100;
  0x02000100; 0x40000000; 0x42080000; 0x02080100; 0x40080100; 0x00000100; 0x02000000; 0x42080000;
  0x42080100; 0x00080100; 0x42000000; 0x42080100; 0x02080000; 0x00000000; 0x40080000; 0x42000000;
  0x00080100; 0x02000100; 0x40000100; 0x00080000; 0x00000000; 0x40080000; 0x02080100; 0x40000100].
(* d3des.c 227-243 *)
Definition SP6 : list Z := [
  0x20000010; 0x20400000; 0x00004000; 0x20404010; 0x20400000; 0x00000010; 0x20404010; 0x00400000;
  0x20004000; 0x00404010; 0x00400000; 0x20000010; 0x00400010; 0x20004000; 0x20000000; 0x00004010;
  0x00000000; 0x00400010; 0x20004010; 0x00004000; 0x00404000; 0x20004010; 0x00000010; 0x20400010;
  0x20400010; 0x00000000; 0x00404010; 0x20404000; 0x00004010; 0x00404000; 0x20404000; 0x20000000;
  0x20004000; 0x00000010; 0x20400010; 0x00404000; 0x20404010; 0x00400000; 0x00004010; 0x20000010;
  0x00400000; 0x20004000; 0x20000000; 0x00004010; 0x20000010; 0x20404010; 0x00404000; 0x20400000;
  0x00404010; 0x20404000; 0x00000000; 0x20400010; 0x00000010; 0x00004000; 0x20400000; 0x00404010;
  0x00004000; 0x00400010; 0x20004010; 0x00000000; 0x20404000; 0x20000000; 0x00400010; 0x20004010].
(* d3des.c 245-261 *)
Definition SP7 : list Z := [
  0x00200000; 0x04200002; 0x04000802; 0x00000000; 0x00000800; 0x04000802; 0x00200802; 0x04200800;
  0x04200802; 0x00200000; 0x00000000; 0x04000002; 0x00000002; 0x04000000; 0x04200002; 0x00000802;
  0x04000800; 0x00200802; 0x00200002; 0x04000800; 0x04000002; 0x04200000; 0x04200800; 0x00200002;
  0x04200000; 0x00000800; 0x00000802; 0x04200802; 0x00200800; 0x00000002; 0x04000000; 0x00200800;
  0x04000000; 0x00200800; 0x00200000; 0x04000802; 0x04000802; 0x04200002; 0x04200002; 0x00000002;
  0x00200002; 0x04000000; 0x04000800; 0x00200000; 0x04200800; 0x00000802; 0x00200802; 0x04200800;
  0x00000802; 0x04000002; 0x04200802; 0x04200000; 0x00200800; 0x00000000; 0x00000002; 0x04200802;
  0x00000000; 0x00200802; 0x04200000; 0x00000800; 0x04000002; 0x04000800; 0x00000800; 0x00200002].
(* d3des.c 263-279 *)
Definition SP8 : list Z := [
  0x10001040; 0x00001000; 0x00040000; 0x10041040; 0x10000000; 0x10001040; 0x00000040; 0x10000000;
  0x00040040; 0x10040000; 0x10041040; 0x00041000; 0x10041000; 0x00041040; 0x00001000; 0x00000040;
  0x10040000; 0x10000040; 0x10001000; 0x00001040; 0x00041000; 0x00040040; 0x10040040; 0x10041000;
  0x00001040; 0x00000000; 0x00000000; 0x10040040; 0x10000040; 0x10001000; 0x00041040; 0x00040000;
  0x00041040; 0x00040000; 0x10041000; 0x00001000; 0x00000040; 0x10040040; 0x00001000; 0x00041040;
  0x10001000; 0x00000040; 0x10000040; 0x10040000; 0x10040040; 0x10000000; 0x00040000; 0x10001040;
  0x00000000; 0x10041040; 0x00040040; 0x10000040; 0x10040000; 0x10001000; 0x10001040; 0x00000000;
  0x10041040; 0x00041000; 0x00041000; 0x00001040; 0x00001040; 0x00040040; 0x10000000; 0x10041000].

(* d3des_cook_key, d3des.c 52-86.  pc1m and pcr hold 0 or 1: booleans here. *)
Definition pc1m (key : bytes) : list bool :=
  map (fun l => negb (Z.land (nth (l / 8) key 0) (nth (l mod 8) bytebit 0) =? 0)) pc1.
Definition pcr (pc1m : list bool) (i : nat) : list bool :=
  map (fun j => let l := (j + nth i totrot 0)%nat in if (l <? 28)%nat then nth l pc1m false else nth (l - 28) pc1m false) (seq 0 28) ++
  map (fun j => let l := (j + nth i totrot 0)%nat in if (l <? 56)%nat then nth l pc1m false else nth (l - 28) pc1m false) (seq 28 28).
(* lines 79-82: off is 0 for kn[m] and 24 for kn[n]; the two sums are independent *)
Definition kn_word (pcr : list bool) (off : nat) : Z :=
  fold_left (fun acc j => if nth (nth (j + off) pc2 0%nat) pcr false then Z.lor acc (nth j bigbyte 0) else acc) (seq 0 24) 0.
(* kn is uninitialised in C; all 32 entries are written before cookey reads them *)
Definition kn_array (edf : dir) (pc1m : list bool) : list Z :=
  fold_left (fun kn i =>
    let m := match edf with Decrypt => (2 * (15 - i))%nat | Encrypt => (2 * i)%nat end in
    let p := pcr pc1m i in
    kput (kput kn m (kn_word p 0)) (m + 1) (kn_word p 24)) (seq 0 16) (repeat 0 32).
(* cookey, d3des.c 88-105: two raw words give two cooked words *)
Definition cook0 (raw0 raw1 : Z) : Z :=
  Z.lor (Z.lor (Z.lor (c_shl 32 (Z.land raw0 0x00fc0000) 6) (c_shl 32 (Z.land raw0 0x00000fc0) 10))
    (c_shr (Z.land raw1 0x00fc0000) 10)) (c_shr (Z.land raw1 0x00000fc0) 6).
Definition cook1 (raw0 raw1 : Z) : Z :=
  Z.lor (Z.lor (Z.lor (c_shl 32 (Z.land raw0 0x0003f000) 12) (c_shl 32 (Z.land raw0 0x0000003f) 16))
    (c_shr (Z.land raw1 0x0003f000) 4)) (Z.land raw1 0x0000003f).
Definition cookey (kn : list Z) : list Z :=
  flat_map (fun i => [cook0 (kget kn (2 * i)) (kget kn (2 * i + 1)); cook1 (kget kn (2 * i)) (kget kn (2 * i + 1))]) (seq 0 16).
Definition d3des_cook_key (key : bytes) (edf : dir) : list Z := cookey (kn_array edf (pc1m key)).

(* scrunch, d3des.c 116-120 (the int shifts wrap to 32 bits), and unscrun, 122-134 *)
Definition scrunch (b : bytes) (i : nat) : Z :=
  Z.lor (Z.lor (Z.lor (c_shl 32 (nth i b 0) 24) (c_shl 32 (nth (i + 1) b 0) 16)) (c_shl 32 (nth (i + 2) b 0) 8)) (nth (i + 3) b 0).
Definition unscrun (n : Z) : bytes := [c_shr n 24 mod 256; c_shr n 16 mod 256; c_shr n 8 mod 256; n mod 256].

(* desfunc, d3des.c 281-352; a pair holds (leftt, right) *)
(* work = ((leftt >> s) ^ right) & mask; right ^= work; leftt ^= (work << s) *)
Definition swap_lr (s mask : Z) (lr : Z * Z) : Z * Z :=
  let (leftt, right) := lr in
  let work := Z.land (Z.lxor (c_shr leftt s) right) mask in
  (Z.lxor leftt (c_shl 32 work s), Z.lxor right work).
(* work = ((right >> s) ^ leftt) & mask; leftt ^= work; right ^= (work << s) *)
Definition swap_rl (s mask : Z) (lr : Z * Z) : Z * Z :=
  let (leftt, right) := lr in
  let work := Z.land (Z.lxor (c_shr right s) leftt) mask in
  (Z.lxor leftt work, Z.lxor right (c_shl 32 work s)).
(* lines 286-304 *)
Definition des_initial (lr : Z * Z) : Z * Z :=
  let lr := swap_lr 4 0x0f0f0f0f lr in
  let lr := swap_lr 16 0x0000ffff lr in
  let lr := swap_rl 2 0x33333333 lr in
  let lr := swap_rl 8 0x00ff00ff lr in
  let (leftt, right) := lr in
  let right := Z.lor (c_shl 32 right 1) (Z.land (c_shr right 31) 1) in
  let work := Z.land (Z.lxor leftt right) 0xaaaaaaaa in
  let leftt := Z.lxor leftt work in
  let right := Z.lxor right work in
  (Z.lor (c_shl 32 leftt 1) (Z.land (c_shr leftt 31) 1), right).
(* lines 307-317 (and 319-329): fval for the half block r and the two key words *)
Definition fval (r k0 k1 : Z) : Z :=
  let work := Z.lxor (Z.lor (c_shl 32 r 28) (c_shr r 4)) k0 in
  let ix s := Z.to_nat (Z.land (c_shr work s) 0x3f) in
  let f := nth (ix 0) SP7 0 in
  let f := Z.lor f (nth (ix 8) SP5 0) in
  let f := Z.lor f (nth (ix 16) SP3 0) in
  let f := Z.lor f (nth (ix 24) SP1 0) in
  let work := Z.lxor r k1 in
  let ix s := Z.to_nat (Z.land (c_shr work s) 0x3f) in
  let f := Z.lor f (nth (ix 0) SP8 0) in
  let f := Z.lor f (nth (ix 8) SP6 0) in
  let f := Z.lor f (nth (ix 16) SP4 0) in
  Z.lor f (nth (ix 24) SP2 0).
(* lines 306-331 *)
Definition des_rounds (keys : list Z) (lr : Z * Z) : Z * Z :=
  fold_left (fun lr r =>
    let (leftt, right) := lr : Z * Z in
    let leftt := Z.lxor leftt (fval right (kget keys (4 * r)) (kget keys (4 * r + 1))) in
    let right := Z.lxor right (fval leftt (kget keys (4 * r + 2)) (kget keys (4 * r + 3))) in
    (leftt, right)) (seq 0 8) lr.
(* lines 333-351; the result is (block[0], block[1]) *)
Definition des_final (lr : Z * Z) : Z * Z :=
  let (leftt, right) := lr in
  let right := Z.lor (c_shl 32 right 31) (c_shr right 1) in
  let work := Z.land (Z.lxor leftt right) 0xaaaaaaaa in
  let leftt := Z.lxor leftt work in
  let right := Z.lxor right work in
  let leftt := Z.lor (c_shl 32 leftt 31) (c_shr leftt 1) in
  let lr := swap_lr 8 0x00ff00ff (leftt, right) in
  let lr := swap_lr 2 0x33333333 lr in
  let lr := swap_rl 16 0x0000ffff lr in
  let lr := swap_rl 4 0x0f0f0f0f lr in
  (snd lr, fst lr).
(* d3des_transform, d3des.c 107-114; a cooked key holds 32 words *)
Definition d3des_transform (keys : list Z) (b : bytes) : bytes :=
  let lr := des_final (des_rounds keys (des_initial (scrunch b 0, scrunch b 4))) in
  unscrun (fst lr) ++ unscrun (snd lr).

(* class des, cryptokit.ml 569-583 *)
Definition wipe_ckey (k : list Z) : list Z := map (fun _ => 0) k.
Definition des_class : block_cipher := raw_cipher (list Z) 8 (fun k b => Ret (d3des_transform k b)) wipe_ckey.
Definition new_des (d : dir) (key : bytes) : out bobj :=
  if zlen key =? 8 then Ret (BObj des_class (d3des_cook_key key d)) else Raise (Error Wrong_key_size).

(* classes triple_des_encrypt, triple_des_decrypt, cryptokit.ml 588-640: the state is
   (ckey1, ckey2, ckey3); the second and third passes work in place on dst *)
Definition triple_des_class : block_cipher := {|
  bc_st := list Z * list Z * list Z;
  bc_blocksize := 8;
  bc_transform := fun k src so dst d =>
    let '(ckey1, ckey2, ckey3) := k in
    if (so <? 0) || (so >? zlen src - 8) || (d <? 0) || (d >? zlen dst - 8)
    then ((k, dst), Raise Invalid_argument)
    else
      let dst := splice dst d (d3des_transform ckey1 (sub src so 8)) in
      let dst := splice dst d (d3des_transform ckey2 (sub dst d 8)) in
      let dst := splice dst d (d3des_transform ckey3 (sub dst d 8)) in
      ((k, dst), Ret tt);
  bc_wipe := fun k => let '(a, b, c) := k in (wipe_ckey a, wipe_ckey b, wipe_ckey c) |}.
Definition new_triple_des (d : dir) (key : bytes) : out bobj :=
  if negb (zlen key =? 16) && negb (zlen key =? 24) then Raise (Error Wrong_key_size)
  else match d with
  | Encrypt =>
      let ckey1 := d3des_cook_key (sub key 0 8) Encrypt in
      let ckey2 := d3des_cook_key (sub key 8 8) Decrypt in
      let ckey3 := if zlen key =? 24 then d3des_cook_key (sub key 16 8) Encrypt else ckey1 in
      Ret (BObj triple_des_class (ckey1, ckey2, ckey3))
  | Decrypt =>
      let ckey3 := d3des_cook_key (sub key 0 8) Decrypt in
      let ckey2 := d3des_cook_key (sub key 8 8) Encrypt in
      let ckey1 := if zlen key =? 24 then d3des_cook_key (sub key 16 8) Decrypt else ckey3 in
      Ret (BObj triple_des_class (ckey1, ckey2, ckey3))
  end.
