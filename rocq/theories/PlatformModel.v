(* Model: the code that depends on the byte order of the machine (#ifdef ARCH_BIG_ENDIAN) or
   on the width of C's long and unsigned long, for every such machine.  Pointers and OCaml
   integers are those of a 64-bit system: the machines with a 32-bit long are the 64-bit
   Windows ones. *)
From Verif Require Import Prelude BytesNum SpecBlock Word SpecHash SpecRipemd SpecKeccak HashModel MdModel ShaModel RipemdModel KeccakModel.
From Verif Require Import EncModel BlockModel CipherModel StreamModel BlowfishModel SpecPlatform.

(* a word of the machine read from memory, and written to it *)
Definition host_read (e : order) (b : bytes) : Z := match e with Little => le b | Big => be b end.
Definition host_write (e : order) (n : nat) (v : Z) : bytes := match e with Little => to_le n v | Big => to_be n v end.
Definition read_words (e : order) (n : Z) (b : bytes) : list Z := map (host_read e) (chunks n b).
Definition write_words (e : order) (n : Z) (l : list Z) : bytes := concat (map (host_write e (Z.to_nat n)) l).
Definition swap_words (n : Z) (b : bytes) : bytes := concat (map (@rev Z) (chunks n b)).

(* SHA1_copy_and_swap sha1.c 26-42, SHA256_copy_and_swap sha256.c 31-47,
   SHA512_copy_and_swap sha512.c 31-53 *)
Definition sha_copy_and_swap (e : order) (n : Z) (src : bytes) : bytes :=
  match e with Big => src | Little => swap_words n src end.
(* RIPEMD160_copy_and_swap, ripemd160.c 88-104 *)
Definition rmd_copy_and_swap (e : order) (n : Z) (src : bytes) : bytes :=
  match e with Big => swap_words n src | Little => src end.

(* SHA1_transform, sha1.c 53-99: lines 59-60, then lines 62-98, which compute on words *)
Definition sha1_words (st : list Z) (data : list Z) : list Z :=
  let data := expand (fun data i =>
    let t := Z.lxor (Z.lxor (Z.lxor (nth (i - 3) data 0) (nth (i - 8) data 0)) (nth (i - 14) data 0)) (nth (i - 16) data 0) in
    c_rol 32 t 1) 64 16 data in
  let v := (nth 0 st 0, nth 1 st 0, nth 2 st 0, nth 3 st 0, nth 4 st 0) in
  let v := for_range 0 20 (sha1_step sha1_F 0x5A827999 data) v in
  let v := for_range 20 20 (sha1_step sha1_H 0x6ED9EBA1 data) v in
  let v := for_range 40 20 (sha1_step sha1_G 0x8F1BBCDC data) v in
  let v := for_range 60 20 (sha1_step sha1_H 0xCA62C1D6 data) v in
  let '(a, b, c, d, e) := v in
  [c_add 32 (nth 0 st 0) a; c_add 32 (nth 1 st 0) b; c_add 32 (nth 2 st 0) c;
   c_add 32 (nth 3 st 0) d; c_add 32 (nth 4 st 0) e].
Definition sha1_transform_on (e : order) (st : list Z) (buf : bytes) : list Z :=
  sha1_words st (read_words e 4 (sha_copy_and_swap e 4 buf)).

(* SHA256_transform sha256.c 68-128, SHA512_transform sha512.c 138-198, in the same way *)
Definition sha2_words (w : Z) (S0 S1 s0 s1 : Z -> Z) (constants : list Z) (rounds8 : nat) (st data : list Z) : list Z :=
  let data := expand (fun data i =>
    c_add w (c_add w (c_add w (s1 (nth (i - 2) data 0)) (nth (i - 7) data 0))
      (s0 (nth (i - 15) data 0))) (nth (i - 16) data 0)) 64 16 data in
  let v := (nth 0 st 0, nth 1 st 0, nth 2 st 0, nth 3 st 0, nth 4 st 0, nth 5 st 0, nth 6 st 0, nth 7 st 0) in
  let '(a, b, c, d, e, f, g, h) := for_range 0 rounds8 (eight w S0 S1 constants data) v in
  [c_add w (nth 0 st 0) a; c_add w (nth 1 st 0) b; c_add w (nth 2 st 0) c; c_add w (nth 3 st 0) d;
   c_add w (nth 4 st 0) e; c_add w (nth 5 st 0) f; c_add w (nth 6 st 0) g; c_add w (nth 7 st 0) h].
Definition sha256_transform_on (e : order) (st : list Z) (buf : bytes) : list Z :=
  sha2_words 32 SIGMA0_256 SIGMA1_256 sigma0_256 sigma1_256 SHA256_constants 8 st (read_words e 4 (sha_copy_and_swap e 4 buf)).
Definition sha512_transform_on (e : order) (st : list Z) (buf : bytes) : list Z :=
  sha2_words 64 SIGMA0_512 SIGMA1_512 sigma0_512 sigma1_512 SHA512_constants 10 st (read_words e 8 (sha_copy_and_swap e 8 buf)).

(* RIPEMD160_compress, ripemd160.c 106-319 *)
Definition rmd_words (st data : list Z) : list Z :=
  let L := fold_left (exec data) rmd_left (firstn 5 st) in
  let R := fold_left (exec data) rmd_right (firstn 5 st) in
  let s k := nth k st 0 in
  let d := c_add 32 (nth 3 R 0) (c_add 32 (nth 2 L 0) (s 1%nat)) in
  [d; c_add 32 (c_add 32 (s 2%nat) (nth 3 L 0)) (nth 4 R 0);
   c_add 32 (c_add 32 (s 3%nat) (nth 4 L 0)) (nth 0 R 0);
   c_add 32 (c_add 32 (s 4%nat) (nth 0 L 0)) (nth 1 R 0);
   c_add 32 (c_add 32 (s 0%nat) (nth 1 L 0)) (nth 2 R 0)].
Definition rmd_compress_on (e : order) (st : list Z) (buf : bytes) : list Z :=
  rmd_words st (read_words e 4 (rmd_copy_and_swap e 4 buf)).

(* the words of the length field (sha1.c 165-166 etc., ripemd160.c 384-385) and the final copy
   of the state (sha1.c 169, sha256.c 220-229, sha512.c 290-299, ripemd160.c 388) *)
Definition sha_length_on (e : order) (n hi lo : Z) : bytes := sha_copy_and_swap e n (write_words e n [hi; lo]).
Definition rmd_length_on (e : order) (n hi lo : Z) : bytes := rmd_copy_and_swap e n (write_words e n [lo; hi]).
Definition sha_output_on (e : order) (n : Z) (words : nat) (st : list Z) : bytes := sha_copy_and_swap e n (write_words e n (firstn words st)).
Definition rmd_output_on (e : order) (st : list Z) : bytes := rmd_copy_and_swap e 4 (write_words e 4 (firstn 5 st)).

(* "Update length" with an unsigned long of U bits: sha1.c 118-122, sha256.c 169-173, sha512.c
   239-243, ripemd160.c 338-342.  The shift of len is done on U bits, before the conversion *)
Definition md_add_length_on (U W hi lo len : Z) : Z * Z :=
  let lo' := c_add W lo (c_shl U len 3 mod 2 ^ W) in
  let hi1 := if lo' <? lo then c_add W hi 1 else hi in
  (c_add W hi1 (c_shr len (W - 3) mod 2 ^ W), lo').
(* SHA1_add_data sha1.c 113-147, SHA256_add_data sha256.c 164-198, SHA512_add_data sha512.c
   234-268, RIPEMD160_add_data ripemd160.c 333-367, called by the stubs with the length of the
   range converted to unsigned long *)
Definition md_add_data_on (U B W : Z) (compress : list Z -> bytes -> list Z) (c : md_ctx) (data : bytes) : out md_ctx :=
  let len := zlen data mod 2 ^ U in
  let data := firstn (Z.to_nat len) data in
  let '(hi, lo) := md_add_length_on U W (md_hi c) (md_lo c) len in
  let rest st buf data :=
    olet r := md_blocks B compress (S (length data)) st buf data in
    let '(st, num, buf) := r in Ret (MD st hi lo num buf) in
  if negb (md_num c =? 0) then
    let t := B - md_num c in
    if len <? t then
      olet buf := c_memcpy (md_buf c) (md_num c) data in
      Ret (MD (md_state c) hi lo (md_num c + len) buf)
    else
      olet buf := c_memcpy (md_buf c) (md_num c) (firstn (Z.to_nat t) data) in
      rest (compress (md_state c) buf) buf (skipn (Z.to_nat t) data)
  else rest (md_state c) (md_buf c) data.

(* caml_sha3_absorb, stubs-sha3.c 52-57; SHA3_absorb, keccak.c 126-154 (unsigned long len) *)
Definition sha3_upd_on (U : Z) (c : option k_ctx) (data : bytes) : out (option k_ctx) :=
  sha3_upd c (firstn (Z.to_nat (zlen data mod 2 ^ U)) data).

Section Machine.
Variable p : platform.
Let e := p_order p.
Let U := p_long p.

(* the classes of module Hash, cryptokit.ml 1076-1238 *)
Definition sha1_class_on : hash := c_hash md_ctx 20 (md_add_data_on U 64 32 (sha1_transform_on e))
  (md_final 64 32 (sha1_transform_on e) (sha_length_on e 4) (sha_output_on e 4 5)) md_wipe.
Definition sha256_final_on (words : nat) := md_final 64 32 (sha256_transform_on e) (sha_length_on e 4) (sha_output_on e 4 words).
Definition sha512_final_on (words : nat) := md_final 128 64 (sha512_transform_on e) (sha_length_on e 8) (sha_output_on e 8 words).
Definition sha256_add_data_on := md_add_data_on U 64 32 (sha256_transform_on e).
Definition sha512_add_data_on := md_add_data_on U 128 64 (sha512_transform_on e).
Definition sha224_class_on : hash := c_hash md_ctx 24 sha256_add_data_on (sha256_final_on 7) md_wipe.
Definition sha256_class_on : hash := c_hash md_ctx 32 sha256_add_data_on (sha256_final_on 8) md_wipe.
Definition sha384_class_on : hash := c_hash md_ctx 48 sha512_add_data_on (sha512_final_on 6) md_wipe.
Definition sha512_class_on : hash := c_hash md_ctx 64 sha512_add_data_on (sha512_final_on 8) md_wipe.
Definition ripemd160_class_on : hash := c_hash md_ctx 32 (md_add_data_on U 64 32 (rmd_compress_on e))
  (md_final 64 32 (rmd_compress_on e) (rmd_length_on e 4) (rmd_output_on e)) md_wipe.
Definition sha3_class_on (sz : Z) (official : bool) : hash :=
  c_hash (option k_ctx) (sz / 8) (sha3_upd_on U) (sha3_fin official) (fun _ => None).

Variable fresh : Z -> bytes.
Definition sha1_obj_on : hobj := HObj sha1_class_on (md_init sha1_iv (fresh 64)).
Definition sha224_obj_on : hobj := HObj sha224_class_on (md_init (sha256_iv 224) (fresh 64)).
Definition sha256_obj_on : hobj := HObj sha256_class_on (md_init (sha256_iv 256) (fresh 64)).
Definition sha384_obj_on : hobj := HObj sha384_class_on (md_init (sha512_iv 384) (fresh 128)).
Definition sha512_obj_on : hobj := HObj sha512_class_on (md_init (sha512_iv 512) (fresh 128)).
Definition ripemd160_obj_on : hobj := HObj ripemd160_class_on (md_init rmd_iv (fresh 64)).
Definition sha3_obj_on (sz : Z) (official : bool) : hobj := HObj (sha3_class_on sz official) (Some (SHA3_init sz (fresh 144))).

(* U32TO8_LITTLE, chacha20.c 12-22 *)
Definition cc_store_on (v : Z) : bytes :=
  match e with
  | Big => [v mod 256; c_shr v 8 mod 256; c_shr v 16 mod 256; c_shr v 24 mod 256]
  | Little => host_write e 4 v
  end.
(* chacha20_block, chacha20.c 43-110 *)
Definition chacha20_block_on (c : chacha) : chacha :=
  let input := cc_input c in
  let x := fold_left (fun x _ => c_double_round x) (seq 0 10) input in
  let x := map (fun i => c_add 32 (kget x i) (kget input i)) (seq 0 16) in
  let output := flat_map cc_store_on x in
  let n12 := c_add 32 (kget input 12) 1 in
  let input' := kput input 12 n12 in
  let input' := if n12 =? 0 then if cc_ivlen c =? 8 then kput input' 13 (c_add 32 (kget input' 13) 1) else input' else input' in
  Chacha input' output (cc_next c) (cc_ivlen c).
Definition cc_byte_on (c : chacha) : Z * chacha :=
  let c := if cc_next c >=? 64 then let c := chacha20_block_on c in Chacha (cc_input c) (cc_output c) 0 (cc_ivlen c) else c in
  (nth (Z.to_nat (cc_next c)) (cc_output c) 0, Chacha (cc_input c) (cc_output c) (cc_next c + 1) (cc_ivlen c)).
(* chacha20_transform, chacha20.c 112-121: len is a size_t *)
Fixpoint chacha20_transform_on (c : chacha) (l : bytes) : chacha * bytes :=
  match l with
  | [] => (c, [])
  | b :: l => let (k, c) := cc_byte_on c in let (c, r) := chacha20_transform_on c l in (c, Z.lxor b k :: r)
  end.
Definition chacha20_class_on : stream_cipher := raw_stream chacha (fun c l => let (c, r) := chacha20_transform_on c l in (c, Ret r)) chacha_wipe.
Definition new_chacha20_on (iv : option bytes) (ctr : Z) (key : bytes) : out sobj :=
  if negb ((zlen key =? 16) || (zlen key =? 32)) then Raise (Error Wrong_key_size)
  else
    olet iv := match iv with
               | None => Ret (zeros 8)
               | Some s => if (zlen s =? 8) || ((zlen s =? 12) && (ctr <? 0x1000000)) then Ret s else Raise (Error Wrong_IV_size)
               end in
    Ret (SObj chacha20_class_on (chacha20_init fresh key iv ctr)).

(* COPY4BYTES, stubs-blowfish.c 31-43, between a word and the buffer; caml_blowfish_encrypt and
   caml_blowfish_decrypt, 45-75 *)
Definition copy4 (b : bytes) : bytes := match e with Big => b | Little => rev b end.
Definition bf_stub_on (f : Z * Z -> Z * Z) (b : bytes) : bytes :=
  let x := f (host_read e (copy4 (firstn 4 b)), host_read e (copy4 (skipn 4 b))) in
  copy4 (host_write e 4 (fst x)) ++ copy4 (host_write e 4 (snd x)).
Definition new_blowfish_on (d : dir) (key : bytes) : out bobj :=
  if (4 <=? zlen key) && (zlen key <=? 56) then
    Ret (BObj (raw_cipher bf_ctx 8 (fun c b => Ret (bf_stub_on (match d with Encrypt => Blowfish_Encrypt | Decrypt => Blowfish_Decrypt end c) b)) bf_wipe)
              (Blowfish_Init key))
  else Raise (Error Wrong_key_size).

(* arcfour_encrypt, arcfour.c 38-55: len is a long, converted from the OCaml integer by the stub
   (stubs-arcfour.c 34-42); the loop runs while it is positive *)
Definition to_long (n : Z) : Z := (n + 2 ^ (U - 1)) mod 2 ^ U - 2 ^ (U - 1).
Definition arcfour_encrypt_on (k : arc) (l : bytes) : arc * out bytes :=
  let len := to_long (zlen l) in
  arcfour_encrypt k (if len >? 0 then firstn (Z.to_nat len) l else []).
Definition new_arcfour_on (key : bytes) : out sobj :=
  if (zlen key >? 0) && (zlen key <=? 256) then Ret (SObj (raw_stream arc arcfour_encrypt_on arc_wipe) (arcfour_cook_key key))
  else Raise (Error Wrong_key_size).
End Machine.

(* the hash objects whose length words have 32 bits or which have none, and the function each
   is documented to compute; then those with length words of 64 bits *)
Inductive machine_hash (p : platform) (fresh : Z -> bytes) : hobj -> (bytes -> bytes) -> Prop :=
  | mh_sha1 : machine_hash p fresh (sha1_obj_on p fresh) sha1
  | mh_sha224 : machine_hash p fresh (sha224_obj_on p fresh) sha224
  | mh_sha256 : machine_hash p fresh (sha256_obj_on p fresh) sha256
  | mh_ripemd160 : machine_hash p fresh (ripemd160_obj_on p fresh) ripemd160
  | mh_sha3 : forall sz, sz = 224 \/ sz = 256 \/ sz = 384 \/ sz = 512 -> machine_hash p fresh (sha3_obj_on p fresh sz true) (sha3_spec sz)
  | mh_keccak : forall sz, sz = 224 \/ sz = 256 \/ sz = 384 \/ sz = 512 -> machine_hash p fresh (sha3_obj_on p fresh sz false) (keccak_spec sz).
Inductive machine_hash64 (p : platform) (fresh : Z -> bytes) : hobj -> list Z -> nat -> Prop :=
  | mh_sha384 : machine_hash64 p fresh (sha384_obj_on p fresh) sha384_IV 48
  | mh_sha512 : machine_hash64 p fresh (sha512_obj_on p fresh) sha512_IV 64.
