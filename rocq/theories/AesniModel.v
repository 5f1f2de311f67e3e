(* Model: aesni.c and the AES-NI branches of stubs-aes.c.  A value of type
   __m128i is the list of its sixteen bytes in memory order.  The AES instructions
   are given by Intel in terms of the FIPS 197 functions, so they are taken from
   SpecAes; what is modelled is how cryptokit uses them. *)
From Verif Require Import Prelude SpecBlock SpecAes BlockModel CipherModel AesModel.

(* ---- the intrinsics (Intel 64 manual, volume 2) ---- *)
Definition dword (x : bytes) (i : nat) : bytes := firstn 4 (skipn (4 * i) x).
Definition qword (x : bytes) (i : nat) : bytes := firstn 8 (skipn (8 * i) x).
(* _mm_slli_si128 (PSLLDQ): towards higher addresses by n bytes *)
Definition mm_slli_si128 (x : bytes) (n : nat) : bytes := repeat 0 n ++ firstn (16 - n) x.
(* _mm_shuffle_epi32 (PSHUFD): doubleword i of the result is doubleword
   (imm >> 2i) & 3 of the argument *)
Definition mm_shuffle_epi32 (x : bytes) (imm : Z) : bytes :=
  concat (map (fun i => dword x (Z.to_nat (imm / 4 ^ Z.of_nat i mod 4))) (seq 0 4)).
(* _mm_shuffle_pd (SHUFPD) *)
Definition mm_shuffle_pd (x y : bytes) (imm : Z) : bytes :=
  qword x (if Z.testbit imm 0 then 1 else 0)%nat ++ qword y (if Z.testbit imm 1 then 1 else 0)%nat.
(* AESKEYGENASSIST *)
Definition mm_aeskeygenassist (x : bytes) (rc : Z) : bytes :=
  SubWord (dword x 1) ++ xorb (RotWord (SubWord (dword x 1))) [rc; 0; 0; 0] ++
  SubWord (dword x 3) ++ xorb (RotWord (SubWord (dword x 3))) [rc; 0; 0; 0].
(* AESENC, AESENCLAST, AESDEC, AESDECLAST, AESIMC *)
Definition mm_aesenc (t k : bytes) : bytes := xorb (MixColumns (SubBytes (ShiftRows t))) k.
Definition mm_aesenclast (t k : bytes) : bytes := xorb (SubBytes (ShiftRows t)) k.
Definition mm_aesdec (t k : bytes) : bytes := xorb (InvMixColumns (InvSubBytes (InvShiftRows t))) k.
Definition mm_aesdeclast (t k : bytes) : bytes := xorb (InvSubBytes (InvShiftRows t)) k.
Definition mm_aesimc (t : bytes) : bytes := InvMixColumns t.

(* t ^ t<<4 ^ t<<8 ^ t<<12, as in each of the assist functions *)
Definition xor_shifts (t1 : bytes) : bytes :=
  let t3 := mm_slli_si128 t1 4 in
  let t1 := xorb t1 t3 in
  let t3 := mm_slli_si128 t3 4 in
  let t1 := xorb t1 t3 in
  let t3 := mm_slli_si128 t3 4 in
  xorb t1 t3.
(* aesni_128_assist, aesni.c 37-49 *)
Definition aesni_128_assist (t1 t2 : bytes) : bytes := xorb (xor_shifts t1) (mm_shuffle_epi32 t2 0xff).
(* aesni_192_assist, aesni.c 51-66: new values of t1 and t3 *)
Definition aesni_192_assist (t1 t2 t3 : bytes) : bytes * bytes :=
  let t1 := xorb (xor_shifts t1) (mm_shuffle_epi32 t2 0x55) in
  let t2 := mm_shuffle_epi32 t1 0xff in
  (t1, xorb (xorb t3 (mm_slli_si128 t3 4)) t2).
(* aesni_256_assist_1 and _2, aesni.c 68-93 *)
Definition aesni_256_assist_1 (t1 t2 : bytes) : bytes := xorb (xor_shifts t1) (mm_shuffle_epi32 t2 0xff).
Definition aesni_256_assist_2 (t1 t3 : bytes) : bytes :=
  let t4 := mm_aeskeygenassist t1 0 in
  xorb (xor_shifts t3) (mm_shuffle_epi32 t4 0xaa).

(* aesni_key_expansion, aesni.c 95-218: the values key_schedule[0], [1], ... in
   order.  The straight-line code is written as a recursion over its round
   constants. *)
(* lines 104-133 *)
Fixpoint ni_128 (t1 : bytes) (rcs : list Z) : list bytes :=
  match rcs with
  | [] => []
  | rc :: rcs => let t1 := aesni_128_assist t1 (mm_aeskeygenassist t1 rc) in t1 :: ni_128 t1 rcs
  end.
(* lines 139-174, two assists at a time; key_schedule[k] = t3 is overwritten by
   the first shuffle *)
Fixpoint ni_192 (t1 t3 : bytes) (rcs : list (Z * Z)) : list bytes :=
  match rcs with
  | [] => []
  | (rc1, rc2) :: rcs =>
      let ks := t3 in
      let (t1, t3) := aesni_192_assist t1 (mm_aeskeygenassist t3 rc1) t3 in
      let k1 := mm_shuffle_pd ks t1 0 in
      let k2 := mm_shuffle_pd t1 t3 1 in
      let (t1, t3) := aesni_192_assist t1 (mm_aeskeygenassist t3 rc2) t3 in
      k1 :: k2 :: t1 :: ni_192 t1 t3 rcs
  end.
(* lines 181-213; the last assist_1 is not followed by an assist_2 *)
Fixpoint ni_256 (t1 t3 : bytes) (rcs : list Z) : list bytes :=
  match rcs with
  | [] => []
  | rc :: rcs =>
      let t1 := aesni_256_assist_1 t1 (mm_aeskeygenassist t3 rc) in
      match rcs with
      | [] => [t1]
      | _ => let t3 := aesni_256_assist_2 t1 t3 in t1 :: t3 :: ni_256 t1 t3 rcs
      end
  end.
(* _mm_loadu_si128 of 16 bytes at i.  The 192-bit case loads 16 bytes at offset 16
   of a 24-byte key: an OCaml string of 24 bytes occupies 32, the last eight are
   padding. *)
Definition loadu (p : bytes) (i : nat) : bytes := firstn 16 (skipn i p).
Definition string_padding : bytes := [0; 0; 0; 0; 0; 0; 0; 7].
(* abort() for other key lengths: None *)
Definition aesni_key_expansion (key : bytes) (bits : Z) : option (list bytes * Z) :=
  let mem := key ++ string_padding in
  if bits =? 128 then
    let t1 := loadu mem 0 in
    Some (t1 :: ni_128 t1 [0x1; 0x2; 0x4; 0x8; 0x10; 0x20; 0x40; 0x80; 0x1b; 0x36], 10)
  else if bits =? 192 then
    let t1 := loadu mem 0 in
    let t3 := loadu mem 16 in
    Some (t1 :: ni_192 t1 t3 [(0x1, 0x2); (0x4, 0x8); (0x10, 0x20); (0x40, 0x80)], 12)
  else if bits =? 256 then
    let t1 := loadu mem 0 in
    let t3 := loadu mem 16 in
    Some (t1 :: t3 :: ni_256 t1 t3 [0x1; 0x2; 0x4; 0x8; 0x10; 0x20; 0x40], 14)
  else None.

(* aesniKeySetupEnc and Dec, aesni.c 227-258, storing into the cooked key: its 240
   bytes are kept as fifteen blocks, [ck] before the call *)
Definition store_blocks (ck ks : list bytes) : list bytes := ks ++ skipn (length ks) ck.
Definition aesniKeySetupEnc (ck : list bytes) (key : bytes) (bits : Z) : option (list bytes * Z) :=
  match aesni_key_expansion key bits with
  | Some (ks, n) => Some (store_blocks ck (map (fun i => nth i ks []) (seq 0 (S (Z.to_nat n)))), n)
  | None => None
  end.
Definition aesniKeySetupDec (ck : list bytes) (key : bytes) (bits : Z) : option (list bytes * Z) :=
  match aesni_key_expansion key bits with
  | Some (ks, nr) =>
      let n := Z.to_nat nr in
      Some (store_blocks ck ([nth n ks []] ++ map (fun i => mm_aesimc (nth (n - i) ks [])) (seq 1 (n - 1)) ++ [nth 0 ks []]), nr)
  | None => None
  end.

(* aesniEncrypt and aesniDecrypt, aesni.c 260-300.  The do-while loop runs
   max(1, nrounds - 1) times; a round key beyond the fifteen blocks is undefined
   behaviour. *)
Definition aesni_run (op oplast : bytes -> bytes -> bytes) (ck : list bytes) (nr : Z) (inp : bytes) : out bytes :=
  let iters := Nat.max 1 (Z.to_nat nr - 1) in
  if (S iters <? length ck)%nat then
    let t := xorb inp (nth 0 ck []) in
    let t := fold_left (fun t j => op t (nth j ck [])) (seq 1 iters) t in
    Ret (oplast t (nth (S iters) ck []))
  else Undef.
Definition aesniEncrypt := aesni_run mm_aesenc mm_aesenclast.
Definition aesniDecrypt := aesni_run mm_aesdec mm_aesdeclast.

(* the stubs and classes on a machine with AES-NI: stubs-aes.c with
   aesni_available == 1, cryptokit.ml 499-533 *)
Definition aesni_ckey : Type := (list bytes * Z)%type.
Section Fresh.
Variable fresh : Z -> bytes.
Definition uninit_blocks : list bytes := chunks 16 (fresh 240).
Definition aesni_wipe (k : aesni_ckey) : aesni_ckey := (repeat (zeros 16) 15, 16).
Definition aesni_encrypt_class : block_cipher :=
  raw_cipher aesni_ckey 16 (fun k b => aesniEncrypt (fst k) (snd k) b) aesni_wipe.
Definition aesni_decrypt_class : block_cipher :=
  raw_cipher aesni_ckey 16 (fun k b => aesniDecrypt (fst k) (snd k) b) aesni_wipe.
(* abort() is modelled as undefined behaviour *)
Definition new_aesni (d : dir) (key : bytes) : out bobj :=
  if aes_key_ok key then
    match d, aesniKeySetupEnc uninit_blocks key (8 * zlen key), aesniKeySetupDec uninit_blocks key (8 * zlen key) with
    | Encrypt, Some ck, _ => Ret (BObj aesni_encrypt_class ck)
    | Decrypt, _, Some ck => Ret (BObj aesni_decrypt_class ck)
    | _, _, _ => Undef
    end
  else Raise (Error Wrong_key_size).
End Fresh.
