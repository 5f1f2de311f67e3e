(* C91: results do not depend on the machine. *)
From Verif Require Import Prelude BytesNum SpecBlock SpecHash SpecRipemd SpecKeccak HashModel HashSpec BlockModel CipherModel BlockObj.
From Verif Require Import EncModel SpecStream StreamModel StreamObj Chacha StreamApi SpecBlowfish SpecPlatform PlatformModel PlatformApi Toy Platform MiscModel Misc XorPlatformModel XorPlatform.

(* C91.  On every machine, of either byte order and with an unsigned long of 32 or 64 bits, the
   hash objects compute SHA-1, SHA-224, SHA-256, RIPEMD-160, SHA-3 and Keccak of what they are
   given, when each call adds less than 2^32 (2^64) bytes *)
Theorem C91_hashes_partial : forall p fresh o d ops, platform_ok p -> (forall n, 0 <= n -> zlen (fresh n) = n) ->
  machine_hash p fresh o d -> Forall hop_valid ops -> pieces_below (2 ^ p_long p) ops -> answers o ops (d (added ops)).
Proof. intros p fresh o d ops Hp Hf. exact (machine_short p fresh Hp Hf o d ops). Qed.
Print Assumptions C91_hashes_partial.
(* and SHA-384 and SHA-512, when each call adds less than 2^29 (2^61) bytes *)
Theorem C91_hashes64_partial : forall p fresh o iv len ops, platform_ok p -> (forall n, 0 <= n -> zlen (fresh n) = n) ->
  machine_hash64 p fresh o iv len -> Forall hop_valid ops -> pieces_below (2 ^ (p_long p - 3)) ops ->
  answers o ops (sha2_digest p512 iv len (added ops)).
Proof. intros p fresh o iv len ops Hp Hf. exact (machine64_short p fresh Hp Hf o iv len ops). Qed.
Print Assumptions C91_hashes64_partial.
(* no condition where unsigned long has 64 bits *)
Theorem C91_wide : forall p fresh, p_long p = 64 -> (forall n, 0 <= n -> zlen (fresh n) = n) ->
  (forall o d, machine_hash p fresh o d -> forall ops, Forall hop_valid ops -> answers o ops (d (added ops))) /\
  (forall o iv len, machine_hash64 p fresh o iv len -> forall ops, Forall hop_valid ops -> answers o ops (sha2_digest p512 iv len (added ops))).
Proof. intros p fresh E Hf. exact (machine_wide p fresh (or_intror E) Hf E). Qed.
Print Assumptions C91_wide.
(* what they compute in all cases: of each piece, as many bytes as its length modulo 2^32 (2^64) *)
Theorem C91_exact : forall p fresh o d, platform_ok p -> (forall n, 0 <= n -> zlen (fresh n) = n) -> machine_hash p fresh o d ->
  forall ops, Forall hop_valid ops -> answers o ops (d (taken_all (p_long p) ops)).
Proof. exact machine_taken. Qed.
Print Assumptions C91_exact.
(* SHA-384 and SHA-512 also write a wrong length in the last block *)
Theorem C91_exact64 : forall p fresh o iv len ops, platform_ok p -> (forall n, 0 <= n -> zlen (fresh n) = n) ->
  machine_hash64 p fresh o iv len -> Forall hop_valid ops ->
  answers o ops (sha2_with_length iv len (bits_counted (p_long p) ops) (taken_all (p_long p) ops)).
Proof. intros p fresh o iv len ops Hp Hf. exact (machine64_exact p fresh Hp Hf o iv len ops). Qed.
Print Assumptions C91_exact64.
(* with an unsigned long of 32 bits: a string of 2^32 bytes has the digest of the empty string *)
Theorem C91_lost_refuted : exists s, hop_valid (HString s) /\ zlen s = 2 ^ 32 /\
  forall e fresh, (forall n, 0 <= n -> zlen (fresh n) = n) ->
    (forall o d, machine_hash (Platform e 32) fresh o d -> answers o [HString s] (d [])) /\
    (forall o iv len, machine_hash64 (Platform e 32) fresh o iv len -> answers o [HString s] (sha2_digest p512 iv len [])).
Proof. exact machine_lost. Qed.
Print Assumptions C91_lost_refuted.
(* and the length field of the SHA-512 of some string of 2^29 bytes is 0 *)
Theorem C91_length_refuted : exists s, hop_valid (HString s) /\ zlen s = 2 ^ 29 /\ to_be 16 0 <> to_be 16 (8 * zlen s) /\
  forall e fresh, (forall n, 0 <= n -> zlen (fresh n) = n) ->
    forall o iv len, machine_hash64 (Platform e 32) fresh o iv len -> answers o [HString s] (sha2_with_length iv len 0 s).
Proof. exact machine_wrong_length. Qed.
Print Assumptions C91_length_refuted.
(* "abc" in two calls, on machines of both orders *)
Example C91_case :
  let result o := snd (h_result (ho_class o) (fst (h_run (ho_class o) (ho_st o) [HString [97; 98]; HByte 99]))) in
  let first4 r := match r with Ret l => firstn 4 l | _ => [] end in
  map (fun p => map (fun o => first4 (result o))
         [sha1_obj_on p toy_fresh; sha224_obj_on p toy_fresh; sha256_obj_on p toy_fresh; ripemd160_obj_on p toy_fresh;
          sha3_obj_on p toy_fresh 256 true; sha384_obj_on p toy_fresh; sha512_obj_on p toy_fresh])
    [Platform Little 32; Platform Big 32; Platform Little 64; Platform Big 64]
  = repeat [[0xA9; 0x99; 0x3E; 0x36]; [0x23; 0x09; 0x7D; 0x22]; [0xBA; 0x78; 0x16; 0xBF]; [0x8E; 0xB2; 0x08; 0xF7];
            [0x3A; 0x98; 0x5D; 0xA7]; [0xCB; 0x00; 0x75; 0x3F]; [0xDD; 0xAF; 0x35; 0xA1]] 4.
Proof. vm_compute. reflexivity. Qed.

(* ChaCha20 and Blowfish, on every machine *)
Theorem C91_chacha20 : forall p fresh iv ctr key, zlen key = 16 \/ zlen key = 32 -> bytes_ok key -> bytes_ok (iv_of iv) ->
  match iv with None => True | Some s => zlen s = 8 \/ (zlen s = 12 /\ ctr < 2 ^ 24) end ->
  exists o, new_chacha20_on p fresh iv ctr key = Ret o /\ stream_computes o (chacha20 key ctr (iv_of iv)).
Proof. exact chacha20_on_stream. Qed.
Print Assumptions C91_chacha20.
Theorem C91_blowfish : forall p d key, 4 <= zlen key <= 56 -> bytes_ok key ->
  exists o, new_blowfish_on p d key = Ret o /\
    block_computes o 8 (match d with Encrypt => blowfish_E key | Decrypt => blowfish_D key end) /\ block_checks o 8.
Proof. exact blowfish_on_computes. Qed.
Print Assumptions C91_blowfish.
(* ARCFOUR, when each call treats less than 2^31 (2^63) bytes *)
Theorem C91_arcfour_partial : forall p key, platform_ok p -> 1 <= zlen key <= 256 ->
  exists o, new_arcfour_on p key = Ret o /\ forall cs, Forall (fun c => bytes_ok (sc_src c) /\ sc_len c < 2 ^ (p_long p - 1)) cs ->
    snd (sc_run (so_sc o) (so_st o) cs) = ks_history (rc4 key) 0 cs.
Proof. exact arcfour_on_short. Qed.
Print Assumptions C91_arcfour_partial.
Theorem C91_arcfour_exact : forall p key, platform_ok p -> 1 <= zlen key <= 256 ->
  exists o, new_arcfour_on p key = Ret o /\ forall cs, Forall (fun c => bytes_ok (sc_src c)) cs ->
    snd (sc_run (so_sc o) (so_st o) cs) = ks_history_on (p_long p) (rc4 key) 0 cs.
Proof. exact arcfour_on_exact. Qed.
Print Assumptions C91_arcfour_exact.
(* with a long of 32 bits and any key, some valid call encrypts nothing: it returns normally and
   its destination is as before *)
Theorem C91_arcfour_refuted : forall key, 1 <= zlen key <= 256 -> exists c, bytes_ok (sc_src c) /\ scall_ok c /\
  zlen (sc_src c) <= max_string_length /\ zlen (sc_dst c) <= max_string_length /\
  forall e, exists o, new_arcfour_on (Platform e 32) key = Ret o /\
    snd (sc_run (so_sc o) (so_st o) [c]) = [(sc_dst c, Ret tt)] /\
    snd (sc_run (so_sc o) (so_st o) [c]) <> ks_history (rc4 key) 0 [c].
Proof. exact arcfour_untouched. Qed.
Print Assumptions C91_arcfour_refuted.
Example C91_ciphers_case :
  map (fun p =>
    (olet o := new_chacha20_on p toy_fresh (Some [0;0;0;0;0;0;0;0x4a;0;0;0;0]) 1 (map Z.of_nat (seq 0 32)) in
     Ret (map fst (snd (sc_run (so_sc o) (so_st o) [SCall [76;97;100] 0 (zeros 3) 0 3]))),
     olet o := new_blowfish_on p Encrypt (zeros 8) in Ret (snd (fst (bc_transform (b_bc o) (b_st o) (zeros 8) 0 (zeros 8) 0))),
     olet o := new_arcfour_on p [75;101;121] in Ret (map fst (snd (sc_run (so_sc o) (so_st o) [SCall [80;108;97;105] 0 (zeros 4) 0 4])))))
    [Platform Little 32; Platform Big 64]
  = repeat (Ret [[0x6e;0x2e;0x35]], Ret [0x4e;0xf9;0x97;0x45;0x61;0x98;0xdd;0x78], Ret [[0xBB;0xF3;0x16;0xE8]]) 2.
Proof. vm_compute. reflexivity. Qed.

(* xor_bytes and xor_string.  [xored m m' s d n] (C65): n bytes are xored, from the addresses s and d on *)
Theorem C91_xor_partial : forall p m src slen so dst dlen d len, platform_ok p -> mem_ok m -> 0 <= slen -> 0 <= dlen -> valid_ranges slen so dlen d len -> len < 2 ^ (p_long p - 1) ->
  exists m', api_xor_on p m src slen so dst dlen d len = (m', Ret tt) /\ xored m m' (src + so) (dst + d) len.
Proof. exact xor_on_short. Qed.
Print Assumptions C91_xor_partial.
Theorem C91_xor_exact : forall p m src slen so dst dlen d len, platform_ok p -> mem_ok m -> 0 <= slen -> 0 <= dlen ->
  (valid_ranges slen so dlen d len ->
   exists m', api_xor_on p m src slen so dst dlen d len = (m', Ret tt) /\ xored m m' (src + so) (dst + d) (iterations (p_long p) len)) /\
  (~ valid_ranges slen so dlen d len -> api_xor_on p m src slen so dst dlen d len = (m, Raise Invalid_argument)).
Proof. exact xor_on_exact. Qed.
Print Assumptions C91_xor_exact.
(* with a long of 32 bits a valid call, on two separate strings, changes nothing, and should if the source is made of ones *)
Theorem C91_xor_refuted : exists src slen so dst dlen d len, valid_ranges slen so dlen d len /\ slen <= max_string_length /\ dlen <= max_string_length /\ src + slen <= dst /\
  (forall m, (forall a, dst + d <= a < dst + d + len -> m (src + so + (a - dst - d)) = 1) -> ~ xored m m (src + so) (dst + d) len) /\
  forall e m, mem_ok m -> exists m', api_xor_on (Platform e 32) m src slen so dst dlen d len = (m', Ret tt) /\ forall a, m' a = m a.
Proof. exact xor_on_nothing. Qed.
Print Assumptions C91_xor_refuted.
Example C91_xor_case :
  map (fun p => map (fst (api_xor_on p (fun a => a mod 256) 1003 100 0 2003 80 8 70)) [2010; 2011; 2012; 2080; 2081]) [Platform Little 32; Platform Big 32; Platform Big 64]
  = repeat [2010 mod 256; Z.lxor (2011 mod 256) (1003 mod 256); Z.lxor (2012 mod 256) (1004 mod 256); Z.lxor (2080 mod 256) (1072 mod 256); 2081 mod 256] 3.
Proof. vm_compute. reflexivity. Qed.
