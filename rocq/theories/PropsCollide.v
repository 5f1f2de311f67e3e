(* Properties C96 and C97: collisions of the hash functions and of HMAC.  Vocabulary in SpecCollide.v: [calls f h l], the arguments
   of the calls of f made by fold_left f l h; [collision f h l1 l2], two different calls, one for l1 and one for l2, with the
   same result; [last_collision f g h l1 l2], the last calls differ and g gives the same output; [result_of o ops], what
   result returns after the calls ops; and in SpecCollide2.v: the calls made by BLAKE2 and BLAKE3, the strings hashed by HMAC. *)
From Verif Require Import Prelude BytesNum Word SpecBlock SpecHash SpecRipemd SpecKeccak SpecBlake2 SpecBlake3 SpecMac HashModel HashSpec ShaModel RipemdModel KeccakModel Blake2Model Blake3Model MacModel HashLib
  SpecCollide SpecCollide2 Collide MdCollide SpongeCollide Blake2Collide Blake3Collide HmacCollide.

(* C96.  Two different messages have different digests, or hashing them has found a collision of the compression function. *)
Theorem C96_sha1 : forall fresh ops1 ops2, (forall n, 0 <= n -> zlen (fresh n) = n) ->
  Forall hop_valid ops1 -> Forall hop_valid ops2 -> added ops1 <> added ops2 -> zlen (added ops1) < 2 ^ 61 -> zlen (added ops2) < 2 ^ 61 ->
  result_of (sha1_obj fresh) ops1 <> result_of (sha1_obj fresh) ops2 \/
  collision sha1_compress sha1_IV (chunks 64 (md_pad 64 8 to_be (added ops1))) (chunks 64 (md_pad 64 8 to_be (added ops2))).
Proof. intros fresh ops1 ops2 Hf V1 V2 N H1 H2. destruct (out_dec (result_of (sha1_obj fresh) ops1) (result_of (sha1_obj fresh) ops2)) as [E|E]; [right|left; exact E]. exact (sha1_collide fresh Hf ops1 ops2 V1 V2 N H1 H2 E). Qed.
Print Assumptions C96_sha1.
Theorem C96_sha224 : forall fresh ops1 ops2, (forall n, 0 <= n -> zlen (fresh n) = n) ->
  Forall hop_valid ops1 -> Forall hop_valid ops2 -> added ops1 <> added ops2 -> zlen (added ops1) < 2 ^ 61 -> zlen (added ops2) < 2 ^ 61 ->
  result_of (sha224_obj fresh) ops1 <> result_of (sha224_obj fresh) ops2 \/
  collision (sha2_compress p256) sha224_IV (chunks 64 (md_pad 64 8 to_be (added ops1))) (chunks 64 (md_pad 64 8 to_be (added ops2))) \/
  last_collision (sha2_compress p256) (fun s => firstn 28 (concat (map (to_be 4) s))) sha224_IV (chunks 64 (md_pad 64 8 to_be (added ops1))) (chunks 64 (md_pad 64 8 to_be (added ops2))).
Proof. intros fresh ops1 ops2 Hf V1 V2 N H1 H2. destruct (out_dec (result_of (sha224_obj fresh) ops1) (result_of (sha224_obj fresh) ops2)) as [E|E]; [right|left; exact E]. exact (sha224_collide fresh Hf ops1 ops2 V1 V2 N H1 H2 E). Qed.
Print Assumptions C96_sha224.
Theorem C96_sha256 : forall fresh ops1 ops2, (forall n, 0 <= n -> zlen (fresh n) = n) ->
  Forall hop_valid ops1 -> Forall hop_valid ops2 -> added ops1 <> added ops2 -> zlen (added ops1) < 2 ^ 61 -> zlen (added ops2) < 2 ^ 61 ->
  result_of (sha256_obj fresh) ops1 <> result_of (sha256_obj fresh) ops2 \/
  collision (sha2_compress p256) sha256_IV (chunks 64 (md_pad 64 8 to_be (added ops1))) (chunks 64 (md_pad 64 8 to_be (added ops2))).
Proof. intros fresh ops1 ops2 Hf V1 V2 N H1 H2. destruct (out_dec (result_of (sha256_obj fresh) ops1) (result_of (sha256_obj fresh) ops2)) as [E|E]; [right|left; exact E]. exact (sha256_collide fresh Hf ops1 ops2 V1 V2 N H1 H2 E). Qed.
Print Assumptions C96_sha256.
Theorem C96_sha384 : forall fresh ops1 ops2, (forall n, 0 <= n -> zlen (fresh n) = n) ->
  Forall hop_valid ops1 -> Forall hop_valid ops2 -> added ops1 <> added ops2 -> zlen (added ops1) < 2 ^ 125 -> zlen (added ops2) < 2 ^ 125 ->
  result_of (sha384_obj fresh) ops1 <> result_of (sha384_obj fresh) ops2 \/
  collision (sha2_compress p512) sha384_IV (chunks 128 (md_pad 128 16 to_be (added ops1))) (chunks 128 (md_pad 128 16 to_be (added ops2))) \/
  last_collision (sha2_compress p512) (fun s => firstn 48 (concat (map (to_be 8) s))) sha384_IV (chunks 128 (md_pad 128 16 to_be (added ops1))) (chunks 128 (md_pad 128 16 to_be (added ops2))).
Proof. intros fresh ops1 ops2 Hf V1 V2 N H1 H2. destruct (out_dec (result_of (sha384_obj fresh) ops1) (result_of (sha384_obj fresh) ops2)) as [E|E]; [right|left; exact E]. exact (sha384_collide fresh Hf ops1 ops2 V1 V2 N H1 H2 E). Qed.
Print Assumptions C96_sha384.
Theorem C96_sha512 : forall fresh ops1 ops2, (forall n, 0 <= n -> zlen (fresh n) = n) ->
  Forall hop_valid ops1 -> Forall hop_valid ops2 -> added ops1 <> added ops2 -> zlen (added ops1) < 2 ^ 125 -> zlen (added ops2) < 2 ^ 125 ->
  result_of (sha512_obj fresh) ops1 <> result_of (sha512_obj fresh) ops2 \/
  collision (sha2_compress p512) sha512_IV (chunks 128 (md_pad 128 16 to_be (added ops1))) (chunks 128 (md_pad 128 16 to_be (added ops2))).
Proof. intros fresh ops1 ops2 Hf V1 V2 N H1 H2. destruct (out_dec (result_of (sha512_obj fresh) ops1) (result_of (sha512_obj fresh) ops2)) as [E|E]; [right|left; exact E]. exact (sha512_collide fresh Hf ops1 ops2 V1 V2 N H1 H2 E). Qed.
Print Assumptions C96_sha512.
Theorem C96_ripemd160 : forall fresh ops1 ops2, (forall n, 0 <= n -> zlen (fresh n) = n) ->
  Forall hop_valid ops1 -> Forall hop_valid ops2 -> added ops1 <> added ops2 -> zlen (added ops1) < 2 ^ 61 -> zlen (added ops2) < 2 ^ 61 ->
  result_of (ripemd160_obj fresh) ops1 <> result_of (ripemd160_obj fresh) ops2 \/
  collision rmd160_compress [0x67452301; 0xEFCDAB89; 0x98BADCFE; 0x10325476; 0xC3D2E1F0] (chunks 64 (md_pad 64 8 to_le (added ops1))) (chunks 64 (md_pad 64 8 to_le (added ops2))).
Proof. intros fresh ops1 ops2 Hf V1 V2 N H1 H2. destruct (out_dec (result_of (ripemd160_obj fresh) ops1) (result_of (ripemd160_obj fresh) ops2)) as [E|E]; [right|left; exact E]. exact (ripemd160_collide fresh Hf ops1 ops2 V1 V2 N H1 H2 E). Qed.
Print Assumptions C96_ripemd160.
(* SHA-3 and Keccak: the padding does not give the length, so that a beginning of a message which leads back to the initial
   state is another possibility *)
Theorem C96_sha3 : forall fresh sz official o ops1 ops2, (forall n, 0 <= n -> zlen (fresh n) = n) -> sha3_new fresh sz official = Ret o ->
  Forall hop_valid ops1 -> Forall hop_valid ops2 -> added ops1 <> added ops2 ->
  let f := fun A blk => keccak_f (xor_block A blk) in
  let blocks m := chunks (200 - sz / 4) (sponge_input (1600 - 2 * sz) (if official then [false; true] else []) m) in
  let g := fun A => firstn (Z.to_nat (sz / 8)) (concat (map (to_le 8) A)) in
  let iv := repeat 0 25 in
  result_of o ops1 <> result_of o ops2 \/ collision f iv (blocks (added ops1)) (blocks (added ops2)) \/
  last_collision f g iv (blocks (added ops1)) (blocks (added ops2)) \/ returns f iv (blocks (added ops1)) (blocks (added ops2)).
Proof. intros fresh sz official o ops1 ops2 Hf Ho V1 V2 N. cbv zeta. destruct (out_dec (result_of o ops1) (result_of o ops2)) as [E|E]; [right|left; exact E]. exact (sha3_collide fresh sz official o ops1 ops2 Hf Ho V1 V2 N E). Qed.
Print Assumptions C96_sha3.
(* BLAKE2, keyed or not; sz in bits *)
Theorem C96_blake2b : forall fresh sz key o ops1 ops2, (forall n, 0 <= n -> zlen (fresh n) = n) -> bytes_ok key -> blake2b_obj fresh sz key = Ret o ->
  Forall hop_valid ops1 -> Forall hop_valid ops2 -> zlen (added ops1) < 2 ^ 128 - 128 -> zlen (added ops2) < 2 ^ 128 - 128 -> added ops1 <> added ops2 ->
  let g h := firstn (Z.to_nat (sz / 8)) (concat (map (to_le 8) h)) in
  let calls m := b2_calls blake2b_params key m in let iv := b2_init blake2b_params key (sz / 8) in
  result_of o ops1 <> result_of o ops2 \/ collision (b2_step blake2b_params) iv (calls (added ops1)) (calls (added ops2)) \/
  last_collision (b2_step blake2b_params) g iv (calls (added ops1)) (calls (added ops2)).
Proof. intros fresh sz key o ops1 ops2 Hf Hk Ho V1 V2 H1 H2 N. cbv zeta. destruct (out_dec (result_of o ops1) (result_of o ops2)) as [E|E]; [right|left; exact E]. exact (blake2b_collide fresh sz key o ops1 ops2 Hf Hk Ho V1 V2 H1 H2 N E). Qed.
Print Assumptions C96_blake2b.
Theorem C96_blake2s : forall fresh sz key o ops1 ops2, (forall n, 0 <= n -> zlen (fresh n) = n) -> bytes_ok key -> blake2s_obj fresh sz key = Ret o ->
  Forall hop_valid ops1 -> Forall hop_valid ops2 -> zlen (added ops1) < 2 ^ 64 - 64 -> zlen (added ops2) < 2 ^ 64 - 64 -> added ops1 <> added ops2 ->
  let g h := firstn (Z.to_nat (sz / 8)) (concat (map (to_le 4) h)) in
  let calls m := b2_calls blake2s_params key m in let iv := b2_init blake2s_params key (sz / 8) in
  result_of o ops1 <> result_of o ops2 \/ collision (b2_step blake2s_params) iv (calls (added ops1)) (calls (added ops2)) \/
  last_collision (b2_step blake2s_params) g iv (calls (added ops1)) (calls (added ops2)).
Proof. intros fresh sz key o ops1 ops2 Hf Hk Ho V1 V2 H1 H2 N. cbv zeta. destruct (out_dec (result_of o ops1) (result_of o ops2)) as [E|E]; [right|left; exact E]. exact (blake2s_collide fresh sz key o ops1 ops2 Hf Hk Ho V1 V2 H1 H2 N E). Qed.
Print Assumptions C96_blake2s.
(* BLAKE3: two different nodes of the two trees with the same chaining value *)
Theorem C96_blake3 : forall key sz o ops1 ops2, bytes_ok key -> blake3_obj key sz = Ret o ->
  Forall hop_valid ops1 -> Forall hop_valid ops2 -> zlen (added ops1) < 2 ^ 64 -> zlen (added ops2) < 2 ^ 64 -> added ops1 <> added ops2 ->
  result_of o ops1 <> result_of o ops2 \/ b3_collision (b3_all key (added ops1)) (b3_all key (added ops2)) \/
  b3_root_collision (Z.to_nat (sz / 8)) (b3_all key (added ops1)) (b3_all key (added ops2)).
Proof. intros key sz o ops1 ops2 Hk Ho V1 V2 H1 H2 N. destruct (out_dec (result_of o ops1) (result_of o ops2)) as [E|E]; [right|left; exact E]. exact (blake3_collide key sz o ops1 ops2 Hk Ho V1 V2 H1 H2 N E). Qed.
Print Assumptions C96_blake3.
(* two messages whose SHA-1 differ, and two messages with the same BLAKE3 digest of 8 bits *)
Example C96_case : match result_of (sha1_obj zeros) [HByte 98], result_of (sha1_obj zeros) [HString [98; 0]] with Ret x, Ret y => hd 0 x =? hd 0 y | _, _ => true end = false /\
  (olet o := blake3_obj [] 8 in result_of o [HByte 11]) = Ret [202] /\ (olet o := blake3_obj [] 8 in result_of o [HByte 20]) = Ret [202].
Proof. split; [|split]; vm_compute; reflexivity. Qed.

(* C97.  HMAC, with the same key or with keys of the same length, at most the block size B: two different pairs of key and message
   have different MACs, or computing them has found a collision of the hash function d. *)
Theorem C97_hmac : forall fresh o d B key1 key2 h1 h2 ops1 ops2, (forall n, 0 <= n -> zlen (fresh n) = n) -> hmac_hash fresh o d B ->
  bytes_ok key1 -> bytes_ok key2 -> zlen key1 <= max_string_length -> zlen key2 <= max_string_length -> hmac_of o B key1 = Ret h1 -> hmac_of o B key2 = Ret h2 ->
  Forall hop_valid ops1 -> Forall hop_valid ops2 -> (key1, added ops1) <> (key2, added ops2) -> key1 = key2 \/ (zlen key1 = zlen key2 /\ zlen key1 <= B) ->
  result_of h1 ops1 <> result_of h2 ops2 \/
  exists x y, x <> y /\ d x = d y /\
    ((x = hmac_inner d B key1 (added ops1) /\ y = hmac_inner d B key2 (added ops2)) \/ (x = hmac_outer d B key1 (added ops1) /\ y = hmac_outer d B key2 (added ops2))).
Proof.
  intros fresh o d B key1 key2 h1 h2 ops1 ops2 Hf HH K1 K2 L1 L2 E1 E2 V1 V2 N K. destruct (out_dec (result_of h1 ops1) (result_of h2 ops2)) as [E|E]; [right|left; exact E].
  exact (hmac_collide fresh o d B key1 key2 h1 h2 ops1 ops2 Hf HH K1 K2 L1 L2 E1 E2 V1 V2 N K E).
Qed.
Print Assumptions C97_hmac.
(* with keys of different lengths: a short key and the same key followed by a zero give the same MAC to every message *)
Theorem C97_keys_refuted : forall fresh o d B, (forall n, 0 <= n -> zlen (fresh n) = n) -> hmac_hash fresh o d B -> exists key1 key2, key1 <> key2 /\
  exists h1 h2, hmac_of o B key1 = Ret h1 /\ hmac_of o B key2 = Ret h2 /\ forall ops, Forall hop_valid ops -> result_of h1 ops = result_of h2 ops.
Proof.
  intros fresh o d B Hf HH. exists [107], [107; 0]. split; [discriminate|]. apply (hmac_same_keys fresh o d B Hf HH [107]); [repeat constructor; unfold byte_ok; lia|]. destruct HH; cbn; lia.
Qed.
Print Assumptions C97_keys_refuted.
Example C97_case : hmac_hash zeros (sha1_obj zeros) sha1 64 /\
  (olet h := hmac_of (sha1_obj zeros) 64 [107] in result_of h [HByte 1]) = (olet h := hmac_of (sha1_obj zeros) 64 [107; 0] in result_of h [HByte 1]) /\
  match (olet h := hmac_of (sha1_obj zeros) 64 [107] in result_of h [HByte 1]), (olet h := hmac_of (sha1_obj zeros) 64 [108] in result_of h [HByte 1]) with
  | Ret x, Ret y => hd 0 x =? hd 0 y | _, _ => true end = false.
Proof. split; [constructor|]. split; vm_compute; reflexivity. Qed.
