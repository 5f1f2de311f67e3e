(* C118: the method result called again. *)
From Verif Require Import Prelude BytesNum SpecBlock SpecHash SpecRipemd SpecKeccak SpecBlake2 SpecDes SpecMac SpecAgain SpecBlake2Again SpecSipAgain SpecMacAgain
  HashModel MdModel ShaModel RipemdModel KeccakModel Blake2Model Blake3Model HashSpec BlockModel CipherModel CipherSpec CipherApi DesModel DesApi MacModel SipModel MacApi HashLib Toy Again Blake2Again SipAgain MacAgain TripleAgain HmacAgain.

(* the full claim, that every call returns the same string, is false *)
Theorem C118_refuted : exists fresh o ops, (forall n, 0 <= n -> zlen (fresh n) = n) /\ o = sha1_obj fresh /\ Forall hop_valid ops /\
  results_from o ops 1 <> results_from o ops 0.
Proof. exact again_differs. Qed.
Print Assumptions C118_refuted.
(* it holds of BLAKE3, *)
Theorem C118_blake3 : forall key sz o ops k, blake3_obj key sz = Ret o -> results_from o ops k = results_from o ops 0.
Proof. exact b3_again. Qed.
Print Assumptions C118_blake3.
(* and of CBC-MAC without padding *)
Theorem C118_mac_no_padding : forall fresh : Z -> bytes, (forall n, 0 <= n -> zlen (fresh n) = n) ->
  forall nb key bs E D iv ops k, block_family nb key bs E D -> mac_iv_ok bs iv -> Forall hop_valid ops ->
  exists o, block_mac fresh (nb Encrypt) iv None key = Ret o /\ results_from o ops k = results_from o ops 0.
Proof. exact block_mac_same. Qed.
Print Assumptions C118_mac_no_padding.

(* what the (k+1)-th call returns: SHA-1, *)
Theorem C118_sha1 : forall fresh ops k, (forall n, 0 <= n -> zlen (fresh n) = n) -> Forall hop_valid ops ->
  results_from (sha1_obj fresh) ops k = Ret (concat (map (to_be 4) (md_results 64 8 to_be sha1_IV sha1_compress (added ops) k))).
Proof. exact sha1_again. Qed.
Print Assumptions C118_sha1.
(* SHA-2, *)
Theorem C118_sha2 : forall fresh, (forall n, 0 <= n -> zlen (fresh n) = n) -> forall ops k, Forall hop_valid ops ->
  let value P iv len := firstn len (concat (map (to_be (Z.to_nat (s2_w P / 8)))
    (md_results (2 * s2_w P) (s2_w P / 4) to_be iv (sha2_compress P) (added ops) k))) in
  results_from (sha224_obj fresh) ops k = Ret (value p256 sha224_IV 28%nat) /\
  results_from (sha256_obj fresh) ops k = Ret (value p256 sha256_IV 32%nat) /\
  results_from (sha384_obj fresh) ops k = Ret (value p512 sha384_IV 48%nat) /\
  results_from (sha512_obj fresh) ops k = Ret (value p512 sha512_IV 64%nat).
Proof. exact sha2_again. Qed.
Print Assumptions C118_sha2.
(* RIPEMD-160, *)
Theorem C118_ripemd160 : forall fresh ops k, (forall n, 0 <= n -> zlen (fresh n) = n) -> Forall hop_valid ops ->
  results_from (ripemd160_obj fresh) ops k = Ret (concat (map (to_le 4)
    (md_results 64 8 to_le [0x67452301; 0xEFCDAB89; 0x98BADCFE; 0x10325476; 0xC3D2E1F0] rmd160_compress (added ops) k))).
Proof. exact rmd_again. Qed.
Print Assumptions C118_ripemd160.
(* SHA-3 and Keccak: the digest of another message *)
Theorem C118_sha3 : forall fresh sz official o ops k, (forall n, 0 <= n -> zlen (fresh n) = n) -> sha3_new fresh sz official = Ret o -> Forall hop_valid ops ->
  let suffix := if official then [false; true] else [] in
  results_from o ops k = Ret (keccak_digest suffix sz (Nat.iter k (sponge_again (1600 - 2 * sz) suffix) (added ops))).
Proof. exact sha3_again. Qed.
Print Assumptions C118_sha3.
(* BLAKE2, with and without a key: the last block again, its bytes counted again *)
Theorem C118_blake2b : forall fresh sz key ops k, (forall n, 0 <= n -> zlen (fresh n) = n) -> 8 <= sz <= 512 -> sz mod 8 = 0 -> zlen key <= 64 -> bytes_ok key -> Forall hop_valid ops ->
  exists o, blake2b_obj fresh sz key = Ret o /\ results_from o ops k = Ret (blake2_results blake2b_params (sz / 8) key (added ops) k).
Proof. exact blake2b_again. Qed.
Print Assumptions C118_blake2b.
Theorem C118_blake2s : forall fresh sz key ops k, (forall n, 0 <= n -> zlen (fresh n) = n) -> 8 <= sz <= 256 -> sz mod 8 = 0 -> zlen key <= 32 -> bytes_ok key -> Forall hop_valid ops ->
  exists o, blake2s_obj fresh sz key = Ret o /\ results_from o ops k = Ret (blake2_results blake2s_params (sz / 8) key (added ops) k).
Proof. exact blake2s_again. Qed.
Print Assumptions C118_blake2s.
(* CBC-MAC and CMAC: the MAC of the empty message from the previous value *)
Theorem C118_mac : forall fresh nb key bs E D iv p ops k, (forall n, 0 <= n -> zlen (fresh n) = n) -> block_family nb key bs E D -> mac_iv_ok bs iv ->
  (forall q, p = Some q -> pad_supports q bs) -> Forall hop_valid ops ->
  exists o, block_mac fresh (nb Encrypt) iv (option_map scheme_of p) key = Ret o /\
    results_from o ops k = mac_out (mac_values E bs p (iv_val bs iv) (added ops) k).
Proof. exact block_mac_again. Qed.
Print Assumptions C118_mac.
Theorem C118_cmac : forall fresh nb key E D iv ops k, Forall hop_valid ops -> (forall n, 0 <= n -> zlen (fresh n) = n) ->
  block_family nb key 16 E D -> mac_iv_ok 16 iv ->
  exists o, aes_cmac fresh (nb Encrypt) iv key = Ret o /\ results_from o ops k = Ret (cmac_values E (iv_val 16 iv) (added ops) k).
Proof. exact aes_cmac_again. Qed.
Print Assumptions C118_cmac.

(* and the MAC with a final triple DES: the same, the two last operations on each value *)
Theorem C118_final_triple : forall fresh nb E D key iv p ops k, (forall n, 0 <= n -> zlen (fresh n) = n) ->
  (forall k, zlen k = 8 -> bytes_ok k -> block_family nb k 8 (E k) (D k)) ->
  bytes_ok key -> zlen key = 16 \/ zlen key = 24 -> mac_iv_ok 8 iv -> Forall hop_valid ops ->
  exists o, des_final_triple_des fresh nb iv (option_map scheme_of p) key = Ret o /\
    results_from o ops k = mac_out (option_map (fun t => E (key_part key (if zlen key =? 24 then 2 else 0)) (D (key_part key 1) t))
      (mac_values (E (key_part key 0)) 8 p (iv_val 8 iv) (added ops) k)).
Proof. exact des_final_again. Qed.
Print Assumptions C118_final_triple.
(* SipHash, of 64 and of 128 bits *)
Theorem C118_siphash : forall fresh (long : bool) key ops k, (forall n, 0 <= n -> zlen (fresh n) = n) -> zlen key = 16 -> bytes_ok key -> Forall hop_valid ops ->
  exists o, siphash_new fresh (if long then 128 else 64) key = Ret o /\ results_from o ops k = Ret (siphash_results long key (added ops) k).
Proof. exact siphash_again. Qed.
Print Assumptions C118_siphash.
(* HMAC: the inner hash is called again, and what it returns is hashed after the key; with the
   theorems above this gives the string *)
Theorem C118_hmac : forall fresh o d B key, (forall n, 0 <= n -> zlen (fresh n) = n) -> hmac_hash fresh o d B -> bytes_ok key -> zlen key <= max_string_length ->
  let ipad := xorb (hmac_key d B key) (repeat 0x36 (Z.to_nat B)) in
  let opad := xorb (hmac_key d B key) (repeat 0x5C (Z.to_nat B)) in
  exists h, hmac_of o B key = Ret h /\ forall ops k, Forall hop_valid ops ->
    exists r, results_from o (HSub ipad 0 B :: ops) k = Ret r /\ results_from h ops k = Ret (d (opad ++ r)).
Proof. exact hmac_again. Qed.
Print Assumptions C118_hmac.

(* what is hashed again after 3 and after 63 bytes: the padded message; the beginning of
   the last block, with a byte of the length, padded *)
Example C118_case_md : let a := md_pad 64 8 to_be [97; 98; 99] in let m := repeat 97 63 in
  md_again 64 8 to_be [97; 98; 99] = a /\
  md_again 64 8 to_be m = zeros 62 ++ [1; 128] ++ zeros 62 ++ [1; 248] /\ zlen (md_again 64 8 to_be m) = 128.
Proof. repeat split; vm_compute; reflexivity. Qed.
(* SHA-1 of the empty message twice: the compression function on the padded message again; a block MAC
   over the four-byte cipher, with and without padding; CMAC; SHA3-512 of 3 bytes *)
Example C118_case_hash : exists v w, map (results_from (sha1_obj toy_fresh) []) [0; 1]%nat = [Ret v; Ret w] /\ v <> w /\
  md_results 64 8 to_be sha1_IV sha1_compress [] 1 = sha1_compress (sha1_compress sha1_IV ([128] ++ zeros 63)) ([128] ++ zeros 63).
Proof. eexists _, _. split; [vm_compute; reflexivity|]. split; [discriminate|]. vm_compute. reflexivity. Qed.
Example C118_case_mac : let k := [17; 34; 51; 68] in
  block_family toy_block k 4 (toy_E k) (toy_D k) /\
  (olet o := block_mac toy_fresh (toy_block Encrypt) None (Some padding_length) k in results_from o [HString [1; 2; 3; 4; 5]] 1) =
    Ret (toy_E k (xorb [4; 4; 4; 4] (toy_E k (xorb [5; 3; 3; 3] (toy_E k [1; 2; 3; 4]))))) /\
  (olet o := block_mac toy_fresh (toy_block Encrypt) None None k in results_from o [HString [1; 2; 3; 4]] 7) = Ret (toy_E k [1; 2; 3; 4]).
Proof. split; [apply toy_family; [reflexivity|repeat constructor; lia]|]. repeat split; vm_compute; reflexivity. Qed.
Example C118_case_sha3 : zlen (sponge_again (1600 - 2 * 512) [false; true] (repeat 97 75)) = 144 + 3 /\
  skipn 144 (sponge_again (1600 - 2 * 512) [false; true] (repeat 97 75)) = [97; 97; 97] /\
  exists o, sha3_new toy_fresh 512 true = Ret o.
Proof. split; [vm_compute; reflexivity|]. split; [vm_compute; reflexivity|]. eexists. reflexivity. Qed.
(* HMAC-SHA1 under a one-byte key, twice *)
Example C118_case_hmac : hmac_hash toy_fresh (sha1_obj toy_fresh) sha1 64 /\
  exists v w, (olet h := hmac_of (sha1_obj toy_fresh) 64 [1] in results_from h [HString [2]] 0) = Ret v /\
    (olet h := hmac_of (sha1_obj toy_fresh) 64 [1] in results_from h [HString [2]] 1) = Ret w /\ v <> w.
Proof. split; [constructor|]. eexists _, _. split; [vm_compute; reflexivity|]. split; [vm_compute; reflexivity|]. discriminate. Qed.
(* BLAKE2s with a digest of 16 bits, twice *)
Example C118_case_blake2 : exists v w, (olet o := blake2s_obj toy_fresh 16 [] in results_from o [HString [97]] 0) = Ret v /\
  (olet o := blake2s_obj toy_fresh 16 [] in results_from o [HString [97]] 1) = Ret w /\ v <> w /\ v = blake2s_spec 2 [] [97].
Proof. eexists _, _. split; [vm_compute; reflexivity|]. split; [vm_compute; reflexivity|]. split; [discriminate|]. vm_compute. reflexivity. Qed.
(* SipHash of 9 bytes, twice, both lengths; the first value is SipHash *)
Example C118_case_siphash : let k := repeat 7 16 in let m := repeat 97 9 in forall long : bool, exists v w,
  (olet o := siphash_new toy_fresh (if long then 128 else 64) k in results_from o [HString m] 0) = Ret v /\
  (olet o := siphash_new toy_fresh (if long then 128 else 64) k in results_from o [HString m] 1) = Ret w /\ v <> w /\ v = (if long then siphash128 else siphash64) k m.
Proof. cbn zeta. intros [|]; eexists _, _; (split; [vm_compute; reflexivity|]); (split; [vm_compute; reflexivity|]); (split; [discriminate|vm_compute; reflexivity]). Qed.
(* DES: two calls after 9 bytes, under a key of two parts *)
Example C118_case_final : let key := map Z.of_nat (seq 1 16) in
  (forall k, zlen k = 8 -> bytes_ok k -> block_family new_des k 8 (des_E k) (des_D k)) /\
  exists v w, (olet o := des_final_triple_des toy_fresh new_des None (Some padding_length) key in results_from o [HString (repeat 97 9)] 0) = Ret v /\
    (olet o := des_final_triple_des toy_fresh new_des None (Some padding_length) key in results_from o [HString (repeat 97 9)] 1) = Ret w /\ v <> w.
Proof. split; [exact des_family|]. eexists _, _. split; [vm_compute; reflexivity|]. split; [vm_compute; reflexivity|]. discriminate. Qed.
