(* C120: data added after result. *)
From Verif Require Import Prelude BytesNum SpecBlock SpecHash SpecKeccak SpecBlake3 SpecMac SpecAgain SpecMacAgain SpecSession
  HashModel MdModel ShaModel KeccakModel Blake3Model HashSpec BlockModel CipherModel CipherSpec CipherApi MacModel MacApi Toy Session SpecRipemd RipemdModel SessionMd HashLib SessionHmac SpecDes DesModel DesApi SessionTriple SpecSipAgain SpecSipSession SipModel SessionSip SpecBlake2 SpecBlake2Session Blake2Model SessionBlake2.

(* the full claim, that every result is the digest of everything given so far, is false *)
Theorem C120_refuted : exists fresh o l, (forall n, 0 <= n -> zlen (fresh n) = n) /\ o = sha1_obj fresh /\ Forall (Forall hop_valid) l /\
  session_of o l <> map Ret (digests sha1 [] (map added l)).
Proof. exact session_differs. Qed.
Print Assumptions C120_refuted.
(* it holds of BLAKE3 *)
Theorem C120_blake3 : forall key sz o l, blake3_obj key sz = Ret o -> bytes_ok key -> Forall (Forall hop_valid) l -> zlen (concat (map added l)) < 2 ^ 64 ->
  session_of o l = map Ret (digests (blake3_spec key (sz / 8)) [] (map added l)).
Proof. exact b3_session. Qed.
Print Assumptions C120_blake3.
(* SHA-3 and Keccak: the digest of what was given since, after the padded data and its last bytes *)
Theorem C120_sha3 : forall fresh sz official o l, (forall n, 0 <= n -> zlen (fresh n) = n) -> sha3_new fresh sz official = Ret o -> Forall (Forall hop_valid) l ->
  let suffix := if official then [false; true] else [] in
  session_of o l = map Ret (sponge_digests (keccak_digest suffix sz) (sponge_again (1600 - 2 * sz) suffix) [] (map added l)).
Proof. exact sha3_session. Qed.
Print Assumptions C120_sha3.
(* CBC-MAC and CMAC: the MAC of what was given since, with the previous value as IV *)
Theorem C120_mac : forall fresh nb key bs E D iv p l, (forall n, 0 <= n -> zlen (fresh n) = n) -> block_family nb key bs E D -> mac_iv_ok bs iv ->
  (forall q, p = Some q -> pad_supports q bs) -> Forall (Forall hop_valid) l ->
  exists o, block_mac fresh (nb Encrypt) iv (option_map scheme_of p) key = Ret o /\ session_of o l = mac_session E bs p (iv_val bs iv) [] (map added l).
Proof. exact block_mac_session. Qed.
Print Assumptions C120_mac.
Theorem C120_cmac : forall fresh nb key E D iv l, Forall (Forall hop_valid) l -> (forall n, 0 <= n -> zlen (fresh n) = n) -> block_family nb key 16 E D -> mac_iv_ok 16 iv ->
  exists o, aes_cmac fresh (nb Encrypt) iv key = Ret o /\ session_of o l = map Ret (cmac_session E (iv_val 16 iv) (map added l)).
Proof. exact aes_cmac_session. Qed.
Print Assumptions C120_cmac.
(* SHA-1: what was given since, after the data padded as at the last result and the first bytes of
   the last padded block, closed by the count of all the data given *)
Theorem C120_sha1 : forall fresh l, (forall n, 0 <= n -> zlen (fresh n) = n) -> Forall (Forall hop_valid) l ->
  session_of (sha1_obj fresh) l = map (fun st => Ret (concat (map (to_be 4) st))) (md_session 64 8 to_be sha1_IV sha1_compress [] [] (map added l)).
Proof. exact sha1_session. Qed.
Print Assumptions C120_sha1.
(* the same for SHA-2 *)
Theorem C120_sha2 : forall fresh l, (forall n, 0 <= n -> zlen (fresh n) = n) -> Forall (Forall hop_valid) l ->
  let values P iv len := map (fun st => Ret (firstn len (concat (map (to_be (Z.to_nat (s2_w P / 8))) st))))
    (md_session (2 * s2_w P) (s2_w P / 4) to_be iv (sha2_compress P) [] [] (map added l)) in
  session_of (sha224_obj fresh) l = values p256 sha224_IV 28%nat /\
  session_of (sha256_obj fresh) l = values p256 sha256_IV 32%nat /\
  session_of (sha384_obj fresh) l = values p512 sha384_IV 48%nat /\
  session_of (sha512_obj fresh) l = values p512 sha512_IV 64%nat.
Proof. exact sha2_session. Qed.
Print Assumptions C120_sha2.
(* and RIPEMD-160 *)
Theorem C120_ripemd160 : forall fresh l, (forall n, 0 <= n -> zlen (fresh n) = n) -> Forall (Forall hop_valid) l ->
  session_of (ripemd160_obj fresh) l = map (fun st => Ret (concat (map (to_le 4) st)))
    (md_session 64 8 to_le [0x67452301; 0xEFCDAB89; 0x98BADCFE; 0x10325476; 0xC3D2E1F0] rmd160_compress [] [] (map added l)).
Proof. exact rmd_session. Qed.
Print Assumptions C120_ripemd160.
(* HMAC: the outer hash of what an object for the hash returns in the same way *)
Theorem C120_hmac : forall fresh o d B key, (forall n, 0 <= n -> zlen (fresh n) = n) -> hmac_hash fresh o d B -> bytes_ok key -> zlen key <= max_string_length ->
  let ipad := xorb (hmac_key d B key) (repeat 0x36 (Z.to_nat B)) in
  let opad := xorb (hmac_key d B key) (repeat 0x5C (Z.to_nat B)) in
  exists h, hmac_of o B key = Ret h /\ forall ops l, Forall (Forall hop_valid) (ops :: l) ->
    exists rs, session_of o ((HSub ipad 0 B :: ops) :: l) = map Ret rs /\ session_of h (ops :: l) = map (fun r => Ret (d (opad ++ r))) rs.
Proof. exact hmac_session. Qed.
Print Assumptions C120_hmac.
(* the MAC with a final triple DES: the CBC-MAC goes on from its own value *)
Theorem C120_final_triple : forall fresh nb E D key iv p l, (forall n, 0 <= n -> zlen (fresh n) = n) ->
  (forall k, zlen k = 8 -> bytes_ok k -> block_family nb k 8 (E k) (D k)) ->
  bytes_ok key -> zlen key = 16 \/ zlen key = 24 -> mac_iv_ok 8 iv -> Forall (Forall hop_valid) l ->
  exists o, des_final_triple_des fresh nb iv (option_map scheme_of p) key = Ret o /\
    session_of o l = map (fun r => olet t := r in Ret (E (key_part key (if zlen key =? 24 then 2 else 0)) (D (key_part key 1) t)))
      (mac_session (E (key_part key 0)) 8 p (iv_val 8 iv) [] (map added l)).
Proof. exact des_final_session. Qed.
Print Assumptions C120_final_triple.
(* SipHash: it goes on from the final state with the bytes after the last whole word *)
Theorem C120_siphash : forall fresh (long : bool) key l, (forall n, 0 <= n -> zlen (fresh n) = n) -> zlen key = 16 -> bytes_ok key -> Forall (Forall hop_valid) l ->
  exists o, siphash_new fresh (if long then 128 else 64) key = Ret o /\ session_of o l = map Ret (siphash_session long key (map added l)).
Proof. exact siphash_session_ok. Qed.
Print Assumptions C120_siphash.
(* BLAKE2, with and without key: the last block stays and is compressed once more *)
Theorem C120_blake2b : forall fresh sz key l, (forall n, 0 <= n -> zlen (fresh n) = n) -> 8 <= sz <= 512 -> sz mod 8 = 0 -> zlen key <= 64 -> bytes_ok key -> Forall (Forall hop_valid) l ->
  exists o, blake2b_obj fresh sz key = Ret o /\ session_of o l = map Ret (blake2_session blake2b_params (sz / 8) key (map added l)).
Proof. exact blake2b_session. Qed.
Print Assumptions C120_blake2b.
Theorem C120_blake2s : forall fresh sz key l, (forall n, 0 <= n -> zlen (fresh n) = n) -> 8 <= sz <= 256 -> sz mod 8 = 0 -> zlen key <= 32 -> bytes_ok key -> Forall (Forall hop_valid) l ->
  exists o, blake2s_obj fresh sz key = Ret o /\ session_of o l = map Ret (blake2_session blake2s_params (sz / 8) key (map added l)).
Proof. exact blake2s_session. Qed.
Print Assumptions C120_blake2s.

(* a MAC without padding over the four-byte cipher: three bytes are refused, the fourth completes the
   block, and four more bytes are a MAC with the value as IV *)
Example C120_case_mac : let k := [17; 34; 51; 68] in
  block_family toy_block k 4 (toy_E k) (toy_D k) /\
  (olet o := block_mac toy_fresh (toy_block Encrypt) None None k in Ret (session_of o [[HString [1; 2; 3]]; [HChar 4]; [HString [5; 6; 7; 8]]])) =
    Ret [Raise (Error Wrong_data_length); Ret (toy_E k [1; 2; 3; 4]); Ret (toy_E k (xorb (toy_E k [1; 2; 3; 4]) [5; 6; 7; 8]))].
Proof. split; [apply toy_family; [reflexivity|repeat constructor; lia]|]. vm_compute. reflexivity. Qed.
Example C120_case_sha3 : exists o, sha3_new toy_fresh 512 true = Ret o /\ zlen (sponge_again (1600 - 2 * 512) [false; true] [97]) = 73.
Proof. eexists. split; [reflexivity|]. vm_compute. reflexivity. Qed.
(* BLAKE3 with results of 16 bits *)
Example C120_case_blake3 : exists o, blake3_obj [] 16 = Ret o /\ session_of o [[HChar 97]; []; [HString [98; 99]]] =
  [Ret (blake3_spec [] 2 [97]); Ret (blake3_spec [] 2 [97]); Ret (blake3_spec [] 2 [97; 98; 99])].
Proof. eexists. split; [reflexivity|]. vm_compute. reflexivity. Qed.
(* SHA-1 of one byte, then of a second: the second result compresses the padded first byte, then that
   byte and the new one padded, with a count of two bytes; the first result is the digest *)
Example C120_case_sha1 : md_next 64 8 to_be [97] [97] = md_pad 64 8 to_be [97] ++ [97] /\
  session_of (sha1_obj toy_fresh) [[HChar 97]; [HString [98]]] =
    [Ret (sha1 [97]);
     Ret (concat (map (to_be 4) (fold_left sha1_compress [md_pad 64 8 to_be [97]; [97; 98; 128] ++ zeros 53 ++ to_be 8 16] sha1_IV)))].
Proof. split; vm_compute; reflexivity. Qed.
(* HMAC-SHA-1 of one byte, then of a second: the second result is not the MAC of both *)
Example C120_case_hmac : hmac_hash toy_fresh (sha1_obj toy_fresh) sha1 64 /\
  exists v w x, (olet h := hmac_of (sha1_obj toy_fresh) 64 [1] in Ret (session_of h [[HChar 2]; [HChar 3]])) = Ret [Ret v; Ret w] /\
    (olet h := hmac_of (sha1_obj toy_fresh) 64 [1] in Ret (session_of h [[HChar 2; HChar 3]])) = Ret [Ret x] /\ w <> x.
Proof. split; [constructor|]. eexists _, _, _. split; [vm_compute; reflexivity|]. split; [vm_compute; reflexivity|]. discriminate. Qed.
(* without padding: seven bytes are refused, then the eighth completes the block *)
Example C120_case_final : let key := map Z.of_nat (seq 1 16) in
  (forall k, zlen k = 8 -> bytes_ok k -> block_family new_des k 8 (des_E k) (des_D k)) /\
  exists v, (olet o := des_final_triple_des toy_fresh new_des None None key in Ret (session_of o [[HString (repeat 97 7)]; [HChar 97]])) =
    Ret [Raise (Error Wrong_data_length); Ret v].
Proof. split; [exact des_family|]. eexists _. vm_compute. reflexivity. Qed.
(* SipHash of three bytes, then of six more: the first result is the MAC, the second starts from the
   state of the first and the three bytes again *)
Example C120_case_siphash : let key := map Z.of_nat (seq 0 16) in
  exists v w, siphash_session false key [[1; 2; 3]; [4; 5; 6; 7; 8; 9]] = [v; w] /\ v = siphash64 key [1; 2; 3] /\
    w = snd (sip_end false (fold_left sip_compress [le [1; 2; 3; 4; 5; 6; 7; 8]; le [9; 0; 0; 0; 0; 0; 0; 9]]
      (fst (sip_end false (sip_compress (sip_init key) (le [1; 2; 3; 0; 0; 0; 0; 3])))))).
Proof. eexists _, _. split; [vm_compute; reflexivity|]. split; vm_compute; reflexivity. Qed.
(* BLAKE2s with results of 16 bits: the first is the digest, the second not the digest of both bytes *)
Example C120_case_blake2 : exists v w, (olet o := blake2s_obj toy_fresh 16 [] in Ret (session_of o [[HChar 97]; [HChar 98]])) = Ret [Ret v; Ret w] /\
  v = blake2s_spec 2 [] [97] /\ w <> blake2s_spec 2 [] [97; 98] /\ [v; w] = blake2_session blake2s_params 2 [] [[97]; [98]].
Proof. eexists _, _. split; [vm_compute; reflexivity|]. split; [vm_compute; reflexivity|]. split; [vm_compute; discriminate|vm_compute; reflexivity]. Qed.
