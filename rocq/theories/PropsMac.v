(* C07, C33, C34: hash and MAC objects; C36 - C39: MACs. *)
From Verif Require Import Prelude BytesNum SpecBlock SpecModes SpecPadding SpecHash SpecRipemd SpecMac HashModel HashSpec ShaModel RipemdModel Md5Model Md5 HashSize
  BlockModel CipherModel CipherSpec CipherApi MacModel Mac MacApi Hmac SipModel Sip HashLib Md5Size Toy.

(* [lib_hash fresh o]: o is one of the hash or MAC objects of the library,
   with any parameters its constructor accepts (all but MD5 and HMAC-MD5). *)

(* sched: how many bytes each read returns *)
Theorem C07_hash_channel : forall fresh : Z -> bytes, (forall n, 0 <= n -> zlen (fresh n) = n) ->
  forall o, lib_hash fresh o -> forall sched len ic, bytes_ok ic -> zlen ic <= max_string_length ->
  obj_hash_channel fresh sched o len ic =
    if (match len with None => true | Some l => l <=? zlen ic end)
    then obj_hash_string o (match len with None => ic | Some l => firstn (Z.to_nat l) ic end)
    else Raise End_of_file.
Proof. exact (fun fresh Hf o Ho => lib_hash_channel fresh o Hf Ho). Qed.
Print Assumptions C07_hash_channel.
(* reads of one byte; the SHA-1 of the first three bytes *)
Example C07_case : lib_hash zeros (sha1_obj zeros) /\
  obj_hash_channel zeros (fun _ => 1) (sha1_obj zeros) (Some 3) [97; 98; 99; 100] =
    Ret [169; 153; 62; 54; 71; 6; 129; 106; 186; 62; 37; 113; 120; 80; 194; 108; 156; 208; 216; 157] /\
  obj_hash_channel zeros (fun _ => 1) (sha1_obj zeros) (Some 5) [97; 98; 99; 100] = Raise End_of_file.
Proof. split; [apply L_sized, S_sha1|split; vm_compute; reflexivity]. Qed.

(* [sized_hash]: all but SHA-224, RIPEMD-160 and HMAC-RIPEMD-160 *)
Theorem C33_hash_size_partial : forall fresh : Z -> bytes, (forall n, 0 <= n -> zlen (fresh n) = n) ->
  forall o, sized_hash fresh o -> forall ops r, Forall hop_valid ops -> zlen (added ops) < 2 ^ 64 ->
  snd (h_result (ho_class o) (fst (h_run (ho_class o) (ho_st o) ops))) = Ret r -> zlen r = h_size (ho_class o).
Proof. exact (fun fresh Hf o Ho => sized_hash_size fresh o Hf Ho). Qed.
Print Assumptions C33_hash_size_partial.
(* SHA-224 returns 28 bytes for every message, and hash_size says 24;
   RIPEMD-160 returns 20, and hash_size says 32 *)
Theorem C33_hash_size_refuted : forall fresh : Z -> bytes, (forall n, 0 <= n -> zlen (fresh n) = n) ->
  exists o1 o2, lib_hash fresh o1 /\ lib_hash fresh o2 /\ h_size (ho_class o1) = 24 /\ h_size (ho_class o2) = 32 /\
  forall ops, Forall hop_valid ops -> exists r1 r2,
    snd (h_result (ho_class o1) (fst (h_run (ho_class o1) (ho_st o1) ops))) = Ret r1 /\ zlen r1 = 28 /\
    snd (h_result (ho_class o2) (fst (h_run (ho_class o2) (ho_st o2) ops))) = Ret r2 /\ zlen r2 = 20.
Proof. exact wrong_hash_sizes. Qed.
Print Assumptions C33_hash_size_refuted.
(* MD5 and HMAC-MD5, over a runtime whose MD5 gives 16 bytes *)
Theorem C33_md5_size : forall rt D key, runtime_computes rt D -> (forall m, zlen (D m) = 16 /\ bytes_ok (D m)) -> bytes_ok key -> zlen key < 2 ^ 32 ->
  exists h, hmac_of (md5_obj rt) 64 key = Ret h /\
  forall o, o = md5_obj rt \/ o = h -> forall ops r, Forall hop_valid ops -> 64 + zlen (added ops) < 2 ^ 32 ->
  snd (h_result (ho_class o) (fst (h_run (ho_class o) (ho_st o) ops))) = Ret r -> zlen r = h_size (ho_class o) /\ zlen r = 16.
Proof. exact md5_size. Qed.
Print Assumptions C33_md5_size.
Example C33_case : sized_hash zeros (sha256_obj zeros) /\ h_size (ho_class (sha256_obj zeros)) = 32.
Proof. split; [apply S_sha256|reflexivity]. Qed.

Theorem C34_chunking : forall fresh : Z -> bytes, (forall n, 0 <= n -> zlen (fresh n) = n) ->
  forall o, lib_hash fresh o -> forall ops1 ops2, Forall hop_valid ops1 -> Forall hop_valid ops2 ->
  added ops1 = added ops2 -> zlen (added ops1) < 2 ^ 64 ->
  snd (h_run (ho_class o) (ho_st o) ops1) = Ret tt /\
  snd (h_result (ho_class o) (fst (h_run (ho_class o) (ho_st o) ops1))) =
  snd (h_result (ho_class o) (fst (h_run (ho_class o) (ho_st o) ops2))).
Proof. exact (fun fresh Hf o Ho => lib_hash_chunking fresh o Hf Ho). Qed.
Print Assumptions C34_chunking.
(* MD5: one call adding 2^32 bytes, and two calls adding the same bytes *)
Theorem C34_md5_refuted : exists s1 s2, Forall hop_valid [HString (s1 ++ s2)] /\ Forall hop_valid [HString s1; HString s2] /\
  forall rt D, runtime_computes rt D ->
  let result ops := snd (h_result (md5_class rt) (fst (h_run (md5_class rt) (rt_init rt) ops))) in
  result [HString (s1 ++ s2)] = Ret (D []) /\ result [HString s1; HString s2] = Ret (D (s1 ++ s2)).
Proof. exact md5_chunking. Qed.
Print Assumptions C34_md5_refuted.
Example C34_case : lib_hash zeros (sha224_obj zeros) /\
  added [HString [97; 98]; HChar 99] = added [HSub [0; 97; 98; 99] 1 2; HByte 355] /\
  snd (h_result sha224_class (fst (h_run sha224_class (ho_st (sha224_obj zeros)) [HString [97; 98]; HChar 99]))) =
  snd (h_result sha224_class (fst (h_run sha224_class (ho_st (sha224_obj zeros)) [HSub [0; 97; 98; 99] 1 2; HByte 355]))).
Proof. split; [apply L_sha224|]. split; [reflexivity|vm_compute; reflexivity]. Qed.

(* [hmac_hash fresh o d B]: the hash functions given to HMAC: their object,
   the function, the block size *)
Theorem C36_hmac : forall fresh : Z -> bytes, (forall n, 0 <= n -> zlen (fresh n) = n) ->
  forall o d B key, hmac_hash fresh o d B -> bytes_ok key -> zlen key <= max_string_length ->
  exists h, hmac_of o B key = Ret h /\ h_size (ho_class h) = h_size (ho_class o) /\ computes h (hmac_spec d B key).
Proof. exact (fun fresh Hf o d B key => hmac_ok fresh o d B key Hf). Qed.
Print Assumptions C36_hmac.
(* HMAC-MD5, for less than 2^32 bytes *)
Theorem C36_hmac_md5_partial : forall rt D key, runtime_computes rt D -> (forall m, zlen (D m) = 16 /\ bytes_ok (D m)) ->
  bytes_ok key -> zlen key < 2 ^ 32 ->
  exists h, hmac_of (md5_obj rt) 64 key = Ret h /\
    computes_on (fun m => 64 + zlen m < 2 ^ 32) h (fun m => Ret (hmac_spec D 64 key m)).
Proof. exact hmac_md5_ok. Qed.
Print Assumptions C36_hmac_md5_partial.
Example C36_case : hmac_hash zeros (sha256_obj zeros) sha256 64 /\
  (olet h := hmac_of (sha256_obj zeros) 64 [107; 101; 121] in obj_hash_string h [97; 98; 99]) =
    Ret [156; 25; 110; 50; 220; 1; 117; 248; 111; 75; 28; 184; 146; 137; 214; 97; 157; 230; 190; 230; 153; 228; 195; 120; 230; 131; 9; 237; 151; 161; 166; 171].
Proof. split; [constructor|vm_compute; reflexivity]. Qed.

(* [block_family nb key bs E D]: nb makes block cipher objects of block size bs
   that compute E (encryption) and its inverse D with this key *)
Theorem C37_cmac : forall fresh : Z -> bytes, (forall n, 0 <= n -> zlen (fresh n) = n) ->
  forall nb key E D iv, block_family nb key 16 E D -> mac_iv_ok 16 iv ->
  exists o, aes_cmac fresh (nb Encrypt) iv key = Ret o /\ h_size (ho_class o) = 16 /\
    computes o (cmac_spec E (iv_val 16 iv)).
Proof. exact (fun fresh Hf nb key E D iv => aes_cmac_ok fresh nb key E D iv Hf). Qed.
Print Assumptions C37_cmac.
Example C37_case : let key := map Z.of_nat (seq 100 16) in
  block_family (toy_block_n 16) key 16 (toy_E key) (toy_D key) /\
  (olet o := aes_cmac toy_fresh (toy_block_n 16 Encrypt) None key in obj_hash_string o [1; 2; 3]) =
    Ret (toy_E key (xorb ([1; 2; 3; 128] ++ zeros 12) (to_be 16 (Z.lxor (4 * be key) 0x87)))).
Proof. split; [apply toy_family_n; [lia|reflexivity|apply Forall_forall; intros x Hx; apply in_map_iff in Hx as (n & <- & Hn); apply in_seq in Hn; unfold byte_ok; lia]|vm_compute; reflexivity]. Qed.

(* [mac_message bs p m]: the blocks of the message, padded if a padding is
   given, None if incomplete; [mac_out None] raises Wrong_data_length *)
Theorem C38_block_mac : forall fresh : Z -> bytes, (forall n, 0 <= n -> zlen (fresh n) = n) ->
  forall nb key bs E D iv p, block_family nb key bs E D -> mac_iv_ok bs iv ->
  (forall q, p = Some q -> pad_supports q bs) ->
  exists o, block_mac fresh (nb Encrypt) iv (option_map scheme_of p) key = Ret o /\ h_size (ho_class o) = bs /\
    computes_on (fun _ => True) o (fun m => mac_out (option_map (cbc_mac E (iv_val bs iv)) (mac_message bs p m))).
Proof. exact (fun fresh Hf nb key bs E D iv p => block_mac_ok fresh nb key bs E D iv p Hf). Qed.
Print Assumptions C38_block_mac.
(* cbc_mac is the last block of the CBC encryption *)
Theorem C38_last_block : forall E iv X Y, cbc_enc_spec E iv X Y -> cbc_mac E iv X = last Y iv.
Proof. exact cbc_mac_last. Qed.
Print Assumptions C38_last_block.
Theorem C38_wrong_iv : forall fresh nb key bs E D iv p, block_family nb key bs E D ->
  (exists v, iv = Some v /\ zlen v <> bs) -> block_mac fresh (nb Encrypt) iv p key = Raise (Error Wrong_IV_size).
Proof. exact block_mac_bad_iv. Qed.
Print Assumptions C38_wrong_iv.
(* the key of des_final_triple_des is two or three DES keys *)
Theorem C38_final_triple : forall fresh : Z -> bytes, (forall n, 0 <= n -> zlen (fresh n) = n) ->
  forall nb E D key iv p, (forall k, zlen k = 8 -> bytes_ok k -> block_family nb k 8 (E k) (D k)) ->
  bytes_ok key -> zlen key = 16 \/ zlen key = 24 -> mac_iv_ok 8 iv ->
  exists o, des_final_triple_des fresh nb iv (option_map scheme_of p) key = Ret o /\ h_size (ho_class o) = 8 /\
    computes_on (fun _ => True) o (fun m => mac_out (option_map
      (fun X => E (key_part key (if zlen key =? 24 then 2 else 0))
                  (D (key_part key 1) (cbc_mac (E (key_part key 0)) (iv_val 8 iv) X))) (mac_message 8 p m))).
Proof. exact (fun fresh Hf nb E D key iv p => des_final_ok fresh nb E D key iv p Hf). Qed.
Print Assumptions C38_final_triple.
Theorem C38_final_triple_key : forall fresh nb iv p key, zlen key <> 16 -> zlen key <> 24 ->
  des_final_triple_des fresh nb iv p key = Raise (Error Wrong_key_size).
Proof. exact des_final_key. Qed.
Print Assumptions C38_final_triple_key.
Example C38_case : let k := [17; 34; 51; 68] in
  block_family toy_block k 4 (toy_E k) (toy_D k) /\
  (olet o := block_mac toy_fresh (toy_block Encrypt) None (Some padding_length) k in obj_hash_string o [1; 2; 3; 4; 5]) =
    Ret (toy_E k (xorb [5; 3; 3; 3] (toy_E k [1; 2; 3; 4]))) /\
  (olet o := block_mac toy_fresh (toy_block Encrypt) None None k in obj_hash_string o [1; 2; 3; 4; 5]) = Raise (Error Wrong_data_length) /\
  mac_message 4 (Some PLength) [1; 2; 3; 4; 5] = Some [[1; 2; 3; 4]; [5; 3; 3; 3]].
Proof. split; [apply toy_family; [reflexivity|repeat constructor; lia]|]. repeat split; vm_compute; reflexivity. Qed.

(* sz: 64 or 128 bits *)
Theorem C39_siphash : forall fresh : Z -> bytes, (forall n, 0 <= n -> zlen (fresh n) = n) ->
  forall sz key, zlen key = 16 -> bytes_ok key -> sz = 64 \/ sz = 128 ->
  exists o, siphash_new fresh sz key = Ret o /\ h_size (ho_class o) = sz / 8 /\
    computes o (if sz =? 64 then siphash64 key else siphash128 key).
Proof. exact (fun fresh Hf sz key => siphash_ok fresh sz key Hf). Qed.
Print Assumptions C39_siphash.
Theorem C39_other_parameters : forall fresh sz key, ~ (zlen key = 16 /\ (sz = 64 \/ sz = 128)) ->
  siphash_new fresh sz key = Raise (Error Wrong_key_size).
Proof. exact siphash_other. Qed.
Print Assumptions C39_other_parameters.
(* test vector of the SipHash paper: key 00..0f, message 00..0e *)
Example C39_case :
  (olet o := siphash_new zeros 64 (map Z.of_nat (seq 0 16)) in obj_hash_string o (map Z.of_nat (seq 0 15))) =
    Ret (to_le 8 0xa129ca6149be45e5) /\
  (olet o := siphash_new zeros 128 (map Z.of_nat (seq 0 16)) in obj_hash_string o []) =
    Ret [163; 129; 127; 4; 186; 37; 168; 230; 109; 246; 114; 20; 199; 85; 2; 147].
Proof. split; vm_compute; reflexivity. Qed.
