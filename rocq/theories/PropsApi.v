(* Invalid ranges, random numbers, HMAC keys, derive_key, no entropy: C75-C79. *)
From Verif Require Import Prelude SpecBlock SpecModes SpecPadding SpecMac HashModel HashSpec MdModel ShaModel BlockModel CipherModel CipherSpec CipherApi MacModel MacApi HashLib Ranges
  SpecHash SpecPk SpecRandom RngModel BnModel PkModel RandomFacts DeriveFacts Toy.

(* C75.  Hashes, HMAC, BLAKE2, BLAKE3 and SipHash, in any state *)
Theorem C75_hash : forall fresh o, checked_hash fresh o -> forall s src ofs len, ofs < 0 \/ len < 0 \/ ofs + len > zlen src ->
  h_add_substring (ho_class o) s src ofs len = (s, Raise Invalid_argument).
Proof. exact checked_ranges. Qed.
Print Assumptions C75_hash.
Example C75_hash_case : checked_hash toy_fresh (sha256_obj toy_fresh) /\
  snd (h_add_substring (ho_class (sha256_obj toy_fresh)) (ho_st (sha256_obj toy_fresh)) [1; 2; 3] 2 2) = Raise Invalid_argument /\
  snd (h_add_substring (ho_class (sha256_obj toy_fresh)) (ho_st (sha256_obj toy_fresh)) [1; 2; 3] 1 2) = Ret tt.
Proof. split; [apply (R_sha2 _ 256); reflexivity|]. split; vm_compute; reflexivity. Qed.

(* CBC-MACs with any block cipher, after any valid calls: a range of positive length is refused *)
Theorem C75_block_mac_partial : forall fresh nb key bs E D iv p, (forall n, 0 <= n -> zlen (fresh n) = n) -> block_family nb key bs E D -> mac_iv_ok bs iv ->
  (forall q, p = Some q -> pad_supports q bs) ->
  exists o, block_mac fresh (nb Encrypt) iv (option_map scheme_of p) key = Ret o /\
  forall ops src ofs len, Forall hop_valid ops -> bytes_ok src -> zlen src <= max_string_length -> is_int ofs -> is_int len -> 0 < len ->
    ofs < 0 \/ ofs + len > zlen src ->
    snd (h_add_substring (ho_class o) (fst (h_run (ho_class o) (ho_st o) ops)) src ofs len) = Raise Invalid_argument.
Proof. exact block_mac_ranges. Qed.
Print Assumptions C75_block_mac_partial.
(* but a negative length or an offset out of the string with length 0 is not *)
Theorem C75_block_mac_refuted : exists key o src ofs len, block_mac toy_fresh (toy_block Encrypt) None None key = Ret o /\ len < 0 /\ ofs > zlen src /\
  h_add_substring (ho_class o) (ho_st o) src ofs len = (ho_st o, Ret tt).
Proof. exact mac_negative. Qed.
Print Assumptions C75_block_mac_refuted.
(* and the exception is raised after some of the blocks were hashed: the MAC computed afterwards is another one *)
Theorem C75_block_mac_state_refuted : exists key o src ofs len, block_mac toy_fresh (toy_block Encrypt) None None key = Ret o /\ 0 <= ofs /\ 0 < len /\ ofs + len > zlen src /\
  exists s, h_add_substring (ho_class o) (ho_st o) src ofs len = (s, Raise Invalid_argument) /\
  snd (hash_string (ho_class o) s [1; 2; 3; 4]) <> snd (hash_string (ho_class o) (ho_st o) [1; 2; 3; 4]).
Proof. exact mac_state_changed. Qed.
Print Assumptions C75_block_mac_state_refuted.

(* C76.  [draw odd nb r]: the number of nb bits made of the random bytes r (SpecRandom.v).  The generator is asked once, for the
   bytes that hold nb bits *)
Theorem C76_value : forall fresh R s odd nb, fresh_ok fresh -> rng_bytes R -> rng_total R -> 1 <= nb -> (nb + 7) / 8 <= max_string_length ->
  exists s' r, rng_string fresh R s ((nb + 7) / 8) = (s', Ret r) /\ zlen r = (nb + 7) / 8 /\ bn_random fresh R s odd nb = (s', Ret (draw odd nb r)).
Proof. exact bn_random_draw. Qed.
Print Assumptions C76_value.
(* all the numbers of nb bits come from equally many strings: uniform bytes give a uniform number *)
Theorem C76_uniform : forall nb n, 1 <= nb -> 2 ^ (nb - 1) <= n < 2 ^ nb ->
  zlen (filter (fun r => draw false nb r =? n) (strings (Z.to_nat ((nb + 7) / 8)))) = 2 ^ (8 * ((nb + 7) / 8) - (nb - 1)).
Proof. exact draw_uniform. Qed.
Print Assumptions C76_uniform.
Theorem C76_uniform_odd : forall nb n, 2 <= nb -> 2 ^ (nb - 1) <= n < 2 ^ nb -> Z.odd n = true ->
  zlen (filter (fun r => draw true nb r =? n) (strings (Z.to_nat ((nb + 7) / 8)))) = 2 ^ (8 * ((nb + 7) / 8) - (nb - 2)).
Proof. exact draw_uniform_odd. Qed.
Print Assumptions C76_uniform_odd.
(* so for Diffie-Hellman private secrets *)
Theorem C76_private_secret : forall fresh R s pr, fresh_ok fresh -> rng_bytes R -> rng_total R -> 1 <= dh_privlen pr -> (dh_privlen pr + 7) / 8 <= max_string_length ->
  exists s' r, rng_string fresh R s ((dh_privlen pr + 7) / 8) = (s', Ret r) /\ zlen r = (dh_privlen pr + 7) / 8 /\
    dh_private_secret fresh R s pr = (s', Ret (draw false (dh_privlen pr) r)).
Proof. exact (fun fresh R s pr => bn_random_draw fresh R s false (dh_privlen pr)). Qed.
Print Assumptions C76_private_secret.
Example C76_case : strings 1 = map (fun b => [b]) (map Z.of_nat (seq 0 256)) /\ zlen (strings 2) = 65536 /\ In [7; 255] (strings 2) /\
  draw false 11 [7; 255] = 0x707 /\ draw true 11 [6; 255] = 0x707 /\ draw false 11 [6; 0] = 0x406.
Proof.
  split; [vm_compute; reflexivity|]. split; [rewrite strings_len; reflexivity|]. split; [|vm_compute; auto].
  cbn [strings]. apply in_concat. eexists. split; [apply in_map_iff; exists 7; split; [reflexivity|apply in_map_iff; exists 7%nat; split; [reflexivity|apply in_seq; lia]]|].
  apply in_map. apply in_concat. eexists. split; [apply in_map_iff; exists 255; split; [reflexivity|apply in_map_iff; exists 255%nat; split; [reflexivity|apply in_seq; lia]]|]. left. reflexivity.
Qed.

(* C77.  HMAC: a key and the same key with zero bytes added, up to the block size of the hash; a key longer than the block and its hash *)
Theorem C77_zeros : forall fresh o d B key n, (forall n, 0 <= n -> zlen (fresh n) = n) -> hmac_hash fresh o d B -> bytes_ok key -> zlen key + Z.of_nat n <= B ->
  exists h h' D, hmac_of o B key = Ret h /\ hmac_of o B (key ++ repeat 0 n) = Ret h' /\ computes h D /\ computes h' D.
Proof. exact hmac_zero_keys. Qed.
Print Assumptions C77_zeros.
Theorem C77_long : forall fresh o d B key, (forall n, 0 <= n -> zlen (fresh n) = n) -> hmac_hash fresh o d B -> bytes_ok key -> B < zlen key <= max_string_length ->
  exists h h' D, hmac_of o B key = Ret h /\ hmac_of o B (d key) = Ret h' /\ computes h D /\ computes h' D.
Proof. exact hmac_long_keys. Qed.
Print Assumptions C77_long.
Example C77_case : hmac_hash toy_fresh (sha256_obj toy_fresh) sha256 64 /\
  match hmac_of (sha256_obj toy_fresh) 64 [1; 2], hmac_of (sha256_obj toy_fresh) 64 [1; 2; 0] with
  | Ret h, Ret h' => obj_hash_string h [7] = obj_hash_string h' [7]
  | _, _ => False end.
Proof. split; [constructor|vm_compute; reflexivity]. Qed.

(* C78.  derive_key *)
Theorem C78_prefix : forall (fresh : Z -> bytes) dv secret n m k, (forall n, 0 <= n -> zlen (fresh n) = n) -> bytes_ok dv -> bytes_ok secret -> zlen dv + zlen secret + 20 <= max_string_length ->
  0 <= n <= m -> m <= max_string_length -> dh_derive_key fresh dv secret m = Ret k -> dh_derive_key fresh dv secret n = Ret (firstn (Z.to_nat n) k).
Proof. exact derive_prefix. Qed.
Print Assumptions C78_prefix.
(* keys made with different diversification strings may be the same, for another shared secret *)
Theorem C78_boundary : forall (fresh : Z -> bytes) dv secret dv' secret' nb, (forall n, 0 <= n -> zlen (fresh n) = n) -> bytes_ok dv -> bytes_ok secret -> bytes_ok dv' -> bytes_ok secret' ->
  zlen dv + zlen secret + 20 <= max_string_length -> 0 <= nb <= max_string_length -> dv ++ secret = dv' ++ secret' ->
  dh_derive_key fresh dv secret nb = dh_derive_key fresh dv' secret' nb.
Proof. exact derive_split. Qed.
Print Assumptions C78_boundary.
(* and the key for one secret may be part of the key for another: 49 is the digit 1 *)
Theorem C78_overlap : forall (fresh : Z -> bytes) dv secret k, (forall n, 0 <= n -> zlen (fresh n) = n) -> bytes_ok dv -> bytes_ok secret -> zlen dv + zlen secret + 21 <= max_string_length ->
  dh_derive_key fresh dv secret 352 = Ret k -> dh_derive_key fresh dv (secret ++ [49]) 32 = Ret (sub k 320 32).
Proof. exact derive_overlap. Qed.
Print Assumptions C78_overlap.
(* the documentation says SHA-1 *)
Theorem C78_sha1_refuted : exists dv secret n, 0 <= n <= 20 /\ dh_derive_key zeros dv secret n <> Ret (firstn (Z.to_nat n) (sha1 (dv ++ secret ++ [49]))).
Proof. exact derive_sha1. Qed.
Print Assumptions C78_sha1_refuted.
Example C78_case : dh_derive_key toy_fresh [97] [98; 99] 40 = dh_derive_key toy_fresh [97; 98] [99] 40 /\ dh_derive_key toy_fresh [97] [98; 99] 40 <> dh_derive_key toy_fresh [97; 98] [98; 99] 40.
Proof. split; [vm_compute; reflexivity|]. assert (H : dh_derive_key toy_fresh [97] [98; 99] 40 = dh_derive_key toy_fresh [97; 98] [98; 99] 40 -> False); [|exact H]. vm_compute. discriminate. Qed.

(* C79.  Without a source of randomness, with any fuel f for the loops *)
Theorem C79_no_entropy : forall (fresh : Z -> bytes) (np : Z -> Z) f, 
  (forall n, 0 <= n <= max_string_length -> raises (rng_string fresh no_rng tt n)) /\
  (forall e nb, 32 <= nb -> Z.land nb 1 = 0 -> (nb + 7) / 8 <= max_string_length -> raises (rsa_new_key fresh no_rng np (S f) tt e nb)) /\
  (forall nb, 32 <= nb -> Z.land nb 1 = 0 -> (nb + 7) / 8 <= max_string_length -> raises (pai_new_key fresh no_rng np (S f) tt nb)) /\
  (forall key msg, 2 <= pp_size key -> (pp_size key + 7) / 8 <= max_string_length -> raises (pai_encrypt fresh no_rng (S f) tt key msg)) /\
  (forall privlen nb, 32 <= nb -> privlen < nb -> (nb + 7) / 8 <= max_string_length -> raises (dh_new_parameters fresh no_rng np (S f) tt privlen nb)) /\
  (forall pr, 1 <= dh_privlen pr -> (dh_privlen pr + 7) / 8 <= max_string_length -> raises (dh_private_secret fresh no_rng tt pr)).
Proof. exact no_entropy. Qed.
Print Assumptions C79_no_entropy.
Example C79_case : rsa_new_key toy_fresh no_rng (fun n => n) 1 tt None 512 = (tt, Raise (Error No_entropy_source)) /\ (512 + 7) / 8 <= max_string_length.
Proof. split; [reflexivity|vm_compute; discriminate]. Qed.
