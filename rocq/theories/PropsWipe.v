(* Property C66.  Vocabulary: [w_run T s l] makes the calls l, which may include wipe anywhere, on a transform, and
   gives the observations (SpecWipe.v); OUndef is an access outside a buffer or through a null pointer;
   [memory_safe]: no list of calls gives OUndef; [unwiped_memory_safe]: the same for calls other than wipe.
   [h_run], [hash_memory_safe] and [unwiped_hash_safe]: the same for hashes and MACs.
   [after o l]: the object o, all its fields included, after the calls l.  [fresh n] is the contents of
   a new buffer of n bytes, arbitrary. *)
From Verif Require Import Prelude PreludeFacts SpecTransducer TransformModel BlockModel CipherModel EncModel HashModel MacModel AuthModel AeadModel
  SpecWipe CipherSpec WipeCipher WipeHash WipeErase WipeMore WipeApi AesModel AesniModel DesModel BlowfishModel StreamModel ShaModel RipemdModel KeccakModel Blake2Model SipModel Blake3Model
  SpecAes Aes SpecAead AeadApi Poly SpecStream SpecRng RngModel Rng.

(* C66.  DES, triple DES and Blowfish: any calls, before and after wipe, in every mode and padding *)
Theorem C66_block_safe_partial : forall fresh nb m p iv key d o, (forall n, 0 <= n -> zlen (fresh n) = n) -> feistel_class nb ->
  make_cipher fresh nb m (option_map scheme_of p) iv key d = Ret o -> memory_safe (o_tr o) (o_st o).
Proof. exact (fun fresh nb m p iv key d o F => feistel_safe fresh F nb m p iv key d o). Qed.
Print Assumptions C66_block_safe_partial.
Example C66_block_safe_case : match make_cipher (fun n => zeros n) new_des (Some CBC) None None [1;2;3;4;5;6;7;8] Encrypt with
  | Ret o => snd (w_run (o_tr o) (o_st o) [Call (PutString [1;2;3;4;5;6;7;8;9]); Wipe; Call (PutString [1;2;3;4;5;6;7;8;9]); Call AvailableOutput]) = [OUnit; OUnit; OUnit; OInt 16]
  | _ => False end.
Proof. vm_compute. reflexivity. Qed.

(* RC4 and ChaCha20 *)
Theorem C66_stream_safe_partial : forall fresh d o, (forall n, 0 <= n -> zlen (fresh n) = n) -> 
  (forall key, Cipher_arcfour fresh key d = Ret o -> memory_safe (o_tr o) (o_st o)) /\
  (forall iv ctr key, Cipher_chacha20 fresh iv ctr key d = Ret o -> memory_safe (o_tr o) (o_st o)).
Proof. exact (fun fresh d o F => conj (fun key => arcfour_safe fresh F key d o) (fun iv ctr key => chacha_safe fresh F iv ctr key d o)). Qed.
Print Assumptions C66_stream_safe_partial.
Example C66_stream_safe_case : match Cipher_chacha20 (fun n => zeros n) None 0 (repeat 7 32) Encrypt with
  | Ret o => snd (w_run (o_tr o) (o_st o) [Call (PutString [1;2;3]); Wipe; Call (PutString [1;2;3]); Call AvailableOutput]) = [OUnit; OUnit; OUnit; OInt 6]
  | _ => False end.
Proof. vm_compute. reflexivity. Qed.

(* SHA-1, SHA-2, RIPEMD-160 and HMAC over them; BLAKE2 (with or without key) and SipHash *)
Theorem C66_hash_safe_partial : forall fresh, (forall n, 0 <= n -> zlen (fresh n) = n) -> 
  (forall o B, md_object fresh o B -> hash_memory_safe (ho_class o) (ho_st o)) /\
  (forall o B key m, md_object fresh o B -> zlen key <= max_string_length -> hmac_of o B key = Ret m -> hash_memory_safe (ho_class m) (ho_st m)) /\
  (forall sz key o, blake2b_obj fresh sz key = Ret o \/ blake2s_obj fresh sz key = Ret o \/ siphash_new fresh sz key = Ret o -> hash_memory_safe (ho_class o) (ho_st o)).
Proof. exact (fun fresh F => conj (md_safe fresh F) (conj (hmac_safe fresh F) (fun sz key o H => match H with or_introl E => blake2b_safe fresh F sz key o E | or_intror (or_introl E) => blake2s_safe fresh F sz key o E | or_intror (or_intror E) => sip_good fresh sz key o F E end))). Qed.
Print Assumptions C66_hash_safe_partial.
Example C66_hash_safe_case : match siphash_new (fun n => zeros n) 64 (repeat 7 16) with
  | Ret o => map (fun x => match x with OBytes b => zlen b | _ => -1 end) (snd (h_run (ho_class o) (ho_st o) [AddString [1;2;3]; HWipe; AddString [1;2;3]; Result])) = [-1; -1; -1; 8]
  | _ => False end.
Proof. vm_compute. reflexivity. Qed.

(* CBC-MACs over DES, triple DES and Blowfish, and DES with a final triple DES *)
Theorem C66_mac_safe_partial : forall fresh, (forall n, 0 <= n -> zlen (fresh n) = n) -> 
  (forall nb iv p key o, feistel_class nb -> block_mac fresh (nb Encrypt) iv (option_map scheme_of p) key = Ret o -> hash_memory_safe (ho_class o) (ho_st o)) /\
  (forall iv p key o, des_final_triple_des fresh new_des iv (option_map scheme_of p) key = Ret o -> hash_memory_safe (ho_class o) (ho_st o)).
Proof. exact (fun fresh F => conj (feistel_mac_safe fresh F) (WipeMac.des_triple_good fresh F)). Qed.
Print Assumptions C66_mac_safe_partial.
Example C66_mac_safe_case : match des_final_triple_des (fun n => zeros n) new_des None (option_map scheme_of (Some PLength)) (repeat 7 24) with
  | Ret o => map (fun x => match x with OBytes b => zlen b | _ => -1 end) (snd (h_run (ho_class o) (ho_st o) [AddString [1;2;3]; HWipe; AddString [1;2;3]; Result])) = [-1; -1; -1; 8]
  | _ => False end.
Proof. vm_compute. reflexivity. Qed.

(* AES in software and with the AES instructions, ciphers, CBC-MAC and CMAC, and SHA-3: as long as wipe is not called *)
Theorem C66_aes_unwiped_partial : forall fresh, (forall n, 0 <= n -> zlen (fresh n) = n) -> 
  (forall nb m p iv key d o, rijndael_class fresh nb -> bytes_ok key -> make_cipher fresh nb m (option_map scheme_of p) iv key d = Ret o -> unwiped_memory_safe o) /\
  (forall nb iv p key o, rijndael_class fresh nb -> bytes_ok key -> block_mac fresh (nb Encrypt) iv (option_map scheme_of p) key = Ret o -> unwiped_hash_safe (ho_class o) (ho_st o)) /\
  (forall nb iv key o, rijndael_class fresh nb -> bytes_ok key -> aes_cmac fresh (nb Encrypt) iv key = Ret o -> unwiped_hash_safe (ho_class o) (ho_st o)) /\
  (forall sz b o, sha3_new fresh sz b = Ret o -> unwiped_hash_safe (ho_class o) (ho_st o)).
Proof. exact (fun fresh F => conj (rijndael_unwiped fresh F) (conj (rijndael_mac_unwiped fresh F) (conj (rijndael_cmac_unwiped fresh F) (fun sz b o => sha3_good fresh sz b o F)))). Qed.
Print Assumptions C66_aes_unwiped_partial.

(* AES after wipe: in every mode and padding, in both directions and for every key, putting 17 bytes makes the C code
   read outside the key, whose length was erased too *)
Theorem C66_aes_wiped : forall fresh, (forall n, 0 <= n -> zlen (fresh n) = n) -> 
  (forall nb m p iv key d o b, rijndael_class fresh nb -> make_cipher fresh nb m p iv key d = Ret o -> zlen b = 17 ->
   snd (w_run (o_tr o) (o_st o) [Wipe; Call (PutString b)]) = [OUnit; OUndef]) /\
  (forall nb iv p key o b, rijndael_class fresh nb -> block_mac fresh (nb Encrypt) iv p key = Ret o -> zlen b = 17 ->
   snd (h_run (ho_class o) (ho_st o) [HWipe; AddString b]) = [OUnit; OUndef]).
Proof. exact (fun fresh F => conj (rijndael_wiped fresh F) (rijndael_mac_wiped fresh F)). Qed.
Print Assumptions C66_aes_wiped.

(* Hence memory safety after wipe is false *)
Theorem C66_aes_refuted : exists key o l, make_cipher (fun n => zeros n) (new_aes (fun n => zeros n)) (Some CBC) None None key Encrypt = Ret o /\
  Forall wop_possible l /\ In OUndef (snd (w_run (o_tr o) (o_st o) l)).
Proof. exact aes_unsafe. Qed.
Print Assumptions C66_aes_refuted.

(* SHA-3, Keccak and BLAKE3 after wipe: every call to add_string and result goes through a null pointer *)
Theorem C66_sha3_wiped : forall m, (forall fresh sz b o, sha3_new fresh sz b = Ret o ->
   snd (h_run (ho_class o) (ho_st o) [HWipe; AddString m]) = [OUnit; OUndef] /\ snd (h_run (ho_class o) (ho_st o) [HWipe; Result]) = [OUnit; OUndef]) /\
  (forall key sz o, blake3_obj key sz = Ret o ->
   snd (h_run (ho_class o) (ho_st o) [HWipe; AddString m]) = [OUnit; OUndef] /\ snd (h_run (ho_class o) (ho_st o) [HWipe; Result]) = [OUnit; OUndef]).
Proof. exact (fun m => conj (fun fresh sz b o => sha3_null fresh sz b o m) (fun key sz o => blake3_null key sz o m)). Qed.
Print Assumptions C66_sha3_wiped.
Example C66_sha3_wiped_case : match sha3_new (fun n => zeros n) 256 false with Ret o => h_size (ho_class o) = 32 | _ => False end.
Proof. vm_compute. reflexivity. Qed.

(* Erasure: a block cipher object of any class, mode and padding, wiped before use, is the same whatever the key and
   the initialization vector were *)
Theorem C66_block_erased : forall fresh nb m p d iv1 iv2 k1 k2 o1 o2, (forall n, 0 <= n -> zlen (fresh n) = n) -> any_block_class fresh nb -> bytes_ok k1 -> bytes_ok k2 ->
  make_cipher fresh nb m (option_map scheme_of p) iv1 k1 d = Ret o1 -> make_cipher fresh nb m (option_map scheme_of p) iv2 k2 d = Ret o2 ->
  after o1 [Wipe] = after o2 [Wipe].
Proof. exact (fun fresh nb m p d iv1 iv2 k1 k2 o1 o2 F => block_erased fresh F nb m p d iv1 iv2 k1 k2 o1 o2). Qed.
Print Assumptions C66_block_erased.
Example C66_block_erased_case : match make_cipher (fun n => zeros n) new_des None None None [1;2;3;4;5;6;7;8] Encrypt with
  | Ret o => match make_cipher (fun n => zeros n) new_des None None (Some [9;9;9;9;9;9;9;9]) [3;3;3;3;3;3;3;3] Encrypt with Ret _ => True | _ => False end | _ => False end.
Proof. vm_compute. exact Logic.I. Qed.

(* The same after any calls, if the lengths in the object are the same: nothing of the data is left either *)
Theorem C66_block_erased_used : forall fresh nb m p d iv1 iv2 k1 k2 o1 o2 l1 l2, (forall n, 0 <= n -> zlen (fresh n) = n) -> any_block_class fresh nb -> bytes_ok k1 -> bytes_ok k2 -> is_ctr (match m with Some m => m | None => CBC end) = false ->
  make_cipher fresh nb m (option_map scheme_of p) iv1 k1 d = Ret o1 -> make_cipher fresh nb m (option_map scheme_of p) iv2 k2 d = Ret o2 ->
  Forall op_possible l1 -> Forall op_possible l2 ->
  exists C fin (s1 s2 : cs C), after o1 (map Call l1) = TObj (cipher_with_finish fresh C fin) s1 /\ after o2 (map Call l2) = TObj (cipher_with_finish fresh C fin) s2 /\
  (public s1 = public s2 -> after (after o1 (map Call l1)) [Wipe] = after (after o2 (map Call l2)) [Wipe]).
Proof. exact (fun fresh nb m p d iv1 iv2 k1 k2 o1 o2 l1 l2 F => block_erased_used fresh F nb m p d iv1 iv2 k1 k2 o1 o2 l1 l2). Qed.
Print Assumptions C66_block_erased_used.

(* In counter mode, if moreover the same number of blocks is left *)
Theorem C66_block_erased_ctr : forall fresh nb m p d iv1 iv2 k1 k2 o1 o2 l1 l2, (forall n, 0 <= n -> zlen (fresh n) = n) -> any_block_class fresh nb -> bytes_ok k1 -> bytes_ok k2 -> is_ctr m = true ->
  make_cipher fresh nb (Some m) (option_map scheme_of p) iv1 k1 d = Ret o1 -> make_cipher fresh nb (Some m) (option_map scheme_of p) iv2 k2 d = Ret o2 ->
  Forall op_possible l1 -> Forall op_possible l2 ->
  exists C n fin (s1 s2 : cs (ctr C n)), after o1 (map Call l1) = TObj (cipher_with_finish fresh (ctr C n) fin) s1 /\ after o2 (map Call l2) = TObj (cipher_with_finish fresh (ctr C n) fin) s2 /\
  (public s1 = public s2 -> blocks_left s1 = blocks_left s2 -> after (after o1 (map Call l1)) [Wipe] = after (after o2 (map Call l2)) [Wipe]).
Proof. exact (fun fresh nb m p d iv1 iv2 k1 k2 o1 o2 l1 l2 F => block_erased_ctr fresh F nb m p d iv1 iv2 k1 k2 o1 o2 l1 l2). Qed.
Print Assumptions C66_block_erased_ctr.

(* Erasure for RC4 objects, used or not *)
Theorem C66_arcfour_erased : forall fresh k1 k2 d1 d2 o1 o2 l1 l2, (forall n, 0 <= n -> zlen (fresh n) = n) -> Cipher_arcfour fresh k1 d1 = Ret o1 -> Cipher_arcfour fresh k2 d2 = Ret o2 -> Forall wop_possible l1 -> Forall wop_possible l2 ->
  exists s1 s2 : sct arcfour_class, after o1 l1 = TObj (stream_transform fresh arcfour_class) s1 /\ after o2 l2 = TObj (stream_transform fresh arcfour_class) s2 /\
  (stream_public s1 = stream_public s2 -> after (after o1 l1) [Wipe] = after (after o2 l2) [Wipe]).
Proof. exact (fun fresh k1 k2 d1 d2 o1 o2 l1 l2 F => arcfour_erased fresh F k1 k2 d1 d2 o1 o2 l1 l2). Qed.
Print Assumptions C66_arcfour_erased.

(* Erasure for ChaCha20 objects, used or not *)
Theorem C66_chacha_erased : forall fresh iv1 iv2 c1 c2 k1 k2 d1 d2 o1 o2 l1 l2, (forall n, 0 <= n -> zlen (fresh n) = n) -> Cipher_chacha20 fresh iv1 c1 k1 d1 = Ret o1 -> Cipher_chacha20 fresh iv2 c2 k2 d2 = Ret o2 -> Forall wop_possible l1 -> Forall wop_possible l2 ->
  exists s1 s2 : sct chacha20_class, after o1 l1 = TObj (stream_transform fresh chacha20_class) s1 /\ after o2 l2 = TObj (stream_transform fresh chacha20_class) s2 /\
  (stream_public s1 = stream_public s2 -> after (after o1 l1) [Wipe] = after (after o2 l2) [Wipe]).
Proof. exact (fun fresh iv1 iv2 c1 c2 k1 k2 d1 d2 o1 o2 l1 l2 F => chacha_erased fresh F iv1 iv2 c1 c2 k1 k2 d1 d2 o1 o2 l1 l2). Qed.
Print Assumptions C66_chacha_erased.

(* A wiped RC4 object can be used, and then does not encrypt: its output is its input *)
Theorem C66_arcfour_identity : forall fresh key d o b, (forall n, 0 <= n -> zlen (fresh n) = n) -> Cipher_arcfour fresh key d = Ret o -> zlen b <= max_string_length ->
  snd (w_run (o_tr o) (o_st o) [Wipe; Call (PutString b); Call GetString]) = [OUnit; OUnit; OBytes b].
Proof. exact (fun fresh key d o b F => arcfour_identity fresh F key d o b). Qed.
Print Assumptions C66_arcfour_identity.
Example C66_arcfour_identity_case : match Cipher_arcfour (fun n => zeros n) [1;2;3;4;5] Encrypt with
  | Ret o => snd (w_run (o_tr o) (o_st o) [Wipe; Call (PutString [7;8;9]); Call GetString]) = [OUnit; OUnit; OBytes [7;8;9]] | _ => False end.
Proof. vm_compute. reflexivity. Qed.

(* AES-GCM: a wiped object has kept what makes a tag.  finish_and_get_tag still gives the right tag of the header under the key *)
Theorem C66_gcm_not_erased : forall fresh accel nb key A iv d, (forall n, 0 <= n -> zlen (fresh n) = n) -> aes_class fresh nb ->
  aes_key_size key -> bytes_ok key -> bytes_ok A -> bytes_ok iv -> zlen A <= max_string_length -> zlen iv <= max_string_length ->
  exists o, aes_gcm fresh accel nb A iv key d = Ret o /\ wiped_finish o = Ret (gcm_T (aes_E key) iv A []).
Proof. exact (fun fresh accel nb key A iv d F => gcm_tag_after_wipe fresh F accel nb key A iv d). Qed.
Print Assumptions C66_gcm_not_erased.

(* Hence erasure is false of AES-GCM: two keys, two wiped objects, two answers *)
Theorem C66_gcm_refuted : exists k1 k2, gcm_wiped k1 <> gcm_wiped k2.
Proof. exact gcm_not_erased. Qed.
Print Assumptions C66_gcm_refuted.

(* The generator pseudo_rng_aes_ctr keeps its key and counter: wiped at the end of a block, it delivers the rest of the same
   stream ([delivered], [ctr_stream]: SpecRng.v; [asked qs]: the bytes asked for by the calls qs) *)
Theorem C66_rng_not_erased : forall fresh nb seed, (forall n, 0 <= n -> zlen (fresh n) = n) -> (nb = new_aes fresh Encrypt \/ nb = new_aesni fresh Encrypt) -> bytes_ok seed -> 16 <= zlen seed ->
  exists o, pseudo_rng_aes_ctr fresh nb seed = Ret o /\ forall qs qs', Forall q_valid qs -> Forall q_valid qs' -> (asked qs mod 16 = 0)%nat ->
  r_run (ro_class o) (fst (r_wipe (ro_class o) (r_after (ro_class o) (ro_st o) qs))) qs' = delivered (ctr_stream (aes_E (firstn 16 seed))) (asked qs) qs'.
Proof. exact (fun fresh nb seed F => actr_goes_on fresh F nb seed). Qed.
Print Assumptions C66_rng_not_erased.

(* HMAC keeps the key: the result of a wiped object depends on it *)
Theorem C66_hmac_refuted : exists k1 k2, wiped_result k1 <> wiped_result k2.
Proof. exact (ex_intro _ [1] (ex_intro _ [2] hmac_keeps_key)). Qed.
Print Assumptions C66_hmac_refuted.
