(* Properties C82, C83, C84.  Vocabulary (SpecWipe.v, SpecWipe2.v): [w_run], [h_run], [a_run] make any calls, wipe included, on a
   transform, a hash or MAC, an authenticated transform; OUndef is an access outside a buffer.  [lib_tr], [lib_h], [lib_auth] are the objects of
   the library, and their compositions of any depth; with true, those that do not contain AES or SHA-3, which C66 shows unsafe after wipe.
   [after], [h_after], [a_after]: the object with all its fields after calls.  [fresh n] is the contents of a new buffer, arbitrary. *)
From Verif Require Import Prelude PreludeFacts SpecTransducer BufOutModel TransformModel BlockModel CipherModel EncModel HashModel MacModel AuthModel AeadModel PolyModel CipherSpec
  SpecWipe SpecWipe2 WipeErase WipeApi WipeComp WipeAuth WipeGcm WipeErase2 WipeErase3 WipeOnce WipeBlake3 SpecBlake3 AesModel AesniModel DesModel StreamModel ShaModel KeccakModel Blake2Model SipModel Blake3Model
  ZlibModel SpecZlib SpecAead AeadApi Poly Toy.

(* C82.  Safety: any calls, before and after wipe (w = true), or before wipe (w = false) *)
Theorem C82_transforms : forall fresh w o, (forall n, 0 <= n -> zlen (fresh n) = n) -> lib_tr fresh w o -> transform_memory_safe w (o_tr o) (o_st o).
Proof. exact (fun fresh w o F => lib_tr_memory fresh F w o). Qed.
Print Assumptions C82_transforms.
Example C82_transforms_case : let hex := TObj (hexa_encode zeros) (hexa_encode_new zeros) in let b64 := TObj (base64_encode zeros true true) (base64_encode_new zeros) in
  (forall c, Cipher_chacha20 zeros None 0 (repeat 7 32) Encrypt = Ret c -> lib_tr zeros true (composed (composed c b64) hex)) /\
  match Cipher_chacha20 zeros None 0 (repeat 7 32) Encrypt with
  | Ret c => let o := composed (composed c b64) hex in
      snd (w_run (o_tr o) (o_st o) [Call (PutString [1; 2; 3]); Wipe; Call (PutString [1; 2; 3; 4]); Call Finish; Call AvailableOutput]) = [OUnit; OUnit; OUnit; OUnit; OInt 26]
  | _ => False end.
Proof.
  split; [|vm_compute; reflexivity].
  intros c Hc. apply LW_compose; [apply LW_compose; [eapply LW_chacha; exact Hc|constructor]|constructor].
Qed.

Theorem C82_hashes : forall fresh w o, (forall n, 0 <= n -> zlen (fresh n) = n) -> lib_h fresh w o -> hash_safe w (ho_class o) (ho_st o).
Proof. exact (fun fresh w o F => lib_h_safe fresh F w o). Qed.
Print Assumptions C82_hashes.
Example C82_hashes_case : match blake2s_obj zeros 256 [1; 2; 3] with
  | Ret o => map (fun x => match x with OBytes b => zlen b | _ => -1 end) (snd (h_run (ho_class o) (ho_st o) [AddString [1;2;3]; Result; HWipe; AddSubstring [1;2;3] 2 7; Result])) = [-1; 32; -1; -1; 32]
  | _ => False end.
Proof. vm_compute. reflexivity. Qed.

(* BLAKE3 (unsafe after wipe, C66_sha3_wiped): any calls before wipe, result at any time; result is then the BLAKE3 digest of all that was added *)
Theorem C82_blake3 : forall key sz o l, bytes_ok key -> blake3_obj key sz = Ret o -> Forall hop_chars l -> ~ In HWipe l -> zlen (fed l) < 2 ^ 64 ->
  ~ In OUndef (snd (h_run (ho_class o) (ho_st o) l)) /\ snd (h_result (ho_class o) (fst (h_run (ho_class o) (ho_st o) l))) = Ret (blake3_spec key (sz / 8) (fed l)).
Proof. exact blake3_any. Qed.
Print Assumptions C82_blake3.
Example C82_blake3_case : match blake3_obj (repeat 7 32) 64 with
  | Ret o => let l := [AddString [1;2;3]; Result; AddSubstring [1;2;3] 2 7; AddSubstring [4;5;6;7] 1 2; Result; AddByte 263] in
      fed l = [1;2;3;5;6;7] /\ map (fun x => match x with OBytes b => zlen b | _ => -1 end) (snd (h_run (ho_class o) (ho_st o) l)) = [-1; 8; -1; -1; 8; -1]
  | _ => False end.
Proof. vm_compute. split; reflexivity. Qed.

Theorem C82_authenticated : forall fresh w o, (forall n, 0 <= n -> zlen (fresh n) = n) -> lib_auth fresh w o -> auth_memory_safe w (ao_class o) (ao_st o).
Proof. exact (fun fresh w o F => lib_auth_memory fresh F w o). Qed.
Print Assumptions C82_authenticated.
Example C82_authenticated_case : match Cipher_chacha20 zeros None 0 (repeat 7 32) Encrypt, siphash_new zeros 64 (repeat 7 16) with
  | Ret c, Ret h => let o := new_transform_then_hash zeros c h in
      map (fun x => match x with OBytes b => zlen b | _ => -1 end) (snd (a_run (ao_class o) (ao_st o) [ACall (PutString [1;2;3]); AFinish; AWipe; ACall (PutString [1;2;3]); AFinish; ACall GetString])) = [-1; 8; -1; -1; 8; 6]
  | _, _ => False end.
Proof. vm_compute. reflexivity. Qed.

(* decryption with ChaCha20-Poly1305: put_substring with a range outside its buffer is undefined (refuted below), all the other calls are safe *)
Theorem C82_chapoly_decrypt_partial : forall fresh P header iv key o, (forall n, 0 <= n -> zlen (fresh n) = n) -> zlen header <= max_string_length ->
  chacha20_poly1305 fresh P header iv key Decrypt = Ret o -> auth_safe_in_range (ao_class o) (ao_st o).
Proof. exact (fun fresh P header iv key o F => chapoly_dec_safe fresh F P header iv key o). Qed.
Print Assumptions C82_chapoly_decrypt_partial.
Theorem C82_chapoly_decrypt_refuted : exists (fresh : Z -> bytes) (P : poly_impl) (header iv key : bytes), (forall n, 0 <= n -> zlen (fresh n) = n) /\ poly_class P /\
  exists o, chacha20_poly1305 fresh P header iv key Decrypt = Ret o /\ ~ auth_memory_safe false (ao_class o) (ao_st o).
Proof. exact chapoly_dec_not_safe. Qed.
Print Assumptions C82_chapoly_decrypt_refuted.

(* C83.  Erasure: encoders and decoders.  Only the numbers of pending bytes, the column and the positions of the output buffer remain. *)
Theorem C83_base64_encode : forall fresh ml pad l1 l2, (forall n, 0 <= n -> zlen (fresh n) = n) -> Forall wop_possible l1 -> Forall wop_possible l2 ->
  let T := base64_encode fresh ml pad in let new := base64_encode_new fresh in let s1 := fst (w_run T new l1) in let s2 := fst (w_run T new l2) in
  b64e_num (fst s1) = b64e_num (fst s2) -> bo_public (snd s1) = bo_public (snd s2) ->
  after (after (TObj T new) l1) [Wipe] = after (after (TObj T new) l2) [Wipe].
Proof. exact (fun fresh ml pad l1 l2 F => base64_encode_erased fresh F ml pad l1 l2). Qed.
Print Assumptions C83_base64_encode.
Theorem C83_base64_decode : forall fresh l1 l2, (forall n, 0 <= n -> zlen (fresh n) = n) -> Forall wop_possible l1 -> Forall wop_possible l2 ->
  let T := base64_decode fresh in let new := base64_decode_new fresh in let s1 := fst (w_run T new l1) in let s2 := fst (w_run T new l2) in
  b64d_num (fst s1) = b64d_num (fst s2) -> bo_public (snd s1) = bo_public (snd s2) ->
  after (after (TObj T new) l1) [Wipe] = after (after (TObj T new) l2) [Wipe].
Proof. exact (fun fresh l1 l2 F => base64_decode_erased fresh F l1 l2). Qed.
Print Assumptions C83_base64_decode.
Example C83_base64_case : let T := base64_encode toy_fresh false true in let new := base64_encode_new toy_fresh in
  let s1 := fst (w_run T new [Call (PutString [1; 2; 3; 4])]) in let s2 := fst (w_run T new [Call (PutString [9; 9; 9]); Call (PutChar 8)]) in
  s1 <> s2 /\ b64e_num (fst s1) = b64e_num (fst s2) /\ bo_public (snd s1) = bo_public (snd s2).
Proof. vm_compute. repeat split; discriminate. Qed.
Theorem C83_hexa_encode : forall fresh l1 l2, (forall n, 0 <= n -> zlen (fresh n) = n) -> Forall wop_possible l1 -> Forall wop_possible l2 ->
  let T := hexa_encode fresh in let new := hexa_encode_new fresh in let s1 := fst (w_run T new l1) in let s2 := fst (w_run T new l2) in
  bo_public (snd s1) = bo_public (snd s2) -> after (after (TObj T new) l1) [Wipe] = after (after (TObj T new) l2) [Wipe].
Proof. exact (fun fresh l1 l2 F => hexa_encode_erased fresh F l1 l2). Qed.
Print Assumptions C83_hexa_encode.
Theorem C83_hexa_decode : forall fresh l1 l2, (forall n, 0 <= n -> zlen (fresh n) = n) -> Forall wop_possible l1 -> Forall wop_possible l2 ->
  let T := hexa_decode fresh in let new := hexa_decode_new fresh in let s1 := fst (w_run T new l1) in let s2 := fst (w_run T new l2) in
  hd_ipos (fst s1) = hd_ipos (fst s2) -> bo_public (snd s1) = bo_public (snd s2) -> after (after (TObj T new) l1) [Wipe] = after (after (TObj T new) l2) [Wipe].
Proof. exact (fun fresh l1 l2 F => hexa_decode_erased fresh F l1 l2). Qed.
Print Assumptions C83_hexa_decode.
Example C83_hexa_case : let T := hexa_decode toy_fresh in let new := hexa_decode_new toy_fresh in
  let s1 := fst (w_run T new [Call (PutString [48; 49; 50])]) in let s2 := fst (w_run T new [Call (PutString [70; 70; 10; 70])]) in
  s1 <> s2 /\ hd_ipos (fst s1) = hd_ipos (fst s2) /\ bo_public (snd s1) = bo_public (snd s2).
Proof. vm_compute. repeat split; discriminate. Qed.

(* hashes: nothing remains.  Keyed hashes: for any two keys.  HMAC: the data, not the key (C66_hmac_refuted) *)
Theorem C83_hashes : forall fresh l1 l2, (forall n, 0 <= n -> zlen (fresh n) = n) -> Forall hop_possible l1 -> Forall hop_possible l2 ->
  (forall o B, md_object fresh o B -> h_after o (l1 ++ [HWipe]) = h_after o (l2 ++ [HWipe])) /\
  (forall o B key m, md_object fresh o B -> zlen key <= max_string_length -> hmac_of o B key = Ret m -> h_after m (l1 ++ [HWipe]) = h_after m (l2 ++ [HWipe])) /\
  (forall sz b o1 o2, sha3_new fresh sz b = Ret o1 -> sha3_new fresh sz b = Ret o2 -> h_after o1 (l1 ++ [HWipe]) = h_after o2 (l2 ++ [HWipe])).
Proof.
  exact (fun fresh l1 l2 F H1 H2 => conj (fun o B Ho => md_object_erased fresh o B l1 l2 F Ho H1 H2)
    (conj (fun o B key m Ho Hk E => hmac_data_erased fresh o B key m l1 l2 F Ho Hk E H1 H2) (fun sz b o1 o2 => sha3_erased fresh sz b o1 o2 l1 l2))).
Qed.
Print Assumptions C83_hashes.
Example C83_hashes_case : let o := sha1_obj zeros in fst (h_run (ho_class o) (ho_st o) [AddString [1; 2; 3]]) <> fst (h_run (ho_class o) (ho_st o) [AddString [4]]) /\
  fst (h_run (ho_class o) (ho_st o) [AddString [1; 2; 3]; HWipe]) = fst (h_run (ho_class o) (ho_st o) [AddString [4]; HWipe]).
Proof. vm_compute. split; [discriminate|reflexivity]. Qed.
Theorem C83_keyed_hashes : forall fresh sz k1 k2 o1 o2 l1 l2, (forall n, 0 <= n -> zlen (fresh n) = n) -> Forall hop_possible l1 -> Forall hop_possible l2 ->
  (blake2b_obj fresh sz k1 = Ret o1 /\ blake2b_obj fresh sz k2 = Ret o2) \/ (blake2s_obj fresh sz k1 = Ret o1 /\ blake2s_obj fresh sz k2 = Ret o2) \/
  (siphash_new fresh sz k1 = Ret o1 /\ siphash_new fresh sz k2 = Ret o2) \/ (blake3_obj k1 sz = Ret o1 /\ blake3_obj k2 sz = Ret o2) ->
  h_after o1 (l1 ++ [HWipe]) = h_after o2 (l2 ++ [HWipe]).
Proof.
  exact (fun fresh sz k1 k2 o1 o2 l1 l2 F H1 H2 H => match H with
    | or_introl E => blake2_erased fresh sz k1 k2 o1 o2 l1 l2 F (or_introl E) H1 H2 | or_intror (or_introl E) => blake2_erased fresh sz k1 k2 o1 o2 l1 l2 F (or_intror E) H1 H2
    | or_intror (or_intror (or_introl (conj E1 E2))) => siphash_erased fresh sz k1 k2 o1 o2 l1 l2 E1 E2 | or_intror (or_intror (or_intror (conj E1 E2))) => blake3_erased sz k1 k2 o1 o2 l1 l2 E1 E2 end).
Qed.
Print Assumptions C83_keyed_hashes.
Example C83_keyed_hashes_case : match siphash_new zeros 64 (repeat 7 16), siphash_new zeros 64 (repeat 8 16) with
  | Ret o1, Ret o2 => snd (h_run (ho_class o1) (ho_st o1) [AddString [1]; Result]) <> snd (h_run (ho_class o2) (ho_st o2) [AddString [1]; Result]) /\
      snd (h_run (ho_class o1) (ho_st o1) [AddString [1]; HWipe; Result]) = snd (h_run (ho_class o2) (ho_st o2) [AddString [5; 6]; HWipe; Result])
  | _, _ => False end.
Proof. vm_compute. split; [discriminate|reflexivity]. Qed.

(* MACs made of block ciphers, for any two keys and initial vectors: only the number of pending bytes remains *)
Theorem C83_block_macs : forall fresh nb iv1 iv2 p k1 k2 o1 o2 l1 l2, (forall n, 0 <= n -> zlen (fresh n) = n) -> any_block_class fresh nb -> bytes_ok k1 -> bytes_ok k2 ->
  block_mac fresh (nb Encrypt) iv1 (option_map scheme_of p) k1 = Ret o1 -> block_mac fresh (nb Encrypt) iv2 (option_map scheme_of p) k2 = Ret o2 ->
  Forall hop_possible l1 -> Forall hop_possible l2 -> ~ In HWipe l1 -> ~ In HWipe l2 ->
  exists C (s1 s2 : mst C), h_after o1 l1 = HObj (mac C (option_map scheme_of p)) s1 /\ h_after o2 l2 = HObj (mac C (option_map scheme_of p)) s2 /\
  (mc_used s1 = mc_used s2 -> h_after o1 (l1 ++ [HWipe]) = h_after o2 (l2 ++ [HWipe])).
Proof. exact (fun fresh nb iv1 iv2 p k1 k2 o1 o2 l1 l2 F => block_mac_erased fresh F nb iv1 iv2 p k1 k2 o1 o2 l1 l2). Qed.
Print Assumptions C83_block_macs.
Theorem C83_cmac : forall fresh nb iv1 iv2 k1 k2 o1 o2 l1 l2, (forall n, 0 <= n -> zlen (fresh n) = n) -> rijndael_class fresh nb -> bytes_ok k1 -> bytes_ok k2 ->
  aes_cmac fresh (nb Encrypt) iv1 k1 = Ret o1 -> aes_cmac fresh (nb Encrypt) iv2 k2 = Ret o2 ->
  Forall hop_possible l1 -> Forall hop_possible l2 -> ~ In HWipe l1 -> ~ In HWipe l2 ->
  exists C (s1 s2 : mst C * (bytes * bytes)), h_after o1 l1 = HObj (cmac C) s1 /\ h_after o2 l2 = HObj (cmac C) s2 /\
  (mc_used (fst s1) = mc_used (fst s2) -> h_after o1 (l1 ++ [HWipe]) = h_after o2 (l2 ++ [HWipe])).
Proof. exact (fun fresh nb iv1 iv2 k1 k2 o1 o2 l1 l2 F => cmac_erased fresh F nb iv1 iv2 k1 k2 o1 o2 l1 l2). Qed.
Print Assumptions C83_cmac.
Theorem C83_des3_mac : forall fresh iv1 iv2 p k1 k2 o1 o2 l1 l2, (forall n, 0 <= n -> zlen (fresh n) = n) -> bytes_ok k1 -> bytes_ok k2 ->
  des_final_triple_des fresh new_des iv1 (option_map scheme_of p) k1 = Ret o1 -> des_final_triple_des fresh new_des iv2 (option_map scheme_of p) k2 = Ret o2 ->
  Forall hop_possible l1 -> Forall hop_possible l2 ->
  exists C1 C2 C3 (s1 s2 : mst C1 * bc_st C2 * bc_st C3), h_after o1 l1 = HObj (mac_final_triple C1 C2 C3 (option_map scheme_of p)) s1 /\ h_after o2 l2 = HObj (mac_final_triple C1 C2 C3 (option_map scheme_of p)) s2 /\
  (mc_used (fst (fst s1)) = mc_used (fst (fst s2)) -> h_after o1 (l1 ++ [HWipe]) = h_after o2 (l2 ++ [HWipe])).
Proof. exact (fun fresh iv1 iv2 p k1 k2 o1 o2 l1 l2 F => des3_mac_erased fresh F iv1 iv2 p k1 k2 o1 o2 l1 l2). Qed.
Print Assumptions C83_des3_mac.
Example C83_macs_case : match aes_cmac zeros (new_aes zeros Encrypt) None (repeat 7 16), aes_cmac zeros (new_aes zeros Encrypt) None (repeat 8 16) with
  | Ret o1, Ret o2 => snd (h_run (ho_class o1) (ho_st o1) [AddString [1; 2]; Result]) <> snd (h_run (ho_class o2) (ho_st o2) [AddString [3; 4]; Result]) | _, _ => False end /\
  match block_mac zeros (new_des Encrypt) None (option_map scheme_of (Some PLength)) (repeat 7 8), block_mac zeros (new_des Encrypt) None (option_map scheme_of (Some PLength)) (repeat 9 8) with
  | Ret o1, Ret o2 => snd (h_run (ho_class o1) (ho_st o1) [AddString [1; 2]; HWipe; Result]) = snd (h_run (ho_class o2) (ho_st o2) [AddString [3; 4]; HWipe; Result]) | _, _ => False end.
Proof. vm_compute. split; [discriminate|reflexivity]. Qed.

(* compositions: wipe is the wipe of each part, and of the output buffer *)
Theorem C83_compose : forall fresh w o1 o2 s1 s2, lib_tr fresh w o1 ->
  after (composed (TObj (o_tr o1) s1) (TObj (o_tr o2) s2)) [Wipe] = composed (after (TObj (o_tr o1) s1) [Wipe]) (after (TObj (o_tr o2) s2) [Wipe]).
Proof. exact compose_wiped. Qed.
Print Assumptions C83_compose.
Theorem C83_then_hash : forall fresh w tr H s h b, lib_tr fresh w tr ->
  a_after (AObj (transform_then_hash fresh (o_tr tr) H) (TH s h b)) [AWipe] =
  AObj (transform_then_hash fresh (o_tr tr) H) (TH (o_st (after (TObj (o_tr tr) s) [Wipe])) (ho_st (h_after (HObj H h) [HWipe])) (bo_wipe b)).
Proof. exact then_wiped. Qed.
Print Assumptions C83_then_hash.
Theorem C83_and_hash : forall fresh w tr H s h, lib_tr fresh w tr ->
  a_after (AObj (transform_and_hash (o_tr tr) H) (s, h)) [AWipe] =
  AObj (transform_and_hash (o_tr tr) H) (o_st (after (TObj (o_tr tr) s) [Wipe]), ho_st (h_after (HObj H h) [HWipe])).
Proof. exact and_wiped. Qed.
Print Assumptions C83_and_hash.
Example C83_compose_case : lib_tr zeros true (composed (TObj (hexa_encode zeros) (hexa_encode_new zeros)) (TObj (base64_encode zeros true true) (base64_encode_new zeros))).
Proof. apply LW_compose; constructor. Qed.

(* ChaCha20-Poly1305, for any two keys, nonces of the same length and headers of the same length: the length of the text and the positions of the output buffer remain *)
Theorem C83_chapoly_encrypt : forall fresh P header1 header2 iv1 iv2 k1 k2 o1 o2 l1 l2, (forall n, 0 <= n -> zlen (fresh n) = n) ->
  zlen header1 <= max_string_length -> zlen header1 = zlen header2 -> zlen iv1 = zlen iv2 ->
  chacha20_poly1305 fresh P header1 iv1 k1 Encrypt = Ret o1 -> chacha20_poly1305 fresh P header2 iv2 k2 Encrypt = Ret o2 ->
  Forall aop_possible l1 -> Forall aop_in_range l1 -> Forall aop_possible l2 -> Forall aop_in_range l2 ->
  exists maxlen fin (s1 s2 : sct (chapoly_enc P chacha20_class maxlen)), a_after o1 l1 = AObj (auth_of (stream_transform fresh (chapoly_enc P chacha20_class maxlen)) 16 fin) s1 /\
  a_after o2 l2 = AObj (auth_of (stream_transform fresh (chapoly_enc P chacha20_class maxlen)) 16 fin) s2 /\
  (cp_clen (sct_c _ s1) = cp_clen (sct_c _ s2) -> bo_public (sct_bo _ s1) = bo_public (sct_bo _ s2) -> a_after (a_after o1 l1) [AWipe] = a_after (a_after o2 l2) [AWipe]).
Proof. exact (fun fresh P header1 header2 iv1 iv2 k1 k2 o1 o2 l1 l2 F => chapoly_enc_erased fresh F P header1 header2 iv1 iv2 k1 k2 o1 o2 l1 l2). Qed.
Print Assumptions C83_chapoly_encrypt.
Theorem C83_chapoly_decrypt : forall fresh P header1 header2 iv1 iv2 k1 k2 o1 o2 l1 l2, (forall n, 0 <= n -> zlen (fresh n) = n) ->
  zlen header1 <= max_string_length -> zlen header1 = zlen header2 ->
  chacha20_poly1305 fresh P header1 iv1 k1 Decrypt = Ret o1 -> chacha20_poly1305 fresh P header2 iv2 k2 Decrypt = Ret o2 ->
  Forall aop_possible l1 -> Forall aop_in_range l1 -> Forall aop_possible l2 -> Forall aop_in_range l2 ->
  exists fin (s1 s2 : sct (chapoly_dec P chacha20_class)), a_after o1 l1 = AObj (auth_of (stream_transform fresh (chapoly_dec P chacha20_class)) 16 fin) s1 /\
  a_after o2 l2 = AObj (auth_of (stream_transform fresh (chapoly_dec P chacha20_class)) 16 fin) s2 /\
  (cp_clen (sct_c _ s1) = cp_clen (sct_c _ s2) -> bo_public (sct_bo _ s1) = bo_public (sct_bo _ s2) -> a_after (a_after o1 l1) [AWipe] = a_after (a_after o2 l2) [AWipe]).
Proof. exact (fun fresh P header1 header2 iv1 iv2 k1 k2 o1 o2 l1 l2 F => chapoly_dec_erased fresh F P header1 header2 iv1 iv2 k1 k2 o1 o2 l1 l2). Qed.
Print Assumptions C83_chapoly_decrypt.
Example C83_chapoly_case : match chacha20_poly1305 zeros (poly64 mach) [1; 2] (repeat 3 12) (repeat 4 32) Encrypt, chacha20_poly1305 zeros (poly64 mach) [5; 6] (repeat 7 12) (repeat 8 32) Encrypt with
  | Ret o1, Ret o2 => snd (a_run (ao_class o1) (ao_st o1) [ACall (PutString [1; 2]); AFinish]) <> snd (a_run (ao_class o2) (ao_st o2) [ACall (PutString [3; 4]); AFinish]) /\
      snd (a_run (ao_class o1) (ao_st o1) [ACall (PutString [1; 2]); AWipe; AFinish; ACall GetString]) = snd (a_run (ao_class o2) (ao_st o2) [ACall (PutString [3; 4]); AWipe; AFinish; ACall GetString])
  | _, _ => False end.
Proof. vm_compute. split; [discriminate|reflexivity]. Qed.

(* zlib: wipe leaves the zlib stream as it is, whatever zlib is; the data can come out afterwards *)
Theorem C83_zlib_kept : forall fresh zs (zlib : zs -> bytes -> Z -> flush_command -> zs * zcode * Z * bytes) zend fuel s l,
  fst (fst (w_run (compress fresh zs zlib zend fuel) s (l ++ [Wipe]))) = fst (fst (w_run (compress fresh zs zlib zend fuel) s l)) /\
  fst (fst (w_run (uncompress fresh zs zlib zend fuel) s (l ++ [Wipe]))) = fst (fst (w_run (uncompress fresh zs zlib zend fuel) s l)).
Proof. exact zlib_stream_kept. Qed.
Print Assumptions C83_zlib_kept.
Theorem C83_zlib_output : forall fresh zs (zlib : zs -> bytes -> Z -> flush_command -> zs * zcode * Z * bytes) zend fuel s l,
  Forall (fun b => b = 0) (obuf (snd (fst (w_run (compress fresh zs zlib zend fuel) s (l ++ [Wipe]))))) /\
  Forall (fun b => b = 0) (obuf (snd (fst (w_run (uncompress fresh zs zlib zend fuel) s (l ++ [Wipe]))))).
Proof. exact zlib_output_erased. Qed.
Print Assumptions C83_zlib_output.
Theorem C83_zlib_refuted : exists zs (zlib : zs -> bytes -> Z -> flush_command -> zs * zcode * Z * bytes) zend z fuel secret, zlib_ok zlib /\ bytes_ok secret /\
  snd (w_run (compress toy_fresh _ zlib zend fuel) (z_new toy_fresh _ z) [Call (PutString secret); Wipe; Call Finish; Call GetString]) = [OUnit; OUnit; OUnit; OBytes secret].
Proof. exact zlib_not_erased. Qed.
Print Assumptions C83_zlib_refuted.

(* C84.  The functions that use an object once: when they return a value, the last call was wipe, and the buffer of the channel is zero *)
Theorem C84_transform_string : forall T s str, let r := transform_string T s str in (exists x, snd r = Ret x) ->
  fst r = fst (w_run T s [Call (PutString str); Call Finish; Call GetString; Wipe]).
Proof. exact transform_string_wipes. Qed.
Print Assumptions C84_transform_string.
Theorem C84_transform_channel : forall fresh sched T s len ic, (forall n, 0 <= n -> zlen (fresh n) = n) ->
  let r := transform_channel fresh sched T s len ic in (exists x, snd r = Ret x) -> tc_ibuf (fst r) = zeros 256 /\ used_and_wiped T s (tc_tr (fst r)).
Proof. exact (fun fresh sched T s len ic F => transform_channel_wipes fresh F sched T s len ic). Qed.
Print Assumptions C84_transform_channel.
Theorem C84_hash_string : forall H s str, let r := hash_string H s str in (exists x, snd r = Ret x) -> fst r = fst (h_run H s [AddString str; Result; HWipe]).
Proof. exact hash_string_wipes. Qed.
Print Assumptions C84_hash_string.
Theorem C84_hash_channel : forall fresh sched H s len ic, (forall n, 0 <= n -> zlen (fresh n) = n) ->
  let r := hash_channel fresh sched H s len ic in (exists x, snd r = Ret x) -> hc_ibuf (fst r) = zeros 256 /\ h_used_and_wiped H s (hc_h (fst r)).
Proof. exact (fun fresh sched H s len ic F => hash_channel_wipes fresh F sched H s len ic). Qed.
Print Assumptions C84_hash_channel.
Theorem C84_auth : forall a s str, let calls := [ACall (PutString str); AFinish; ACall GetString; AWipe] in
  (forall x, snd (auth_transform_string_detached a s str) = Ret x -> fst (auth_transform_string_detached a s str) = fst (a_run a s calls)) /\
  (forall x, snd (auth_transform_string a s str) = Ret x -> fst (auth_transform_string a s str) = fst (a_run a s calls)).
Proof. exact (fun a s str => conj (fun x E => auth_string_wipes a s str (ex_intro _ x E)) (fun x E => auth_append_wipes a s str (ex_intro _ x E))). Qed.
Print Assumptions C84_auth.
(* a text is wiped whether it is accepted (Some) or refused (None) *)
Theorem C84_auth_check : forall a s str, let r := auth_check_transform_string a s str in forall x, snd r = Ret x ->
  fst r = fst (a_run a s (ACall (PutString (sub str 0 (zlen str - a_tag_size a))) :: AFinish :: (match x with Some _ => [ACall GetString] | None => [] end) ++ [AWipe])).
Proof. exact auth_check_wipes. Qed.
Print Assumptions C84_auth_check.
Example C84_case : 
  (let r := transform_channel toy_fresh (fun k => Z.of_nat k) (base64_encode toy_fresh false true) (base64_encode_new toy_fresh) (Some 4) [1; 2; 3; 4; 5] in snd r = Ret tt /\ tc_out (fst r) = [65; 81; 73; 68; 66; 65; 61; 61]) /\
  (let o := sha1_obj toy_fresh in exists d, snd (hash_channel toy_fresh (fun k => 1) (ho_class o) (ho_st o) None [1; 2; 3]) = Ret d) /\
  match chacha20_poly1305 zeros (poly64 mach) [1; 2] (repeat 3 12) (repeat 4 32) Decrypt with Ret o => snd (auth_check_transform_string (ao_class o) (ao_st o) (repeat 1 20)) = Ret None | _ => False end.
Proof. vm_compute. repeat split. eexists; reflexivity. Qed.
(* when an exception is raised neither the object nor the buffer is erased: decoding "QUJD!" *)
Theorem C84_exception_refuted : let T := base64_decode toy_fresh in let s := base64_decode_new toy_fresh in let ic := [81; 85; 74; 68; 33] in
  (let r := transform_string T s ic in snd r = Raise (Error Bad_encoding) /\ snd (t_get_string T (fst r)) = Ret [65; 66; 67]) /\
  (let r := transform_channel toy_fresh (fun _ => 256) T s None ic in snd r = Raise (Error Bad_encoding) /\ firstn 5 (tc_ibuf (fst r)) = ic /\ snd (t_get_string T (tc_tr (fst r))) = Ret [65; 66; 67]).
Proof. exact not_wiped_on_exception. Qed.
Print Assumptions C84_exception_refuted.
