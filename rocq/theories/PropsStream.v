(* Properties of stream ciphers: C23, C24, C25 and part of C15. *)
From Verif Require Import Prelude SpecTransducer TransformModel Transform EncModel EncApi LibTransform CipherModel SpecStream StreamModel StreamObj Rc4 Chacha StreamApi Toy.
From Coq Require Import Permutation.

(* C23.  For every history of calls to the method transform, valid or not, the object
   xors the data with the RC4 keystream, each valid call going on where the last stopped *)
Theorem C23_arcfour : forall key, 1 <= zlen key <= 256 -> exists o, new_arcfour key = Ret o /\ stream_computes o (rc4 key).
Proof. exact arcfour_computes. Qed.
Print Assumptions C23_arcfour.
(* after every history the table is a permutation of 0..255 *)
Theorem C23_table_permutation : forall key cs, 1 <= zlen key <= 256 -> Forall (fun c => bytes_ok (sc_src c)) cs ->
  Permutation (map Z.of_nat (seq 0 256)) (arc_state (fst (sc_run arcfour_class (arcfour_cook_key key) cs))).
Proof. exact arcfour_table. Qed.
Print Assumptions C23_table_permutation.
(* the transform Cipher.arcfour, for every way of feeding it the message *)
Theorem C23_cipher : forall fresh key d msg, (forall n, 0 <= n -> zlen (fresh n) = n) -> 1 <= zlen key <= 256 ->
  bytes_ok msg -> zlen msg <= max_string_length ->
  exists o, Cipher_arcfour fresh key d = Ret o /\ whole o msg (Ret (ks_xor (rc4 key) 0 msg)).
Proof. exact arcfour_cipher. Qed.
Print Assumptions C23_cipher.
(* key "Key", data "Plaintext" in two calls with an invalid one between *)
Example C23_case :
  match new_arcfour [75;101;121] with
  | Ret o =>
      snd (sc_run (so_sc o) (so_st o)
        [SCall [80;108;97;105] 0 (zeros 5) 1 4; SCall [1] 0 [2] 0 2; SCall [0;110;116;101;120;116] 1 (zeros 5) 0 5])
      = [([0; 0xBB;0xF3;0x16;0xE8], Ret tt); ([2], Raise Invalid_argument); ([0xD9;0x40;0xAF;0x0A;0xD3], Ret tt)]
  | _ => False
  end.
Proof. vm_compute. reflexivity. Qed.

(* C24 *)
Theorem C24_chacha20 : forall fresh iv ctr key,
  zlen key = 16 \/ zlen key = 32 -> bytes_ok key -> bytes_ok (iv_of iv) ->
  match iv with None => True | Some s => zlen s = 8 \/ (zlen s = 12 /\ ctr < 2 ^ 24) end ->
  exists o, new_chacha20 fresh iv ctr key = Ret o /\ stream_computes o (chacha20 key ctr (iv_of iv)).
Proof. exact chacha20_stream. Qed.
Print Assumptions C24_chacha20.
Theorem C24_cipher : forall fresh iv ctr key d msg, (forall n, 0 <= n -> zlen (fresh n) = n) ->
  zlen key = 16 \/ zlen key = 32 -> bytes_ok key -> bytes_ok (iv_of iv) ->
  match iv with None => True | Some s => zlen s = 8 \/ (zlen s = 12 /\ ctr < 2 ^ 24) end ->
  bytes_ok msg -> zlen msg <= max_string_length ->
  exists o, Cipher_chacha20 fresh iv ctr key d = Ret o /\ whole o msg (Ret (ks_xor (chacha20 key ctr (iv_of iv)) 0 msg)).
Proof. exact chacha20_cipher. Qed.
Print Assumptions C24_cipher.
(* the RFC allows every 32-bit counter with a 12-byte IV: counters from 2^24 are refused *)
Theorem C24_all_counters_refuted : exists iv key ctr, zlen iv = 12 /\ zlen key = 32 /\ 0 <= ctr < 2 ^ 32 /\
  forall fresh, new_chacha20 fresh (Some iv) ctr key = Raise (Error Wrong_IV_size).
Proof. exact chacha20_large_counter. Qed.
Print Assumptions C24_all_counters_refuted.
(* RFC 8439, 2.4.2: the first 8 bytes in two calls; and the counter carrying into the
   second word, with an 8-byte IV *)
Example C24_case :
  match new_chacha20 toy_fresh (Some [0;0;0;0;0;0;0;0x4a;0;0;0;0]) 1 (map Z.of_nat (seq 0 32)) with
  | Ret o =>
      snd (sc_run (so_sc o) (so_st o) [SCall [76;97;100] 0 (zeros 3) 0 3; SCall [105;101;115;32;97] 0 (zeros 5) 0 5])
      = [([0x6e;0x2e;0x35], Ret tt); ([0x9a;0x25;0x68;0xf9;0x80], Ret tt)]
  | _ => False
  end /\
  kget_12_13 (chacha20_block (chacha20_init toy_fresh (zeros 16) (zeros 8) (2 ^ 32 - 1))) = (0, 1).
Proof. vm_compute. split; reflexivity. Qed.

(* C25 *)
Theorem C25_arcfour : forall fresh key d d' msg, (forall n, 0 <= n -> zlen (fresh n) = n) -> 1 <= zlen key <= 256 ->
  bytes_ok msg -> zlen msg <= max_string_length ->
  exists o c o', Cipher_arcfour fresh key d = Ret o /\ whole o msg (Ret c) /\ zlen c = zlen msg /\
    Cipher_arcfour fresh key d' = Ret o' /\ whole o' c (Ret msg).
Proof. exact arcfour_involution. Qed.
Print Assumptions C25_arcfour.
Theorem C25_chacha20 : forall fresh iv ctr key d d' msg, (forall n, 0 <= n -> zlen (fresh n) = n) ->
  zlen key = 16 \/ zlen key = 32 -> bytes_ok key -> bytes_ok (iv_of iv) ->
  match iv with None => True | Some s => zlen s = 8 \/ (zlen s = 12 /\ ctr < 2 ^ 24) end ->
  bytes_ok msg -> zlen msg <= max_string_length ->
  exists o c o', Cipher_chacha20 fresh iv ctr key d = Ret o /\ whole o msg (Ret c) /\ zlen c = zlen msg /\
    Cipher_chacha20 fresh iv ctr key d' = Ret o' /\ whole o' c (Ret msg).
Proof. exact chacha20_involution. Qed.
Print Assumptions C25_chacha20.
Example C25_case :
  match Cipher_chacha20 toy_fresh None 5 (zeros 32) Encrypt with
  | Ret o => match run_string o [1;2;3] with
             | Ret c => c <> [1;2;3] /\ run_string o c = Ret [1;2;3]
             | _ => False
             end
  | _ => False
  end.
Proof. vm_compute. split; [discriminate|reflexivity]. Qed.

(* C15, stream ciphers *)
Theorem C15_arcfour_key_size : forall key,
  (1 <= zlen key <= 256 -> exists o, new_arcfour key = Ret o) /\ (~ 1 <= zlen key <= 256 -> new_arcfour key = Raise (Error Wrong_key_size)).
Proof. exact arcfour_key_sizes. Qed.
Print Assumptions C15_arcfour_key_size.
Theorem C15_chacha20_sizes : forall fresh iv ctr key,
  let iv_ok := match iv with None => True | Some s => zlen s = 8 \/ (zlen s = 12 /\ ctr < 2 ^ 24) end in
  (~ (zlen key = 16 \/ zlen key = 32) -> new_chacha20 fresh iv ctr key = Raise (Error Wrong_key_size)) /\
  (zlen key = 16 \/ zlen key = 32 -> ~ iv_ok -> new_chacha20 fresh iv ctr key = Raise (Error Wrong_IV_size)) /\
  (zlen key = 16 \/ zlen key = 32 -> iv_ok -> exists o, new_chacha20 fresh iv ctr key = Ret o).
Proof. exact chacha20_sizes. Qed.
Print Assumptions C15_chacha20_sizes.
(* a 12-byte IV is refused as an IV of the wrong size because of the counter *)
Theorem C15_chacha20_iv_size_refuted : exists iv key ctr, zlen iv = 12 /\ zlen key = 32 /\
  forall fresh, new_chacha20 fresh (Some iv) ctr key = Raise (Error Wrong_IV_size).
Proof. exact chacha20_iv_size. Qed.
Print Assumptions C15_chacha20_iv_size_refuted.
Example C15_stream_case :
  new_arcfour (zeros 257) = Raise (Error Wrong_key_size) /\ new_arcfour [] = Raise (Error Wrong_key_size) /\
  new_chacha20 toy_fresh None 0 (zeros 24) = Raise (Error Wrong_key_size) /\
  new_chacha20 toy_fresh (Some (zeros 9)) 0 (zeros 16) = Raise (Error Wrong_IV_size).
Proof. vm_compute. repeat split. Qed.
