(* C89: input that is refused, and integers that are not bytes. *)
From Verif Require Import Prelude SpecTransducer SpecEnc TransformModel CipherModel EncModel StreamModel HashModel AuthModel ZlibModel ShaModel SpecWipe SpecWipe2 EncLawful SpecRefuse
  Refuse Toy.

(* C89.  The encodings, when the calls go on after exceptions: each object behaves as its transducer, whose state after an exception is
   that after the characters accepted before *)
Theorem C89_encodings : forall fresh, (forall n, 0 <= n -> zlen (fresh n) = n) -> forall ops, Forall any_valid ops ->
  2 * given ops + 9 * (zlen ops + 1) + 2 <= max_string_length ->
  (forall ml pad, all_obs (base64_encode_obj fresh ml pad) ops = spec_all (b64e_mealy ml pad) ([], 0) [] ops) /\
  all_obs (base64_decode_obj fresh) ops = spec_all b64d_mealy ([], false) [] ops /\
  all_obs (hexa_encode_obj fresh) ops = spec_all hexe_mealy tt [] ops /\
  all_obs (hexa_decode_obj fresh) ops = spec_all hexd_mealy [] [] ops.
Proof. exact encodings_all. Qed.
Print Assumptions C89_encodings.

(* for hexadecimal text without reference to the transducer: strings given one after the other, exceptions ignored *)
Theorem C89_hexa_strings : forall fresh ts, (forall n, 0 <= n -> zlen (fresh n) = n) -> Forall bytes_ok ts -> 2 * zlen (concat ts) + 2 * zlen ts + 10 <= max_string_length ->
  all_obs (hexa_decode_obj fresh) (map PutString ts ++ [GetString]) =
  map (fun t => if forallb hex_ok t then OUnit else OExn (Error Bad_encoding)) ts ++ [OBytes (pairs (digits (concat (map accepted ts))))].
Proof. exact hexd_refuses. Qed.
Print Assumptions C89_hexa_strings.

(* "4a!41", "7-", "B" give 4a and 7b *)
Example C89_hexa_case : all_obs (hexa_decode_obj toy_fresh) (map PutString [[52; 97; 33; 52; 49]; [55; 45]; [66]] ++ [GetString]) =
  [OExn (Error Bad_encoding); OExn (Error Bad_encoding); OUnit; OBytes [74; 123]].
Proof. vm_compute. reflexivity. Qed.
(* a text that is refused at '!' and goes on; put_byte 256 and -191 are refused and leave no trace; 'Z' 'm' '9' 'v' *)
Example C89_base64_case :
  all_obs (base64_decode_obj toy_fresh) [PutString [90; 109; 33; 65; 65]; PutByte 256; PutByte 57; PutByte (-191); PutChar 118; GetString; PutChar 61; PutChar 65; Finish; GetString] =
  [OExn (Error Bad_encoding); OExn Invalid_argument; OUnit; OExn Invalid_argument; OUnit; OBytes [102; 111; 111]; OUnit; OExn (Error Bad_encoding); OUnit; OBytes []] /\
  all_obs (hexa_encode_obj toy_fresh) [PutByte 300; PutByte (-1); PutByte 171; GetString] = [OExn Invalid_argument; OExn Invalid_argument; OUnit; OBytes [97; 98]].
Proof. vm_compute. split; reflexivity. Qed.

(* zlib: for every behaviour of the library, put_byte of an integer that is not a byte raises and has no effect on the other calls *)
Theorem C89_zlib : forall fresh zs zlib zend fuel s l1 l2 n, is_byte n = false ->
  (let T := compress fresh zs zlib zend fuel in snd (w_run T s (l1 ++ Call (PutByte n) :: l2)) = snd (w_run T s l1) ++ OExn Invalid_argument :: skipn (length l1) (snd (w_run T s (l1 ++ l2)))) /\
  (let T := uncompress fresh zs zlib zend fuel in snd (w_run T s (l1 ++ Call (PutByte n) :: l2)) = snd (w_run T s l1) ++ OExn Invalid_argument :: skipn (length l1) (snd (w_run T s (l1 ++ l2)))).
Proof. exact zlib_refuses. Qed.
Print Assumptions C89_zlib.

(* the ciphers, the hashes and MACs and the authenticated transforms take the low 8 bits of any integer, whatever the other calls, wipe included *)
Theorem C89_ciphers : forall fresh o l, cipher_first fresh o -> w_run (o_tr o) (o_st o) l = w_run (o_tr o) (o_st o) (map wlow l).
Proof. exact cipher_low. Qed.
Print Assumptions C89_ciphers.
Theorem C89_hashes : forall fresh o l, any_hash fresh o -> h_run (ho_class o) (ho_st o) l = h_run (ho_class o) (ho_st o) (map hlow l).
Proof. exact hash_low. Qed.
Print Assumptions C89_hashes.
Theorem C89_authenticated : forall fresh o l, any_auth fresh o -> a_run (ao_class o) (ao_st o) l = a_run (ao_class o) (ao_st o) (map alow l).
Proof. exact auth_low. Qed.
Print Assumptions C89_authenticated.

(* RC4 with the key "Key": put_byte 336 is put_char 'P' *)
Example C89_low_case :
  (olet o := Cipher_arcfour toy_fresh [75; 101; 121] Encrypt in Ret (snd (w_run (o_tr o) (o_st o) (map Call [PutByte 336; PutByte (-148); GetString])))) =
    Ret [OUnit; OUnit; OBytes [187; 243]] /\ 336 mod 256 = 80 /\ -148 mod 256 = 108.
Proof. vm_compute. repeat split; reflexivity. Qed.
