(* Calls on authenticated transforms, wipe included; the objects of the library and their compositions. *)
From Verif Require Import Prelude SpecTransducer TransformModel BlockModel CipherModel EncModel HashModel MacModel AuthModel AeadModel PolyModel CipherSpec
  DesModel StreamModel Blake2Model SipModel KeccakModel SpecWipe WipeApi AeadApi.

Inductive aop := ACall (o : op) | AFinish | AWipe.
(* authenticated transforms have neither flush nor finish *)
Definition aop_possible (w : aop) : Prop := match w with ACall o => op_possible o /\ o <> Flush /\ o <> Finish | _ => True end.
Definition a_step (a : auth) (s : a_st a) (w : aop) : a_st a * obs :=
  match w with ACall o => t_step (data_view a) s o | AFinish => bytes_obs (a_finish a s) | AWipe => unit_obs (a_wipe a s) end.
Fixpoint a_run (a : auth) (s : a_st a) (l : list aop) : a_st a * list obs :=
  match l with
  | [] => (s, [])
  | w :: l' => let (s1, ob) := a_step a s w in let (s2, obs) := a_run a s1 l' in (s2, ob :: obs)
  end.
(* no call reads or writes outside a buffer; w = false: as long as wipe is not called *)
Definition auth_memory_safe (w : bool) (a : auth) (s : a_st a) : Prop :=
  forall l, Forall aop_possible l -> w = true \/ ~ In AWipe l -> ~ In OUndef (snd (a_run a s l)).
(* the same, for calls of put_substring whose range is inside the buffer given *)
Definition aop_in_range (x : aop) : Prop := match x with ACall (PutSubstring b ofs len) => 0 <= ofs /\ 0 <= len /\ ofs + len <= zlen b | _ => True end.
Definition auth_safe_in_range (a : auth) (s : a_st a) : Prop :=
  forall l, Forall aop_possible l -> Forall aop_in_range l -> ~ In OUndef (snd (a_run a s l)).
Definition transform_memory_safe (w : bool) (T : transform) (s : t_st T) : Prop :=
  forall l, Forall wop_possible l -> w = true \/ ~ In Wipe l -> ~ In OUndef (snd (w_run T s l)).

Definition hash_safe (w : bool) (H : hash) (s : h_st H) : Prop :=
  forall l, Forall hop_possible l -> w = true \/ ~ In HWipe l -> ~ In OUndef (snd (h_run H s l)).

(* The transforms of the library and their compositions (zlib apart); w = true: those without AES, whose wipe makes later calls go wrong
   (C66_aes_wiped). *)
Inductive lib_tr (fresh : Z -> bytes) (w : bool) : tobj -> Prop :=
  | LW_feistel nb m p iv key d o : feistel_class nb -> make_cipher fresh nb m (option_map scheme_of p) iv key d = Ret o -> lib_tr fresh w o
  | LW_aes nb m p iv key d o : w = false -> rijndael_class fresh nb -> bytes_ok key -> make_cipher fresh nb m (option_map scheme_of p) iv key d = Ret o -> lib_tr fresh w o
  | LW_arcfour key d o : Cipher_arcfour fresh key d = Ret o -> lib_tr fresh w o
  | LW_chacha iv ctr key d o : Cipher_chacha20 fresh iv ctr key d = Ret o -> lib_tr fresh w o
  | LW_b64e ml pad : lib_tr fresh w (TObj (base64_encode fresh ml pad) (base64_encode_new fresh))
  | LW_b64d : lib_tr fresh w (TObj (base64_decode fresh) (base64_decode_new fresh))
  | LW_hexe : lib_tr fresh w (TObj (hexa_encode fresh) (hexa_encode_new fresh))
  | LW_hexd : lib_tr fresh w (TObj (hexa_decode fresh) (hexa_decode_new fresh))
  | LW_compose o1 o2 : lib_tr fresh w o1 -> lib_tr fresh w o2 -> lib_tr fresh w (TObj (compose (o_tr o1) (o_tr o2)) (o_st o1, o_st o2)).
(* The hashes and MACs of the library (MD5 and BLAKE3 apart); w = true: those without AES and SHA-3 *)
Inductive lib_h (fresh : Z -> bytes) (w : bool) : hobj -> Prop :=
  | LH_md o B : md_object fresh o B -> lib_h fresh w o
  | LH_hmac o B key m : md_object fresh o B -> zlen key <= max_string_length -> hmac_of o B key = Ret m -> lib_h fresh w m
  | LH_blake2 sz key o : blake2b_obj fresh sz key = Ret o \/ blake2s_obj fresh sz key = Ret o -> lib_h fresh w o
  | LH_sip sz key o : siphash_new fresh sz key = Ret o -> lib_h fresh w o
  | LH_mac nb iv p key o : feistel_class nb -> block_mac fresh (nb Encrypt) iv (option_map scheme_of p) key = Ret o -> lib_h fresh w o
  | LH_des3 iv p key o : des_final_triple_des fresh new_des iv (option_map scheme_of p) key = Ret o -> lib_h fresh w o
  | LH_aes nb iv p key o : w = false -> rijndael_class fresh nb -> bytes_ok key ->
      block_mac fresh (nb Encrypt) iv (option_map scheme_of p) key = Ret o \/ aes_cmac fresh (nb Encrypt) iv key = Ret o -> lib_h fresh w o
  | LH_sha3 sz b o : w = false -> sha3_new fresh sz b = Ret o -> lib_h fresh w o.
(* The authenticated transforms of the library (decryption with ChaCha20-Poly1305 apart); w = true: those without AES *)
Inductive lib_auth (fresh : Z -> bytes) (w : bool) : aobj -> Prop :=
  | LA_then tr h : lib_tr fresh w tr -> lib_h fresh w h -> lib_auth fresh w (new_transform_then_hash fresh tr h)
  | LA_and tr h : lib_tr fresh w tr -> lib_h fresh w h -> lib_auth fresh w (new_transform_and_hash tr h)
  | LA_chapoly P header iv key o : poly_class P -> zlen header <= max_string_length -> chacha20_poly1305 fresh P header iv key Encrypt = Ret o -> lib_auth fresh w o
  | LA_gcm accel nb header iv key d o : w = false -> aes_class fresh nb -> bytes_ok key -> aes_gcm fresh accel nb header iv key d = Ret o -> lib_auth fresh w o.

(* an object, all its fields included, after calls *)
Definition h_after (o : hobj) (l : list hop) : hobj := HObj (ho_class o) (fst (h_run (ho_class o) (ho_st o) l)).
Definition a_after (o : aobj) (l : list aop) : aobj := AObj (ao_class o) (fst (a_run (ao_class o) (ao_st o) l)).
(* compose of two transforms *)
Definition composed (o1 o2 : tobj) : tobj := TObj (compose (o_tr o1) (o_tr o2)) (o_st o1, o_st o2).

(* the object has had calls other than wipe, then wipe *)
Definition used_and_wiped (T : transform) (s s' : t_st T) : Prop := exists l, Forall wop_possible l /\ ~ In Wipe l /\ s' = fst (w_run T s (l ++ [Wipe])).
Definition h_used_and_wiped (H : hash) (s s' : h_st H) : Prop := exists l, Forall hop_possible l /\ ~ In HWipe l /\ s' = fst (h_run H s (l ++ [HWipe])).

(* the bytes of a call are bytes; the bytes a call adds to the message: none if its range is refused *)
Definition hop_chars (o : hop) : Prop :=
  match o with AddSubstring b _ _ => bytes_ok b | AddString s => bytes_ok s | AddChar c => byte_ok c | _ => True end.
Definition hop_fed (o : hop) : bytes :=
  match o with
  | AddSubstring b ofs len => if in_range b ofs len then sub b ofs len else []
  | AddString s => s
  | AddChar c => [c]
  | AddByte n => [n mod 256]
  | Result | HWipe => []
  end.
Definition fed (l : list hop) : bytes := concat (map hop_fed l).
