(* Calls on a transducer that goes on after exceptions; integers given for bytes; hexadecimal digits in pairs. *)
From Verif Require Import Prelude SpecTransducer SpecEnc SpecWipe SpecWipe2 TransformModel CipherModel EncModel StreamModel HashModel AuthModel MacModel DesModel Blake2Model SipModel KeccakModel
  Blake3Model Md5Model AeadModel PolyModel WipeApi.

(* the arguments are those of op_valid, and put_byte is given any integer *)
Definition any_valid (o : op) : Prop := match o with PutByte n => is_int n | _ => op_valid o end.
Definition is_byte (n : Z) : bool := (0 <=? n) && (n <? 256).
(* put_byte of an integer that is not a byte is refused, and changes nothing *)
Definition spec_any (M : mealy) (sg : m_st M) (q : bytes) (o : op) : (m_st M * bytes) * obs :=
  match o with
  | PutByte n => if is_byte n then spec_step M sg q o else (sg, q, OExn Invalid_argument)
  | _ => spec_step M sg q o
  end.
(* the calls go on after an exception, in the state in which it has left the transducer *)
Fixpoint spec_all (M : mealy) (sg : m_st M) (q : bytes) (ops : list op) : list obs :=
  match ops with
  | [] => []
  | o :: r => let '(sg', q', ob) := spec_any M sg q o in ob :: spec_all M sg' q' r
  end.
Definition all_obs (o : tobj) (ops : list op) : list obs := snd (w_run (o_tr o) (o_st o) (map Call ops)).
Definition given (ops : list op) : Z := fold_right (fun o n => zlen (op_data o) + n) 0 ops.

(* characters accepted in hexadecimal text, up to the first other one *)
Definition hex_ok (c : Z) : bool := blank c || match hex_value c with Some _ => true | None => false end.
Fixpoint accepted (t : bytes) : bytes := match t with [] => [] | c :: r => if hex_ok c then c :: accepted r else [] end.
(* the values of the digits *)
Definition digits (t : bytes) : list Z := flat_map (fun c => match hex_value c with Some v => [v] | None => [] end) t.
Fixpoint pairs (l : list Z) : bytes := match l with a :: b :: r => a * 16 + b :: pairs r | _ => [] end.

(* put_byte and add_byte replaced by put_char and add_char of the low 8 bits *)
Definition low (o : op) : op := match o with PutByte n => PutChar (n mod 256) | _ => o end.
Definition wlow (w : wop) : wop := match w with Call o => Call (low o) | Wipe => Wipe end.
Definition hlow (o : hop) : hop := match o with AddByte n => AddChar (n mod 256) | _ => o end.
Definition alow (w : aop) : aop := match w with ACall o => ACall (low o) | _ => w end.

(* the block ciphers in any mode and the stream ciphers, and what is composed after them *)
Inductive cipher_first (fresh : Z -> bytes) : tobj -> Prop :=
  | CF_block nb m p iv key d o : make_cipher fresh nb m p iv key d = Ret o -> cipher_first fresh o
  | CF_arcfour key d o : Cipher_arcfour fresh key d = Ret o -> cipher_first fresh o
  | CF_chacha iv ctr key d o : Cipher_chacha20 fresh iv ctr key d = Ret o -> cipher_first fresh o
  | CF_compose o1 o2 : cipher_first fresh o1 -> cipher_first fresh (composed o1 o2).

(* the hashes and MACs *)
Inductive any_hash (fresh : Z -> bytes) : hobj -> Prop :=
  | AH_md o B : md_object fresh o B -> any_hash fresh o
  | AH_md5 rt : any_hash fresh (md5_obj rt)
  | AH_hmac o B key m : any_hash fresh o -> hmac_of o B key = Ret m -> any_hash fresh m
  | AH_blake2 sz key o : blake2b_obj fresh sz key = Ret o \/ blake2s_obj fresh sz key = Ret o -> any_hash fresh o
  | AH_blake3 sz key o : blake3_obj key sz = Ret o -> any_hash fresh o
  | AH_sha3 sz b o : sha3_new fresh sz b = Ret o -> any_hash fresh o
  | AH_sip sz key o : siphash_new fresh sz key = Ret o -> any_hash fresh o
  | AH_mac nb iv p key o : block_mac fresh nb iv p key = Ret o -> any_hash fresh o
  | AH_des3 nb iv p key o : des_final_triple_des fresh nb iv p key = Ret o -> any_hash fresh o
  | AH_cmac nb iv key o : aes_cmac fresh nb iv key = Ret o -> any_hash fresh o.
(* the authenticated transforms *)
Inductive any_auth (fresh : Z -> bytes) : aobj -> Prop :=
  | AA_then tr h : cipher_first fresh tr -> any_auth fresh (new_transform_then_hash fresh tr h)
  | AA_and tr h : cipher_first fresh tr -> any_hash fresh h -> any_auth fresh (new_transform_and_hash tr h)
  | AA_gcm accel nb header iv key d o : aes_gcm fresh accel nb header iv key d = Ret o -> any_auth fresh o
  | AA_chapoly P header iv key d o : chacha20_poly1305 fresh P header iv key d = Ret o -> any_auth fresh o.
