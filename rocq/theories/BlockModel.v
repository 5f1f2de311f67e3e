(* Block ciphers, chaining modes, padding, and their wrapping as transforms:
   cryptokit.ml 440-870. *)
From Verif Require Import Prelude BufOutModel TransformModel.

(* ------------------------------------------------------------------ *)
(* class type block_cipher, cryptokit.ml 492-497.  [transform] returns the
   new state, the new contents of dst, and the outcome. *)
Record block_cipher := {
  bc_st : Type;
  bc_blocksize : Z;
  bc_transform : bc_st -> bytes -> Z -> bytes -> Z -> (bc_st * bytes) * out unit;
  bc_wipe : bc_st -> bc_st }.

(* The external xor_bytes used inside the library (stubs-misc.c
   caml_xor_string, declared cryptokit.ml 77): no bounds check. *)
Definition xor_bytes (src : bytes) (so : Z) (dst : bytes) (d n : Z) : out bytes :=
  if in_range src so n && in_range dst d n
  then Ret (splice dst d (Prelude.xorb (sub src so n) (sub dst d n)))
  else Undef.

(* The six primitive classes aes_encrypt, aes_decrypt, blowfish_encrypt,
   blowfish_decrypt, des, triple_des_* (cryptokit.ml 499-640) have the same
   shape: a bounds check, then the C primitive [prim] run on one block with
   the cooked key as state. *)
Definition raw_cipher (K : Type) (bs : Z) (prim : K -> bytes -> out bytes) (wipe : K -> K)
    : block_cipher := {|
  bc_st := K;
  bc_blocksize := bs;
  bc_transform := fun k src so dst d =>
    if (so <? 0) || (so >? zlen src - bs) || (d <? 0) || (d >? zlen dst - bs)
    then ((k, dst), Raise Invalid_argument)
    else match prim k (sub src so bs) with
         | Ret r => ((k, splice dst d r), Ret tt)
         | Raise e => ((k, dst), Raise e)
         | Undef => ((k, dst), Undef)
         | Hang => ((k, dst), Hang)
         end;
  bc_wipe := wipe |}.

(* ------------------------------------------------------------------ *)
(* Chaining modes, cryptokit.ml 642-766                                 *)

(* make_initial_iv, cryptokit.ml 644-649 *)
Definition make_initial_iv (bs : Z) (iv : option bytes) : out bytes :=
  match iv with
  | None => Ret (zeros bs)
  | Some s => if zlen s =? bs then Ret s else Raise (Error Wrong_IV_size)
  end.

Section Modes.
Variable fresh : Z -> bytes.
Variable C : block_cipher.
Let bs := bc_blocksize C.

(* state of a chaining mode: iv, scratch block (next_iv or out), remaining
   number of calls (ctr only), state of the underlying cipher *)
Record mode_st := MS { ms_iv : bytes; ms_tmp : bytes; ms_max : Z; ms_c : bc_st C }.
Definition set_iv s x := MS x (ms_tmp s) (ms_max s) (ms_c s).
Definition set_tmp s x := MS (ms_iv s) x (ms_max s) (ms_c s).
Definition set_c s x := MS (ms_iv s) (ms_tmp s) (ms_max s) x.
Definition mode_wipe s :=
  MS (zeros (zlen (ms_iv s))) (zeros (zlen (ms_tmp s))) (ms_max s) (bc_wipe C (ms_c s)).

(* the pair (mode state, dst) is threaded through a transform call *)
Let St := (mode_st * bytes)%type.

Definition c_transform_dst (s : St) (src : bytes) (so d : Z) : St * out unit :=
  let r := bc_transform C (ms_c (fst s)) src so (snd s) d in
  ((set_c (fst s) (fst (fst r)), snd (fst r)), snd r).
(* cipher#transform iv 0 out 0 *)
Definition c_transform_iv_tmp (s : St) : St * out unit :=
  let r := bc_transform C (ms_c (fst s)) (ms_iv (fst s)) 0 (ms_tmp (fst s)) 0 in
  ((set_tmp (set_c (fst s) (fst (fst r))) (snd (fst r)), snd s), snd r).
(* cipher#transform iv 0 iv 0 *)
Definition c_transform_iv_iv (s : St) : St * out unit :=
  let r := bc_transform C (ms_c (fst s)) (ms_iv (fst s)) 0 (ms_iv (fst s)) 0 in
  ((set_iv (set_c (fst s) (fst (fst r))) (snd (fst r)), snd s), snd r).

(* store the result of an operation on iv, tmp or dst *)
Definition to_iv (s : St) (r : out bytes) : St * out unit :=
  match r with
  | Ret x => ((set_iv (fst s) x, snd s), Ret tt)
  | Raise e => (s, Raise e) | Undef => (s, Undef) | Hang => (s, Hang) end.
Definition to_tmp (s : St) (r : out bytes) : St * out unit :=
  match r with
  | Ret x => ((set_tmp (fst s) x, snd s), Ret tt)
  | Raise e => (s, Raise e) | Undef => (s, Undef) | Hang => (s, Hang) end.
Definition to_dst (s : St) (r : out bytes) : St * out unit :=
  match r with
  | Ret x => ((fst s, x), Ret tt)
  | Raise e => (s, Raise e) | Undef => (s, Undef) | Hang => (s, Hang) end.

(* class cbc_encrypt, cryptokit.ml 651-663 *)
Definition cbc_encrypt : block_cipher := {|
  bc_st := mode_st; bc_blocksize := bs; bc_wipe := mode_wipe;
  bc_transform := fun m src so dst d =>
    let s := (m, dst) in
    let! (s, u) := to_iv s (xor_bytes src so (ms_iv (fst s)) 0 bs) in
    let! (s, u) := c_transform_dst s (ms_iv (fst s)) 0 d in
    to_iv s (blit (snd s) d (ms_iv (fst s)) 0 bs) |}.

(* class cbc_decrypt, cryptokit.ml 665-680 *)
Definition cbc_decrypt : block_cipher := {|
  bc_st := mode_st; bc_blocksize := bs; bc_wipe := mode_wipe;
  bc_transform := fun m src so dst d =>
    let s := (m, dst) in
    let! (s, u) := to_tmp s (blit src so (ms_tmp (fst s)) 0 bs) in
    let! (s, u) := c_transform_dst s src so d in
    let! (s, u) := to_dst s (xor_bytes (ms_iv (fst s)) 0 (snd s) d bs) in
    to_iv s (blit (ms_tmp (fst s)) 0 (ms_iv (fst s)) 0 bs) |}.

(* class cfb_encrypt, cryptokit.ml 682-699 *)
Definition cfb_encrypt (chunk : Z) : block_cipher := {|
  bc_st := mode_st; bc_blocksize := chunk; bc_wipe := mode_wipe;
  bc_transform := fun m src so dst d =>
    let s := (m, dst) in
    let! (s, u) := c_transform_iv_tmp s in
    let! (s, u) := to_dst s (blit src so (snd s) d chunk) in
    let! (s, u) := to_dst s (xor_bytes (ms_tmp (fst s)) 0 (snd s) d chunk) in
    let! (s, u) := to_iv s (blit (ms_iv (fst s)) chunk (ms_iv (fst s)) 0 (bs - chunk)) in
    to_iv s (blit (snd s) d (ms_iv (fst s)) (bs - chunk) chunk) |}.

(* class cfb_decrypt, cryptokit.ml 701-718 *)
Definition cfb_decrypt (chunk : Z) : block_cipher := {|
  bc_st := mode_st; bc_blocksize := chunk; bc_wipe := mode_wipe;
  bc_transform := fun m src so dst d =>
    let s := (m, dst) in
    let! (s, u) := c_transform_iv_tmp s in
    let! (s, u) := to_iv s (blit (ms_iv (fst s)) chunk (ms_iv (fst s)) 0 (bs - chunk)) in
    let! (s, u) := to_iv s (blit src so (ms_iv (fst s)) (bs - chunk) chunk) in
    let! (s, u) := to_dst s (blit src so (snd s) d chunk) in
    to_dst s (xor_bytes (ms_tmp (fst s)) 0 (snd s) d chunk) |}.

(* class ofb, cryptokit.ml 720-733 *)
Definition ofb (chunk : Z) : block_cipher := {|
  bc_st := mode_st; bc_blocksize := chunk; bc_wipe := mode_wipe;
  bc_transform := fun m src so dst d =>
    let s := (m, dst) in
    let! (s, u) := c_transform_iv_iv s in
    let! (s, u) := to_dst s (blit src so (snd s) d chunk) in
    to_dst s (xor_bytes (ms_iv (fst s)) 0 (snd s) d chunk) |}.

(* increment_counter c lim pos, cryptokit.ml 735-740.  Char.unsafe_chr 0x100
   stored in a byte is 0.  [fuel] bounds the recursion on pos. *)
Fixpoint increment_counter_loop (fuel : nat) (c : bytes) (lim pos : Z) : out bytes :=
  match fuel with
  | O => Hang
  | S f =>
    if pos >=? lim then
      match bytes_get c pos with
      | Ret x =>
        let i := 1 + x in
        match bytes_set c pos (i mod 256) with
        | Ret c' => if i =? 256 then increment_counter_loop f c' lim (pos - 1) else Ret c'
        | r => r
        end
      | Raise e => Raise e | Undef => Undef | Hang => Hang
      end
    else Ret c
  end.
Definition increment_counter (c : bytes) (lim pos : Z) : out bytes :=
  increment_counter_loop (S (S (length c))) c lim pos.

(* class ctr, cryptokit.ml 742-766; [nincr] is the counter width in bytes.
   max_transf is an int64, represented modulo 2^64. *)
Definition ctr_max (nincr : Z) : Z := if nincr <? 8 then 2 ^ (nincr * 8) else 0.

Definition ctr (nincr : Z) : block_cipher := {|
  bc_st := mode_st; bc_blocksize := bs; bc_wipe := mode_wipe;
  bc_transform := fun m src so dst d =>
    let s := (m, dst) in
    let! (s, u) := c_transform_iv_tmp s in
    let! (s, u) := to_dst s (blit src so (snd s) d bs) in
    let! (s, u) := to_dst s (xor_bytes (ms_tmp (fst s)) 0 (snd s) d bs) in
    let! (s, u) := to_iv s (increment_counter (ms_iv (fst s)) (bs - nincr) (bs - 1)) in
    let m := (ms_max (fst s) - 1) mod 2 ^ 64 in
    if m =? 0 then (s, Raise (Error Message_too_long))
    else ((MS (ms_iv (fst s)) (ms_tmp (fst s)) m (ms_c (fst s)), snd s), Ret tt) |}.

(* constructors: initial states (exceptions of make_initial_iv and assert) *)
Definition mode_init (max : Z) (iv : option bytes) (c0 : bc_st C) : out mode_st :=
  olet i := make_initial_iv bs iv in Ret (MS i (fresh bs) max c0).
(* assert (chunksize > 0 && chunksize <= blocksize), 684, 703, 722, 747 *)
Definition chunk_ok (chunk : Z) : bool := (chunk >? 0) && (chunk <=? bs).
Definition chunked_init (chunk max : Z) (iv : option bytes) (c0 : bc_st C) : out mode_st :=
  if chunk_ok chunk then mode_init max iv c0 else Raise Assert_failure.

End Modes.
Arguments MS {C}. Arguments ms_iv {C}. Arguments ms_tmp {C}. Arguments ms_max {C}.
Arguments ms_c {C}.

(* ------------------------------------------------------------------ *)
(* Padding schemes, cryptokit.ml 440-486                                *)

Record scheme := { pad : bytes -> Z -> out bytes; strip : bytes -> out Z }.

(* loop for i = lo to hi (cryptokit.ml 459-461): [cnt] iterations *)
Fixpoint length_check (cnt : nat) (buffer : bytes) (i n : Z) : out unit :=
  match cnt with
  | O => Ret tt
  | S c => match bytes_get buffer i with
           | Ret x => if x =? n then length_check c buffer (i + 1) n
                      else Raise (Error Bad_padding)
           | Raise e => Raise e | Undef => Undef | Hang => Hang
           end
  end.

(* class length, cryptokit.ml 448-463 *)
Definition padding_length : scheme := {|
  pad := fun buffer used =>
    let n := zlen buffer - used in
    if (n >? 0) && (n <? 256) then bytes_fill buffer used n n else Raise Assert_failure;
  strip := fun buffer =>
    let blocksize := zlen buffer in
    olet n := bytes_get buffer (blocksize - 1) in
    if (n =? 0) || (n >? blocksize) then Raise (Error Bad_padding) else
    olet u := length_check (Z.to_nat (n - 1)) buffer (blocksize - n) n in
    Ret (blocksize - n) |}.

(* loop for i = used + 1 to length - 1 (cryptokit.ml 471-473) *)
Fixpoint zero_loop (cnt : nat) (buffer : bytes) (i : Z) : out bytes :=
  match cnt with
  | O => Ret buffer
  | S c => olet b := bytes_set buffer i 0 in zero_loop c b (i + 1)
  end.

(* let rec strip pos, cryptokit.ml 475-480 *)
Fixpoint strip_loop (fuel : nat) (buffer : bytes) (pos : Z) : out Z :=
  match fuel with
  | O => Hang
  | S f =>
    if pos <? 0 then Raise (Error Bad_padding) else
    olet c := bytes_get buffer pos in
    if c =? 128 then Ret pos
    else if c =? 0 then strip_loop f buffer (pos - 1)
    else Raise (Error Bad_padding)
  end.

(* class _8000, cryptokit.ml 467-482 *)
Definition padding_8000 : scheme := {|
  pad := fun buffer used =>
    olet b := bytes_set buffer used 128 in
    zero_loop (Z.to_nat (zlen b - (used + 1))) b (used + 1);
  strip := fun buffer => strip_loop (S (length buffer)) buffer (zlen buffer - 1) |}.

(* ------------------------------------------------------------------ *)
(* Wrapping a block cipher as a transform, cryptokit.ml 770-870         *)

Section Cipher.
Variable fresh : Z -> bytes.
Variable C : block_cipher.
Let bs := bc_blocksize C.

(* instance variables of class cipher and of the inherited buffered_output *)
Record cs := CS { c_ibuf : bytes; c_used : Z; c_bo : bo; c_c : bc_st C }.
Definition set_used s x := CS (c_ibuf s) x (c_bo s) (c_c s).
Definition set_ibuf s x := CS x (c_used s) (c_bo s) (c_c s).
Definition set_bo s x := CS (c_ibuf s) (c_used s) x (c_c s).

(* cryptokit.ml 773-776 *)
Definition cipher_new (c0 : bc_st C) : cs :=
  CS (fresh bs) 0 (bo_new fresh (Z.max 256 (2 * bs))) c0.

(* self#ensure_capacity blocksize; cipher#transform ibuf 0 obuf oend;
   oend <- oend + blocksize (cryptokit.ml 790-792 and repeated below) *)
Definition process_block (s : cs) : cs * out unit :=
  let! (s, u) := lift (set_bo s) (ensure_capacity fresh (c_bo s) bs) in
  let b := c_bo s in
  let r := bc_transform C (c_c s) (c_ibuf s) 0 (obuf b) (oend b) in
  let s := CS (c_ibuf s) (c_used s) (BO (snd (fst r)) (obeg b) (oend b)) (fst (fst r)) in
  let! (s, u) := (s, snd r) in
  (set_bo s (BO (obuf (c_bo s)) (obeg (c_bo s)) (oend (c_bo s) + bs)), Ret tt).

Definition to_ibuf (s : cs) (r : out bytes) : cs * out unit :=
  match r with
  | Ret x => (set_ibuf s x, Ret tt)
  | Raise e => (s, Raise e) | Undef => (s, Undef) | Hang => (s, Hang) end.

(* method put_substring, cryptokit.ml 781-797.  At most one iteration per
   byte of src plus two (the first may only empty a full ibuf). *)
Fixpoint put_loop (fuel : nat) (s : cs) (src : bytes) (ofs len : Z) : cs * out unit :=
  match fuel with
  | O => (s, Hang)
  | S f =>
    if len <=? 0 then (s, Ret tt) else
    if wrap63 (c_used s + len) <=? bs then
      let! (s', u) := to_ibuf s (blit src ofs (c_ibuf s) (c_used s) len) in
      (set_used s' (c_used s' + len), Ret tt)
    else
      let n := bs - c_used s in
      let! (s, u) := to_ibuf s (blit src ofs (c_ibuf s) (c_used s) n) in
      let! (s, u) := process_block s in
      put_loop f (set_used s 0) src (wrap63 (ofs + n)) (wrap63 (len - n))
  end.
Definition cipher_put_substring (s : cs) (src : bytes) (ofs len : Z) : cs * out unit :=
  put_loop (S (S (S (length src)))) s src ofs len.

(* method put_char, cryptokit.ml 802-812 *)
Definition cipher_put_char (s : cs) (c : Z) : cs * out unit :=
  if c_used s <? bs then
    let! (s, u) := to_ibuf s (bytes_set (c_ibuf s) (c_used s) c) in
    (set_used s (c_used s + 1), Ret tt)
  else
    let! (s, u) := process_block s in
    let! (s, u) := to_ibuf s (bytes_set (c_ibuf s) 0 c) in
    (set_used s 1, Ret tt).

(* method flush, cryptokit.ml 822-830 *)
Definition cipher_flush (s : cs) : cs * out unit :=
  if c_used s =? 0 then (s, Ret tt)
  else if c_used s =? bs then
    let! (s, u) := process_block s in (set_used s 0, Ret tt)
  else (s, Raise (Error Wrong_data_length)).

(* class cipher, cryptokit.ml 770-834.  put_byte stores the low byte of its
   argument (Char.unsafe_chr, 814-815). *)
Definition cipher_with_finish (fin : cs -> cs * out unit) : transform := {|
  t_st := cs;
  t_put_substring := cipher_put_substring;
  t_put_string := fun s str => cipher_put_substring s str 0 (zlen str);
  t_put_char := cipher_put_char;
  t_put_byte := fun s n => cipher_put_char s (n mod 256);
  t_flush := cipher_flush;
  t_finish := fin;
  t_available := fun s => bo_available (c_bo s);
  t_get_string := fun s => lift (set_bo s) (bo_get_string (c_bo s));
  t_get_substring := fun s => lift (set_bo s) (bo_get_substring (c_bo s));
  t_get_char := fun s => lift (set_bo s) (bo_get_char (c_bo s));
  t_get_byte := fun s => lift (set_bo s) (bo_get_char (c_bo s));
  t_wipe := fun s =>
    (CS (zeros (zlen (c_ibuf s))) (c_used s) (bo_wipe (c_bo s)) (bc_wipe C (c_c s)), Ret tt) |}.

Definition cipher : transform := cipher_with_finish cipher_flush.

(* class cipher_padded_encrypt, finish: cryptokit.ml 844-855 *)
Definition padded_encrypt_finish (p : scheme) (s : cs) : cs * out unit :=
  let! (s, u) :=
    if c_used s >=? bs then
      let! (s, u) := process_block s in (set_used s 0, Ret tt)
    else (s, Ret tt) in
  let! (s, u) := to_ibuf s (pad p (c_ibuf s) (c_used s)) in
  process_block s.
Definition cipher_padded_encrypt (p : scheme) : transform :=
  cipher_with_finish (padded_encrypt_finish p).

(* class cipher_padded_decrypt, finish: cryptokit.ml 864-871 *)
Definition padded_decrypt_finish (p : scheme) (s : cs) : cs * out unit :=
  if negb (c_used s =? bs) then (s, Raise (Error Wrong_data_length)) else
  let r := bc_transform C (c_c s) (c_ibuf s) 0 (c_ibuf s) 0 in
  let s := CS (snd (fst r)) (c_used s) (c_bo s) (fst (fst r)) in
  let! (s, u) := (s, snd r) in
  let! (s, valid) := (s, strip p (c_ibuf s)) in
  let! (s, u) := lift (set_bo s) (ensure_capacity fresh (c_bo s) valid) in
  let b := c_bo s in
  let! (s, ob) := (s, blit (c_ibuf s) 0 (obuf b) (oend b) valid) in
  (set_bo s (BO ob (obeg b) (oend b + valid)), Ret tt).
Definition cipher_padded_decrypt (p : scheme) : transform :=
  cipher_with_finish (padded_decrypt_finish p).

End Cipher.
