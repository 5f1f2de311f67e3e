(* Module AEAD: cryptokit.ml 1534-1809. *)
From Verif Require Import Prelude BytesNum BufOutModel TransformModel BlockModel CipherModel EncModel StreamModel
  PolyModel GhashModel AuthModel.

(* Bytes.set_int64_be and Bytes.set_int64_le (stdlib): range check, then the
   64 low bits *)
Definition set_int64_be (b : bytes) (o v : Z) : out bytes :=
  if in_range b o 8 then Ret (splice b o (to_be 8 (v mod 2 ^ 64))) else Raise Invalid_argument.
Definition set_int64_le (b : bytes) (o v : Z) : out bytes :=
  if in_range b o 8 then Ret (splice b o (to_le 8 (v mod 2 ^ 64))) else Raise Invalid_argument.

(* ---- AES-GCM ---- *)

(* ghash_block, ghash_block_s, cryptokit.ml 1553-1559: the new contents of mac *)
Definition ghash_block (h : ghash_ctx) (mac buf : bytes) (ofs len : Z) : out bytes :=
  olet mac := xor_bytes buf ofs mac 0 len in ghash_mult h mac.

(* ghash_string, cryptokit.ml 1564-1573; at most one iteration per byte *)
Fixpoint ghash_string_loop (fuel : nat) (h : ghash_ctx) (mac msg : bytes) (i : Z) : out bytes :=
  match fuel with
  | O => Hang
  | S f =>
      if i + 16 <=? zlen msg then
        olet mac := ghash_block h mac msg i 16 in ghash_string_loop f h mac msg (i + 16)
      else if i <? zlen msg then ghash_block h mac msg i (zlen msg - i)
      else Ret mac
  end.
Definition ghash_string (h : ghash_ctx) (msg : bytes) : out bytes :=
  ghash_string_loop (S (length msg)) h (zeros 16) msg 0.

Section Gcm.
Variable fresh : Z -> bytes.

(* ghash_final, cryptokit.ml 1577-1586; the lengths are int64.  Returns the
   new contents of mac and the tag. *)
Definition ghash_final (h : ghash_ctx) (mac : bytes) (headerlen cipherlen : Z) (e0 : bytes) : out (bytes * bytes) :=
  let buf := fresh 16 in
  olet buf := set_int64_be buf 0 (headerlen * 8) in
  olet buf := set_int64_be buf 8 (cipherlen * 8) in
  olet mac := ghash_block h mac buf 0 16 in
  olet buf := blit mac 0 buf 0 16 in
  olet buf := xor_bytes e0 0 buf 0 16 in
  Ret (mac, buf).

(* counter0, cryptokit.ml 1590-1599 *)
Definition counter0 (h : ghash_ctx) (iv : bytes) : out bytes :=
  if zlen iv =? 12 then Ret (iv ++ [0; 0; 0; 1])
  else
    olet mac := ghash_string h iv in
    olet buf := set_int64_be (zeros 16) 8 (zlen iv * 8) in
    ghash_block h mac buf 0 16.

(* the block cipher, aes *)
Variable A : block_cipher.

(* ghash_multiplier, cryptokit.ml 1543-1546.  [accel]: the processor has
   PCLMULQDQ. *)
Definition ghash_multiplier (accel : bool) (aes : bc_st A) : bc_st A * out ghash_ctx :=
  let r := bc_transform A aes (zeros 16) 0 (zeros 16) 0 in
  let! (aes, u) := (fst (fst r), snd r) in
  (aes, ghash_init accel (snd (fst r))).

(* enc_initial_counter, cryptokit.ml 1603-1606 *)
Definition enc_initial_counter (aes : bc_st A) (ctr : bytes) : bc_st A * out bytes :=
  let r := bc_transform A aes ctr 0 (fresh 16) 0 in
  let! (aes, u) := (fst (fst r), snd r) in
  (aes, Ret (snd (fst r))).

(* what the closures of the classes share: the cipher, the counter, the
   buffer buf of the wrapper, the running MAC, the length (an int64) *)
Record gst := GST { g_aes : bc_st A; g_ctr : bytes; g_buf : bytes; g_mac : bytes; g_clen : Z }.

Definition to_ctr {X} (s : gst * X) (r : out bytes) : (gst * X) * out unit :=
  match r with
  | Ret x => ((GST (g_aes (fst s)) x (g_buf (fst s)) (g_mac (fst s)) (g_clen (fst s)), snd s), Ret tt)
  | Raise e => (s, Raise e) | Undef => (s, Undef) | Hang => (s, Hang) end.
Definition to_buf {X} (s : gst * X) (r : out bytes) : (gst * X) * out unit :=
  match r with
  | Ret x => ((GST (g_aes (fst s)) (g_ctr (fst s)) x (g_mac (fst s)) (g_clen (fst s)), snd s), Ret tt)
  | Raise e => (s, Raise e) | Undef => (s, Undef) | Hang => (s, Hang) end.
Definition to_mac {X} (s : gst * X) (r : out bytes) : (gst * X) * out unit :=
  match r with
  | Ret x => ((GST (g_aes (fst s)) (g_ctr (fst s)) (g_buf (fst s)) x (g_clen (fst s)), snd s), Ret tt)
  | Raise e => (s, Raise e) | Undef => (s, Undef) | Hang => (s, Hang) end.
Definition to_dst (s : gst * bytes) (r : out bytes) : (gst * bytes) * out unit :=
  match r with
  | Ret x => ((fst s, x), Ret tt)
  | Raise e => (s, Raise e) | Undef => (s, Undef) | Hang => (s, Hang) end.
Definition add_clen (s : gst) (n : Z) : gst :=
  GST (g_aes s) (g_ctr s) (g_buf s) (g_mac s) ((g_clen s + n) mod 2 ^ 64).

(* ctr_enc_dec, cryptokit.ml 1610-1614: the state carries ctr, buf and the
   destination *)
Definition ctr_enc_dec (s : gst * bytes) (src : bytes) (soff doff len : Z) : (gst * bytes) * out unit :=
  let! (s, u) := to_ctr s (increment_counter (g_ctr (fst s)) 12 15) in
  let r := bc_transform A (g_aes (fst s)) (g_ctr (fst s)) 0 (g_buf (fst s)) 0 in
  let! (s, u) := ((GST (fst (fst r)) (g_ctr (fst s)) (snd (fst r)) (g_mac (fst s)) (g_clen (fst s)), snd s), snd r) in
  let! (s, u) := to_buf s (xor_bytes src soff (g_buf (fst s)) 0 len) in
  to_dst s (blit (g_buf (fst s)) 0 (snd s) doff len).

Definition gcm_wipe (s : gst) : gst := GST (bc_wipe A (g_aes s)) (g_ctr s) (g_buf s) (g_mac s) (g_clen s).
(* !cipherlen > 0xfffffffe0L, a comparison of signed int64 *)
Definition signed64 (x : Z) : Z := if x <? 2 ^ 63 then x else x - 2 ^ 64.
Definition gcm_check (s : gst * bytes) : (gst * bytes) * out unit :=
  if signed64 (g_clen (fst s)) >? 0xfffffffe0 then (s, Raise (Error Message_too_long)) else (s, Ret tt).

(* enc_wrapped, cryptokit.ml 1635-1645 *)
Definition gcm_enc_wrapped (h : ghash_ctx) : block_cipher := {|
  bc_st := gst; bc_blocksize := 16; bc_wipe := gcm_wipe;
  bc_transform := fun m src so dst d =>
    let! (s, u) := ctr_enc_dec (m, dst) src so d 16 in
    let! (s, u) := to_mac s (ghash_block h (g_mac (fst s)) (snd s) d 16) in
    gcm_check (add_clen (fst s) 16, snd s) |}.
(* dec_wrapped, cryptokit.ml 1686-1695 *)
Definition gcm_dec_wrapped (h : ghash_ctx) : block_cipher := {|
  bc_st := gst; bc_blocksize := 16; bc_wipe := gcm_wipe;
  bc_transform := fun m src so dst d =>
    let s := (m, dst) in
    let! (s, u) := to_mac s (ghash_block h (g_mac (fst s)) src so 16) in
    let! (s, u) := ctr_enc_dec s src so d 16 in
    ((add_clen (fst s) 16, snd s), Ret tt) |}.

(* finish_and_get_tag works on the state of Block.cipher.  [on_obuf] runs f
   on the shared variables and obuf; the local buf of the method is put in
   place of the one of the wrapper meanwhile. *)
Section Finish.
Variable C : block_cipher.
Variables (get : bc_st C -> gst) (put : gst -> bc_st C).
Definition on_obuf (s : cs C) (f : gst * bytes -> (gst * bytes) * out unit) : cs C * out unit :=
  let g := get (c_c C s) in
  let b := c_bo C s in
  let r := f (GST (g_aes g) (g_ctr g) (fresh 16) (g_mac g) (g_clen g), obuf b) in
  let g' := fst (fst r) in
  (CS C (c_ibuf C s) (c_used C s) (BO (snd (fst r)) (obeg b) (oend b))
     (put (GST (g_aes g') (g_ctr g') (g_buf g) (g_mac g') (g_clen g'))), snd r).
Definition gcm_tag (h : ghash_ctx) (headerlen : Z) (e0 : bytes) (s : cs C) : cs C * out bytes :=
  let g := get (c_c C s) in
  match ghash_final h (g_mac g) headerlen (g_clen g) e0 with
  | Ret (mac, tag) =>
      (CS C (c_ibuf C s) (c_used C s) (c_bo C s) (put (GST (g_aes g) (g_ctr g) (g_buf g) mac (g_clen g))), Ret tag)
  | Raise e => (s, Raise e) | Undef => (s, Undef) | Hang => (s, Hang)
  end.
Definition adv_oend (s : cs C) (n : Z) : cs C :=
  set_bo C s (BO (obuf (c_bo C s)) (obeg (c_bo C s)) (oend (c_bo C s) + n)).

(* aes_gcm_encrypt#finish_and_get_tag, cryptokit.ml 1651-1664 *)
Definition gcm_enc_finish (h : ghash_ctx) (headerlen : Z) (e0 : bytes) (s : cs C) : cs C * out bytes :=
  let! (s, u) :=
    if c_used C s >? 0 then
      let! (s, u) := lift (set_bo C s) (ensure_capacity fresh (c_bo C s) (c_used C s)) in
      let! (s, u) := on_obuf s (fun x =>
        let! (x, u) := ctr_enc_dec x (c_ibuf C s) 0 (oend (c_bo C s)) (c_used C s) in
        to_mac x (ghash_block h (g_mac (fst x)) (snd x) (oend (c_bo C s)) (c_used C s))) in
      let s := adv_oend s (c_used C s) in
      on_obuf s (fun x => gcm_check (add_clen (fst x) (c_used C s), snd x))
    else (s, Ret tt) in
  gcm_tag h headerlen e0 s.
(* aes_gcm_decrypt#finish_and_get_tag, cryptokit.ml 1701-1713 *)
Definition gcm_dec_finish (h : ghash_ctx) (headerlen : Z) (e0 : bytes) (s : cs C) : cs C * out bytes :=
  let! (s, u) :=
    if c_used C s >? 0 then
      let! (s, u) := on_obuf s (fun x => to_mac x (ghash_block h (g_mac (fst x)) (c_ibuf C s) 0 (c_used C s))) in
      let! (s, u) := lift (set_bo C s) (ensure_capacity fresh (c_bo C s) (c_used C s)) in
      let! (s, u) := on_obuf s (fun x => ctr_enc_dec x (c_ibuf C s) 0 (oend (c_bo C s)) (c_used C s)) in
      let s := adv_oend s (c_used C s) in
      on_obuf s (fun x => ((add_clen (fst x) (c_used C s), snd x), Ret tt))
    else (s, Ret tt) in
  gcm_tag h headerlen e0 s.
End Finish.

(* class aes_gcm_encrypt and class aes_gcm_decrypt, the let's before the
   object: cryptokit.ml 1616-1634, 1667-1685 *)
Definition gcm_setup (accel : bool) (header iv : bytes) (aes : bc_st A) : out (ghash_ctx * bytes * gst) :=
  olet h := snd (ghash_multiplier accel aes) in
  let aes := fst (ghash_multiplier accel aes) in
  olet ctr := counter0 h iv in
  olet e0 := snd (enc_initial_counter aes ctr) in
  let aes := fst (enc_initial_counter aes ctr) in
  olet mac := ghash_string h header in
  Ret (h, e0, GST aes ctr (fresh 16) mac 0).
End Gcm.
Arguments GST {A}. Arguments g_aes {A}. Arguments g_ctr {A}. Arguments g_buf {A}. Arguments g_mac {A}. Arguments g_clen {A}.

(* the objects, and let aes_gcm, cryptokit.ml 1716-1719; [new_block] is the
   class Block.aes_encrypt; header is "" if not given *)
Definition aes_gcm (fresh : Z -> bytes) (accel : bool) (new_block : bytes -> out bobj)
    (header iv key : bytes) (d : dir) : out aobj :=
  olet aes := new_block key in
  let A := b_bc aes in
  olet r := gcm_setup fresh A accel header iv (b_st aes) in
  let '(h, e0, g) := r in
  Ret (match d with
       | Encrypt =>
           let C := gcm_enc_wrapped A h in
           AObj (auth_of (cipher fresh C) 16 (gcm_enc_finish fresh A C (fun x => x) (fun x => x) h (zlen header) e0))
                (cipher_new fresh C g)
       | Decrypt =>
           let C := gcm_dec_wrapped A h in
           AObj (auth_of (cipher fresh C) 16 (gcm_dec_finish fresh A C (fun x => x) (fun x => x) h (zlen header) e0))
                (cipher_new fresh C g)
       end).

(* ---- ChaCha20-Poly1305 ---- *)
Section ChaPoly.
Variable fresh : Z -> bytes.
Variable P : poly_impl.
Notation pctx := (pctx P).

(* poly1305_update_pad, cryptokit.ml 1723-1725 *)
Definition poly1305_update_pad (c : pctx) (n : Z) : pctx * out unit :=
  let n := Z.land (16 - n) 15 in
  if n >? 0 then poly1305_update P c (zeros n) 0 n else (c, Ret tt).

Variable C : stream_cipher.
(* poly1305_init_hash, cryptokit.ml 1727-1735.  buf is 64 zero bytes,
   encrypted in place. *)
Definition poly1305_init_hash (cha : sc_st C) (header : bytes) : sc_st C * out pctx :=
  let r := sc_transform C cha (zeros 64) 0 (zeros 64) 0 64 in
  let! (cha, u) := (fst (fst r), snd r) in
  let! (cha, h) := (cha, poly1305_init P fresh (snd (fst r))) in
  let r := poly1305_update P h header 0 (zlen header) in
  let! (cha, u) := (cha, snd r) in
  let r := poly1305_update_pad (fst r) (Z.land (zlen header) 15) in
  let! (cha, u) := (cha, snd r) in
  (cha, Ret (fst r)).

(* poly1305_finish_and_get_tag, cryptokit.ml 1737-1746 *)
Definition poly1305_finish_and_get_tag (c : pctx) (headerlen cipherlen : Z) : pctx * out bytes :=
  let! (c, u) := poly1305_update_pad c (Z.land cipherlen 15) in
  let! (c, buf) := (c, set_int64_le (fresh 16) 0 headerlen) in
  let! (c, buf) := (c, set_int64_le buf 8 cipherlen) in
  let! (c, u) := poly1305_update P c buf 0 16 in
  poly1305_final P c.

(* the shared variables: cha, h, cipherlen (an int64) *)
Record cpst := CP { cp_cha : sc_st C; cp_h : pctx; cp_clen : Z }.
Definition cp_wipe (s : cpst) : cpst := CP (sc_wipe C (cp_cha s)) (poly1305_wipe P (cp_h s)) (cp_clen s).

(* cha#transform src soff dst doff len *)
Definition cp_transform (s : cpst * bytes) (src : bytes) (soff doff len : Z) : (cpst * bytes) * out unit :=
  let r := sc_transform C (cp_cha (fst s)) src soff (snd s) doff len in
  ((CP (fst (fst r)) (cp_h (fst s)) (cp_clen (fst s)), snd (fst r)), snd r).
Definition cp_update (s : cpst * bytes) (src : bytes) (ofs len : Z) : (cpst * bytes) * out unit :=
  let r := poly1305_update P (cp_h (fst s)) src ofs len in
  ((CP (cp_cha (fst s)) (fst r) (cp_clen (fst s)), snd s), snd r).
Definition cp_add (s : cpst) (n : Z) : cpst := CP (cp_cha s) (cp_h s) ((cp_clen s + n) mod 2 ^ 64).

(* object enc of class chapoly_encrypt, cryptokit.ml 1760-1768 *)
Definition chapoly_enc (maxlen : Z) : stream_cipher := {|
  sc_st := cpst; sc_wipe := cp_wipe;
  sc_transform := fun m src soff dst doff len =>
    let! (s, u) := cp_transform (m, dst) src soff doff len in
    let! (s, u) := cp_update s (snd s) doff len in
    let s := (cp_add (fst s) len, snd s) in
    if signed64 (cp_clen (fst s)) >? maxlen then (s, Raise (Error Message_too_long)) else (s, Ret tt) |}.
(* object enc of class chapoly_decrypt, cryptokit.ml 1787-1794 *)
Definition chapoly_dec : stream_cipher := {|
  sc_st := cpst; sc_wipe := cp_wipe;
  sc_transform := fun m src soff dst doff len =>
    let! (s, u) := cp_update (m, dst) src soff len in
    let! (s, u) := cp_transform s src soff doff len in
    ((cp_add (fst s) len, snd s), Ret tt) |}.

(* method finish_and_get_tag, cryptokit.ml 1774-1775, 1800-1801 *)
Definition chapoly_finish (W : stream_cipher) (get : sc_st W -> cpst) (put : cpst -> sc_st W) (headerlen : Z)
    (s : sct W) : sct W * out bytes :=
  let c := get (sct_c W s) in
  let r := poly1305_finish_and_get_tag (cp_h c) headerlen (cp_clen c) in
  (SCT W (put (CP (cp_cha c) (fst r) (cp_clen c))) (sct_buf W s) (sct_bo W s), snd r).
End ChaPoly.
Arguments CP {P C}. Arguments cp_cha {P C}. Arguments cp_h {P C}. Arguments cp_clen {P C}.

(* classes chapoly_encrypt and chapoly_decrypt, let chacha20_poly1305,
   cryptokit.ml 1748-1807 *)
Definition chacha20_poly1305 (fresh : Z -> bytes) (P : poly_impl) (header iv key : bytes) (d : dir) : out aobj :=
  olet cha := new_chacha20 fresh (Some iv) 0 key in
  let C := so_sc cha in
  olet h := snd (poly1305_init_hash fresh P C (so_st cha) header) in
  let c0 := fst (poly1305_init_hash fresh P C (so_st cha) header) in
  let s0 := CP c0 h 0 in
  let maxlen := if zlen iv =? 12 then 0x4000000000 else 2 ^ 63 - 1 in
  Ret (match d with
       | Encrypt =>
           let W := chapoly_enc P C maxlen in
           AObj (auth_of (stream_transform fresh W) 16 (chapoly_finish fresh P C W (fun x => x) (fun x => x) (zlen header)))
                (stream_new fresh W s0)
       | Decrypt =>
           let W := chapoly_dec P C in
           AObj (auth_of (stream_transform fresh W) 16 (chapoly_finish fresh P C W (fun x => x) (fun x => x) (zlen header)))
                (stream_new fresh W s0)
       end).
