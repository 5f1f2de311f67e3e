(* "wipe: erase all internal buffers and data structures, overwriting them with zeroes" (cryptokit.mli 138-148, 207-209): the objects of the
   library all of whose buffers, key schedules and C contexts hold only zeros.  The numbers kept in OCaml variables (how many bytes are pending,
   positions in the output buffer, blocks left of a counter mode) are not part of it. *)
From Verif Require Import Prelude BufOutModel TransformModel BlockModel CipherModel EncModel StreamModel HashModel MdModel Blake2Model Blake3Model SipModel KeccakModel
  MacModel AuthModel PolyModel AeadModel RngModel DesModel BlowfishModel AesModel AesniModel SpecWipe2.

Definition all0 (l : list Z) : Prop := Forall (fun x => x = 0) l.

(* block ciphers.  In the key schedule of AES the last byte, the number of rounds, is 16 after wipe (cryptokit.ml 514, 532) *)
Inductive zero_block : bobj -> Prop :=
  | ZB_des k : all0 k -> zero_block (BObj des_class k)
  | ZB_triple_des a b c : all0 a -> all0 b -> all0 c -> zero_block (BObj triple_des_class (a, b, c))
  | ZB_blowfish_e p s : all0 p -> all0 s -> zero_block (BObj blowfish_encrypt_class (p, s))
  | ZB_blowfish_d p s : all0 p -> all0 s -> zero_block (BObj blowfish_decrypt_class (p, s))
  | ZB_aes_e k : all0 k -> zero_block (BObj aes_encrypt_class (k, 16))
  | ZB_aes_d k : all0 k -> zero_block (BObj aes_decrypt_class (k, 16))
  | ZB_aesni_e k : Forall all0 k -> zero_block (BObj aesni_encrypt_class (k, 16))
  | ZB_aesni_d k : Forall all0 k -> zero_block (BObj aesni_decrypt_class (k, 16))
  (* the chaining modes: initial vector, scratch block, cipher *)
  | ZB_cbc_e C iv tmp n c : all0 iv -> all0 tmp -> zero_block (BObj C c) -> zero_block (BObj (cbc_encrypt C) (MS iv tmp n c))
  | ZB_cbc_d C iv tmp n c : all0 iv -> all0 tmp -> zero_block (BObj C c) -> zero_block (BObj (cbc_decrypt C) (MS iv tmp n c))
  | ZB_cfb_e C k iv tmp n c : all0 iv -> all0 tmp -> zero_block (BObj C c) -> zero_block (BObj (cfb_encrypt C k) (MS iv tmp n c))
  | ZB_cfb_d C k iv tmp n c : all0 iv -> all0 tmp -> zero_block (BObj C c) -> zero_block (BObj (cfb_decrypt C k) (MS iv tmp n c))
  | ZB_ofb C k iv tmp n c : all0 iv -> all0 tmp -> zero_block (BObj C c) -> zero_block (BObj (ofb C k) (MS iv tmp n c))
  | ZB_ctr C k iv tmp n c : all0 iv -> all0 tmp -> zero_block (BObj C c) -> zero_block (BObj (ctr C k) (MS iv tmp n c)).

Definition zero_arcfour (k : arc) : Prop := all0 (arc_state k) /\ arc_x k = 0 /\ arc_y k = 0.
Definition zero_chacha (c : chacha) : Prop := all0 (cc_input c) /\ all0 (cc_output c) /\ cc_next c = 0 /\ cc_ivlen c = 0.

(* transforms: pending input, output buffer, cipher; compositions *)
Inductive zero_transform (fresh : Z -> bytes) : tobj -> Prop :=
  | ZT_block C fin ibuf used b c : all0 ibuf -> all0 (obuf b) -> zero_block (BObj C c) -> zero_transform fresh (TObj (cipher_with_finish fresh C fin) (BlockModel.CS C ibuf used b c))
  | ZT_arcfour k charbuf b : zero_arcfour k -> all0 charbuf -> all0 (obuf b) -> zero_transform fresh (TObj (stream_transform fresh arcfour_class) (SCT arcfour_class k charbuf b))
  | ZT_chacha k charbuf b : zero_chacha k -> all0 charbuf -> all0 (obuf b) -> zero_transform fresh (TObj (stream_transform fresh chacha20_class) (SCT chacha20_class k charbuf b))
  | ZT_b64e ml pad x b : all0 (be_ibuf x) -> all0 (obuf b) -> zero_transform fresh (TObj (base64_encode fresh ml pad) (x, b))
  | ZT_b64d x b : all0 (bd_ibuf x) -> all0 (obuf b) -> zero_transform fresh (TObj (base64_decode fresh) (x, b))
  | ZT_hexe b : all0 (obuf b) -> zero_transform fresh (TObj (hexa_encode fresh) (tt, b))
  | ZT_hexd x b : all0 (hd_ibuf x) -> all0 (obuf b) -> zero_transform fresh (TObj (hexa_decode fresh) (x, b))
  | ZT_compose o1 o2 : zero_transform fresh o1 -> zero_transform fresh o2 -> zero_transform fresh (composed o1 o2).

(* hashes and MACs.  The contexts of SHA-3 and BLAKE3 have been freed *)
Definition zero_mac {C} (s : mst C) : Prop := all0 (mc_iv s) /\ all0 (mc_buf s) /\ zero_block (BObj C (mc_c s)).
Inductive zero_hash : hobj -> Prop :=
  | ZH_md size add fin c : all0 (md_state c) -> md_hi c = 0 -> md_lo c = 0 -> md_num c = 0 -> all0 (md_buf c) -> zero_hash (HObj (c_hash md_ctx size add fin md_wipe) c)
  | ZH_hmac size add fin new B key c : all0 (md_state c) -> md_hi c = 0 -> md_lo c = 0 -> md_num c = 0 -> all0 (md_buf c) ->
      zero_hash (HObj (hmac_class (c_hash md_ctx size add fin md_wipe) new B key) c)
  | ZH_blake2 size add fin c : all0 (b2_h c) -> b2_len0 c = 0 -> b2_len1 c = 0 -> b2_num c = 0 -> all0 (b2_buf c) -> zero_hash (HObj (c_hash b2_ctx size add fin b2_wipe) c)
  | ZH_sip sz c : sv c = (0, 0, 0, 0) -> all0 (sbuf c) -> sused c = 0 -> slen8 c = 0 -> zero_hash (HObj (siphash_class sz) c)
  | ZH_sha3 sz b : zero_hash (HObj (sha3_class sz b) None)
  | ZH_blake3 sz : zero_hash (HObj (blake3_class sz) None)
  | ZH_mac C p s : zero_mac s -> zero_hash (HObj (mac C p) s)
  | ZH_cmac C s k1 k2 : zero_mac s -> all0 k1 -> all0 k2 -> zero_hash (HObj (cmac C) (s, (k1, k2)))
  | ZH_des3 C1 C2 C3 p s c2 c3 : zero_mac s -> zero_block (BObj C2 c2) -> zero_block (BObj C3 c3) -> zero_hash (HObj (mac_final_triple C1 C2 C3 p) (s, c2, c3)).

(* Poly1305, in its two variants; authenticated transforms *)
Definition zero_p64 (s : p64) : Prop := all0 [x_r0 s; x_r1 s; x_r2 s; x_h0 s; x_h1 s; x_h2 s; x_pad0 s; x_pad1 s].
Definition zero_p32 (s : p32) : Prop :=
  all0 [y_r0 s; y_r1 s; y_r2 s; y_r3 s; y_r4 s; y_h0 s; y_h1 s; y_h2 s; y_h3 s; y_h4 s; y_pad0 s; y_pad1 s; y_pad2 s; y_pad3 s].
Inductive zero_poly : forall P, pctx P -> Prop :=
  | ZP_64 w st buf : zero_p64 st -> all0 buf -> zero_poly (poly64 w) (@PC (poly64 w) st 0 buf false)
  | ZP_32 w st buf : zero_p32 st -> all0 buf -> zero_poly (poly32 w) (@PC (poly32 w) st 0 buf false).
Inductive zero_auth (fresh : Z -> bytes) : aobj -> Prop :=
  | ZA_then T t H h b : zero_transform fresh (TObj T t) -> zero_hash (HObj H h) -> all0 (obuf b) -> zero_auth fresh (AObj (transform_then_hash fresh T H) (TH t h b))
  | ZA_and T t H h : zero_transform fresh (TObj T t) -> zero_hash (HObj H h) -> zero_auth fresh (AObj (transform_and_hash T H) (t, h))
  | ZA_chapoly_e P maxlen fin cha h n charbuf b : zero_chacha cha -> zero_poly P h -> all0 charbuf -> all0 (obuf b) ->
      zero_auth fresh (AObj (auth_of (stream_transform fresh (chapoly_enc P chacha20_class maxlen)) 16 fin) (SCT (chapoly_enc P chacha20_class maxlen) (@CP P chacha20_class cha h n) charbuf b))
  | ZA_chapoly_d P fin cha h n charbuf b : zero_chacha cha -> zero_poly P h -> all0 charbuf -> all0 (obuf b) ->
      zero_auth fresh (AObj (auth_of (stream_transform fresh (chapoly_dec P chacha20_class)) 16 fin) (SCT (chapoly_dec P chacha20_class) (@CP P chacha20_class cha h n) charbuf b)).
(* AES-GCM: the key schedule, the pending input and the output buffer hold only zeros; the counter block, the scratch block, the state of GHASH and the
   length of the ciphertext are as they were, and so are the multiplication tables h and the encrypted counter block that finish uses *)
Definition gcm_rest {A} (g g' : gst A) : Prop := g_ctr g' = g_ctr g /\ g_buf g' = g_buf g /\ g_mac g' = g_mac g /\ g_clen g' = g_clen g.
Inductive gcm_half_wiped (fresh : Z -> bytes) : aobj -> aobj -> Prop :=
  | GW_enc A h e0 hl ibuf used b g ibuf' used' b' g' : all0 ibuf' -> all0 (obuf b') -> zero_block (BObj A (g_aes g')) -> gcm_rest g g' ->
      let C := gcm_enc_wrapped A h in let cls := auth_of (cipher fresh C) 16 (gcm_enc_finish fresh A C (fun x => x) (fun x => x) h hl e0) in
      gcm_half_wiped fresh (AObj cls (BlockModel.CS C ibuf used b g)) (AObj cls (BlockModel.CS C ibuf' used' b' g'))
  | GW_dec A h e0 hl ibuf used b g ibuf' used' b' g' : all0 ibuf' -> all0 (obuf b') -> zero_block (BObj A (g_aes g')) -> gcm_rest g g' ->
      let C := gcm_dec_wrapped A h in let cls := auth_of (cipher fresh C) 16 (gcm_dec_finish fresh A C (fun x => x) (fun x => x) h hl e0) in
      gcm_half_wiped fresh (AObj cls (BlockModel.CS C ibuf used b g)) (AObj cls (BlockModel.CS C ibuf' used' b' g')).
