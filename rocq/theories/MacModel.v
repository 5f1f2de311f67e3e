(* Model: MACs of cryptokit.ml: class mac 876-942, mac_final_triple 944-961,
   cmac 963-981, functor HMAC 1410-1437, module MAC 1441-1530. *)
From Verif Require Import Prelude MiscModel HashModel BlockModel CipherModel.

(* ---- class mac, cryptokit.ml 876-942 ---- *)
Record mst (C : block_cipher) := MSt { mc_iv : bytes; mc_buf : bytes; mc_used : Z; mc_c : bc_st C }.
Arguments MSt {C}. Arguments mc_iv {C}. Arguments mc_buf {C}. Arguments mc_used {C}. Arguments mc_c {C}.

Section Mac.
Variable C : block_cipher.
Let bs := bc_blocksize C.

Definition m_set_used (s : mst C) u := MSt (mc_iv s) (mc_buf s) u (mc_c s).
Definition m_to_buf (s : mst C) (r : out bytes) : mst C * out unit :=
  match r with
  | Ret x => (MSt (mc_iv s) x (mc_used s) (mc_c s), Ret tt)
  | Raise e => (s, Raise e) | Undef => (s, Undef) | Hang => (s, Hang) end.
(* cipher#transform buffer 0 iv 0 *)
Definition m_transform (s : mst C) : mst C * out unit :=
  let r := bc_transform C (mc_c s) (mc_buf s) 0 (mc_iv s) 0 in
  (MSt (snd (fst r)) (mc_buf s) (mc_used s) (fst (fst r)), snd r).
(* xor_bytes iv 0 buffer 0 blocksize; cipher#transform buffer 0 iv 0
   (896-897, 912-913, 928-929, 937-938) *)
Definition m_block (s : mst C) : mst C * out unit :=
  let! (s, u) := m_to_buf s (xor_bytes (mc_iv s) 0 (mc_buf s) 0 bs) in
  m_transform s.

(* method add_substring, 885-902; fuel as in put_loop of BlockModel *)
Fixpoint m_add (fuel : nat) (s : mst C) (src : bytes) (ofs len : Z) : mst C * out unit :=
  match fuel with
  | O => (s, Hang)
  | S f =>
    if len <=? 0 then (s, Ret tt) else
    if wrap63 (mc_used s + len) <=? bs then
      let! (s, u) := m_to_buf s (blit src ofs (mc_buf s) (mc_used s) len) in
      (m_set_used s (mc_used s + len), Ret tt)
    else
      let n := bs - mc_used s in
      let! (s, u) := m_to_buf s (blit src ofs (mc_buf s) (mc_used s) n) in
      let! (s, u) := m_block s in
      m_add f (m_set_used s 0) src (wrap63 (ofs + n)) (wrap63 (len - n))
  end.
Definition mac_add_substring (s : mst C) (src : bytes) (ofs len : Z) : mst C * out unit :=
  m_add (S (S (S (length src)))) s src ofs len.
(* method add_char, 907-916 *)
Definition mac_add_char (s : mst C) (c : Z) : mst C * out unit :=
  if mc_used s <? bs then
    let! (s, u) := m_to_buf s (bytes_set (mc_buf s) (mc_used s) c) in
    (m_set_used s (mc_used s + 1), Ret tt)
  else
    let! (s, u) := m_block s in
    let! (s, u) := m_to_buf s (bytes_set (mc_buf s) 0 c) in
    (m_set_used s 1, Ret tt).
(* method wipe, 921-924 *)
Definition mac_wipe (s : mst C) : mst C * out unit :=
  (MSt (zeros (zlen (mc_iv s))) (zeros (zlen (mc_buf s))) (mc_used s) (bc_wipe C (mc_c s)), Ret tt).
(* method result, 926-941 *)
Definition mac_result (p : option scheme) (s : mst C) : mst C * out bytes :=
  let! (s, u) := if mc_used s =? bs then
                   let! (s, u) := m_block s in (m_set_used s 0, Ret tt)
                 else (s, Ret tt) in
  let! (s, u) := match p with
                 | None => if negb (mc_used s =? 0) then (s, Raise (Error Wrong_data_length)) else (s, Ret tt)
                 | Some p =>
                     let! (s, u) := m_to_buf s (pad p (mc_buf s) (mc_used s)) in
                     let! (s, u) := m_block s in
                     (m_set_used s 0, Ret tt)
                 end in
  (s, Ret (mc_iv s)).

(* add_string 904-905; add_byte 918-919: Char.unsafe_chr b stored in a byte *)
Definition mac_with (result : mst C -> mst C * out bytes) (wipe : mst C -> mst C * out unit) : hash := {|
  h_st := mst C; h_size := bs;
  h_add_substring := mac_add_substring;
  h_add_string := fun s str => mac_add_substring s str 0 (zlen str);
  h_add_char := mac_add_char;
  h_add_byte := fun s b => mac_add_char s (b mod 256);
  h_result := result; h_wipe := wipe |}.
Definition mac (p : option scheme) : hash := mac_with (mac_result p) mac_wipe.

(* class cmac, 963-981: method result, 967-976 *)
Definition cmac_result (k1 k2 : bytes) (s : mst C) : mst C * out bytes :=
  let full := mc_used s =? bs in
  let! (s, u) := if full then (s, Ret tt) else m_to_buf s (pad padding_8000 (mc_buf s) (mc_used s)) in
  let k := if full then k1 else k2 in
  let! (s, u) := m_to_buf s (xor_bytes (mc_iv s) 0 (mc_buf s) 0 bs) in
  let! (s, u) := m_to_buf s (xor_bytes k 0 (mc_buf s) 0 bs) in
  let! (s, u) := m_transform s in
  (m_set_used s 0, Ret (mc_iv s)).
(* the state is that of the class mac, and the two subkeys *)
Definition c_on {A} (s : mst C * (bytes * bytes)) (r : mst C * out A) : (mst C * (bytes * bytes)) * out A :=
  lift (fun m => (m, snd s)) r.
(* method wipe, 977-980 *)
Definition cmac_wipe (s : mst C * (bytes * bytes)) : (mst C * (bytes * bytes)) * out unit :=
  let! (s, u) := c_on s (mac_wipe (fst s)) in
  ((fst s, (zeros (zlen (fst (snd s))), zeros (zlen (snd (snd s))))), Ret tt).
Definition cmac : hash := {|
  h_st := mst C * (bytes * bytes); h_size := bs;
  h_add_substring := fun s src ofs len => c_on s (mac_add_substring (fst s) src ofs len);
  h_add_string := fun s str => c_on s (mac_add_substring (fst s) str 0 (zlen str));
  h_add_char := fun s c => c_on s (mac_add_char (fst s) c);
  h_add_byte := fun s b => c_on s (mac_add_char (fst s) (b mod 256));
  h_result := fun s => c_on s (cmac_result (fst (snd s)) (snd (snd s)) (fst s)); h_wipe := cmac_wipe |}.
End Mac.

(* constructor of class mac, 879-881 *)
Definition mac_init (fresh : Z -> bytes) (C : block_cipher) (iv : option bytes) (c0 : bc_st C) : out (mst C) :=
  olet i := make_initial_iv (bc_blocksize C) iv in
  Ret (MSt i (fresh (bc_blocksize C)) 0 c0).
Definition mac_new (fresh : Z -> bytes) (iv : option bytes) (p : option scheme) (c : bobj) : out hobj :=
  olet s := mac_init fresh (b_bc c) iv (b_st c) in
  Ret (HObj (mac (b_bc c) p) s).
Definition cmac_new (fresh : Z -> bytes) (iv : option bytes) (c : bobj) (k1 k2 : bytes) : out hobj :=
  olet s := mac_init fresh (b_bc c) iv (b_st c) in
  Ret (HObj (cmac (b_bc c)) (s, (k1, k2))).

(* class mac_final_triple, 944-961: state of the mac and of the two other
   ciphers *)
Section Triple.
Variables C1 C2 C3 : block_cipher.
Let St := (mst C1 * bc_st C2 * bc_st C3)%type.
Definition t_on_mac {A} (f : mst C1 -> mst C1 * out A) (s : St) : St * out A :=
  lift (fun m => (m, snd (fst s), snd s)) (f (fst (fst s))).
Definition triple_result (p : option scheme) (s : St) : St * out bytes :=
  let! (s, r) := t_on_mac (mac_result C1 p) s in
  let t2 := bc_transform C2 (snd (fst s)) r 0 r 0 in
  let! (s, r2) := (((fst (fst s), fst (fst t2), snd s) : St), olet u := snd t2 in Ret (snd (fst t2))) in
  let t3 := bc_transform C3 (snd s) r2 0 r2 0 in
  (((fst s, fst (fst t3)) : St), olet u := snd t3 in Ret (snd (fst t3))).
Definition mac_final_triple (p : option scheme) : hash :=
  let M := mac C1 p in {|
  h_st := St; h_size := h_size M;
  h_add_substring := fun s src ofs len => t_on_mac (fun m => h_add_substring M m src ofs len) s;
  h_add_string := fun s str => t_on_mac (fun m => h_add_string M m str) s;
  h_add_char := fun s c => t_on_mac (fun m => h_add_char M m c) s;
  h_add_byte := fun s b => t_on_mac (fun m => h_add_byte M m b) s;
  h_result := triple_result p;
  h_wipe := fun s => let! (s, u) := t_on_mac (h_wipe M) s in
                     (((fst (fst s), bc_wipe C2 (snd (fst s)), bc_wipe C3 (snd s)) : St), Ret tt) |}.
End Triple.
Definition mac_final_triple_new (fresh : Z -> bytes) (iv : option bytes) (p : option scheme) (c1 c2 c3 : bobj) : out hobj :=
  if negb (bc_blocksize (b_bc c1) =? bc_blocksize (b_bc c2)) || negb (bc_blocksize (b_bc c2) =? bc_blocksize (b_bc c3))
  then Raise (Error Incompatible_block_size) else
  olet s := mac_init fresh (b_bc c1) iv (b_st c1) in
  Ret (HObj (mac_final_triple (b_bc c1) (b_bc c2) (b_bc c3) p) (s, b_st c2, b_st c3)).

(* shl1_bytes src soff dst doff len, cryptokit.ml 34-41, as a loop on i;
   Char.unsafe_chr stored in a byte keeps the low 8 bits *)
Fixpoint shl1_loop (cnt : nat) (src : bytes) (soff : Z) (dst : bytes) (doff carry : Z) : out bytes :=
  match cnt with
  | O => Ret dst
  | S i =>
      olet n := bytes_get src (soff + Z.of_nat i) in
      olet d := bytes_set dst (doff + Z.of_nat i) (Z.lor (Z.shiftl n 1) carry mod 256) in
      shl1_loop i src soff d doff (Z.shiftr n 7)
  end.
Definition shl1_bytes (src : bytes) (soff : Z) (dst : bytes) (doff len : Z) : out bytes :=
  shl1_loop (Z.to_nat len) src soff dst doff 0.

(* MAC.aes, MAC.des, MAC.triple_des, 1472-1477: [new_block] is the class
   aes_encrypt, des_encrypt, triple_des_encrypt *)
Definition block_mac (fresh : Z -> bytes) (new_block : bytes -> out bobj) (iv : option bytes) (p : option scheme) (key : bytes) : out hobj :=
  olet c := new_block key in mac_new fresh iv p c.

(* MAC.des_final_triple_des, 1478-1488 *)
Definition des_final_triple_des (fresh : Z -> bytes) (new_des : dir -> bytes -> out bobj)
    (iv : option bytes) (p : option scheme) (key : bytes) : out hobj :=
  let kl := zlen key in
  if negb (kl =? 16) && negb (kl =? 24) then Raise (Error Wrong_key_size) else
  olet k1 := bytes_sub key 0 8 in
  olet k2 := bytes_sub key 8 8 in
  olet k3 := if kl =? 24 then bytes_sub key 16 8 else Ret k1 in
  olet c1 := new_des Encrypt k1 in
  olet c2 := new_des Decrypt k2 in
  olet c3 := new_des Encrypt k3 in
  mac_final_triple_new fresh iv p c1 c2 c3.

(* one subkey: k = src << 1, xored with b if the top bit of src is set
   (1496-1498, 1499-1501) *)
Definition subkey (fresh : Z -> bytes) (b src : bytes) : out bytes :=
  olet k := shl1_bytes src 0 (fresh 16) 0 16 in
  olet top := bytes_get src 0 in
  if Z.land top 0x80 >? 0 then xor_bytes b 0 k 0 16 else Ret k.
(* MAC.aes_cmac, 1490-1503; [new_aes] is the class aes_encrypt.  The state of
   the cipher after the transform is used. *)
Definition aes_cmac (fresh : Z -> bytes) (new_aes : bytes -> out bobj) (iv : option bytes) (key : bytes) : out hobj :=
  olet c := new_aes key in
  let r := bc_transform (b_bc c) (b_st c) (zeros 16) 0 (fresh 16) 0 in
  olet u := snd r in
  let l := snd (fst r) in
  olet b := bytes_set (zeros 16) 15 0x87 in
  olet k1 := subkey fresh b l in
  olet k2 := subkey fresh b k1 in
  cmac_new fresh iv (BObj (b_bc c) (fst (fst r))) k1 k2.

(* ---- functor HMAC, cryptokit.ml 1410-1437 ---- *)
Section Hmac.
Variable H : hash.            (* H.h *)
Variable new : h_st H.        (* state of new H.h *)
Variable blocksize : Z.       (* H.blocksize *)
(* hmac_pad, 1412-1419 *)
Definition hmac_pad (key : bytes) (byte : Z) : out bytes :=
  olet key := if zlen key >? blocksize then snd (hash_string H new key) else Ret key in
  let r := repeat byte (Z.to_nat blocksize) in
  xor_bytes key 0 r 0 (zlen key).
(* method result, 1427-1435 *)
Definition hmac_result (key : bytes) (s : h_st H) : h_st H * out bytes :=
  match hmac_pad key 0x5C with
  | Ret b =>
      match h_add_substring H new b 0 (zlen b) with
      | (h', Ret _) =>
          let! (s, r) := h_result H s in
          match h_add_string H h' r with
          | (h', Ret _) =>
              match h_result H h' with
              | (h', Ret r) =>
                  match h_wipe H h' with
                  | (_, Ret _) => (s, Ret r)
                  | (_, Raise e) => (s, Raise e) | (_, Undef) => (s, Undef) | (_, Hang) => (s, Hang)
                  end
              | (_, Raise e) => (s, Raise e) | (_, Undef) => (s, Undef) | (_, Hang) => (s, Hang)
              end
          | (_, Raise e) => (s, Raise e) | (_, Undef) => (s, Undef) | (_, Hang) => (s, Hang)
          end
      | (_, Raise e) => (s, Raise e) | (_, Undef) => (s, Undef) | (_, Hang) => (s, Hang)
      end
  | Raise e => (s, Raise e) | Undef => (s, Undef) | Hang => (s, Hang)
  end.
Definition hmac_class (key : bytes) : hash := {|
  h_st := h_st H; h_size := h_size H;
  h_add_substring := h_add_substring H; h_add_string := h_add_string H;
  h_add_char := h_add_char H; h_add_byte := h_add_byte H;
  h_result := hmac_result key; h_wipe := h_wipe H |}.
(* initializer, 1423-1426 *)
Definition hmac_new (key : bytes) : out hobj :=
  olet b := hmac_pad key 0x36 in
  let r := h_add_substring H new b 0 (zlen b) in
  olet u := snd r in
  Ret (HObj (hmac_class key) (fst r)).
End Hmac.
(* MAC.hmac_sha1 etc., 1443-1463: functor applications *)
Definition hmac_of (o : hobj) (blocksize : Z) (key : bytes) : out hobj :=
  hmac_new (ho_class o) (ho_st o) blocksize key.
