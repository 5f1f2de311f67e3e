(* Model: keccak.c, stubs-sha3.c and the class sha3. *)
From Verif Require Import Prelude BytesNum SpecBlock Word HashModel MdModel ShaModel.

(* keccakf_rndc, keccak.c 14-24 *)
Definition keccakf_rndc : list Z :=
  [0x0000000000000001; 0x0000000000008082; 0x800000000000808a;
   0x8000000080008000; 0x000000000000808b; 0x0000000080000001;
   0x8000000080008081; 0x8000000000008009; 0x000000000000008a;
   0x0000000000000088; 0x0000000080008009; 0x000000008000000a;
   0x000000008000808b; 0x800000000000008b; 0x8000000000008089;
   0x8000000000008003; 0x8000000000008002; 0x8000000000000080;
   0x000000000000800a; 0x800000008000000a; 0x8000000080008081;
   0x8000000000008080; 0x0000000080000001; 0x8000000080008008].

(* st[i] = x, st[i] *)
Definition kput (st : list Z) (i : nat) (x : Z) : list Z := firstn i st ++ [x] ++ skipn (S i) st.
Definition kget (st : list Z) (i : nat) : Z := nth i st 0.

(* THETA1, keccak.c 51-54 *)
Definition THETA1 (st : list Z) (i : nat) : Z :=
  Z.lxor (Z.lxor (Z.lxor (Z.lxor (kget st i) (kget st (i + 5))) (kget st (i + 10))) (kget st (i + 15))) (kget st (i + 20)).
(* THETA2, keccak.c 56-64 *)
Definition THETA2 (bc st : list Z) (i : nat) : list Z :=
  let t := Z.lxor (kget bc ((i + 4) mod 5)) (c_rol 64 (kget bc ((i + 1) mod 5)) 1) in
  let st := kput st (0 + i) (Z.lxor (kget st (0 + i)) t) in
  let st := kput st (5 + i) (Z.lxor (kget st (5 + i)) t) in
  let st := kput st (10 + i) (Z.lxor (kget st (10 + i)) t) in
  let st := kput st (15 + i) (Z.lxor (kget st (15 + i)) t) in
  kput st (20 + i) (Z.lxor (kget st (20 + i)) t).
Definition k_theta (st : list Z) : list Z :=
  let bc := map (THETA1 st) [0; 1; 2; 3; 4]%nat in
  fold_left (THETA2 bc) [0; 1; 2; 3; 4]%nat st.

(* RHOPI, keccak.c 69-80: rotation and destination, in program order *)
Definition rhopi : list (Z * nat) :=
  [(1, 10%nat); (3, 7%nat); (6, 11%nat); (10, 17%nat); (15, 18%nat); (21, 3%nat); (28, 5%nat); (36, 16%nat);
   (45, 8%nat); (55, 21%nat); (2, 24%nat); (14, 4%nat); (27, 15%nat); (41, 23%nat); (56, 19%nat); (8, 13%nat);
   (25, 12%nat); (43, 2%nat); (62, 20%nat); (18, 14%nat); (39, 22%nat); (61, 9%nat); (20, 6%nat); (44, 1%nat)].
Definition RHOPI (s : list Z * Z) (c : Z * nat) : list Z * Z :=
  let '(st, t) := s in let '(rotc, piln) := c in
  (kput st piln (c_rol 64 t rotc), kget st piln).
Definition k_rhopi (st : list Z) : list Z := fst (fold_left RHOPI rhopi (st, kget st 1)).

(* CHI1, CHI2, keccak.c 84-92 *)
Definition CHI2 (bc : list Z) (j : nat) (st : list Z) (i : nat) : list Z :=
  kput st (j + i) (Z.lxor (kget st (j + i)) (Z.land (c_not 64 (kget bc ((i + 1) mod 5))) (kget bc ((i + 2) mod 5)))).
Definition k_chi (st : list Z) : list Z :=
  fold_left (fun st j =>
    let bc := map (fun i => kget st (j + i)) [0; 1; 2; 3; 4]%nat in
    fold_left (CHI2 bc j) [0; 1; 2; 3; 4]%nat st) [0; 5; 10; 15; 20]%nat st.

(* KeccakPermutation, keccak.c 43-97 *)
Definition k_round (st : list Z) (round : nat) : list Z :=
  let st := k_chi (k_rhopi (k_theta st)) in
  kput st 0 (Z.lxor (kget st 0) (nth round keccakf_rndc 0)).
Definition KeccakPermutation (st : list Z) : list Z := for_range 0 24 k_round st.

(* KeccakAbsorb, keccak.c 101-113, on the rsiz bytes at p: each iteration
   reads 8 bytes as a little-endian number (the shifts p[3] << 24 of an int
   are taken to wrap, as compilers do) *)
Definition KeccakAbsorb (st : list Z) (p : bytes) : list Z :=
  let rsiz := Z.to_nat (zlen p / 8) in
  let byte i k := nth (8 * i + k) p 0 in
  let st := for_range 0 rsiz (fun st i =>
    let l := Z.lor (Z.lor (Z.lor (byte i 0%nat) (c_shl 32 (byte i 1%nat) 8)) (c_shl 32 (byte i 2%nat) 16)) (c_shl 32 (byte i 3%nat) 24) in
    let h := Z.lor (Z.lor (Z.lor (byte i 4%nat) (c_shl 32 (byte i 5%nat) 8)) (c_shl 32 (byte i 6%nat) 16)) (c_shl 32 (byte i 7%nat) 24) in
    kput st i (Z.lxor (kget st i) (Z.lor l (c_shl 64 h 32)))) st in
  KeccakPermutation st.

(* struct SHA3Context, keccak.h 5-11 *)
Record k_ctx := KC { k_state : list Z; k_buf : bytes; k_num : Z; k_rsiz : Z; k_hsiz : Z }.

(* SHA3_init, keccak.c 117-124; the buffer is not initialized *)
Definition SHA3_init (hsiz : Z) (buf : bytes) : k_ctx :=
  KC (repeat 0 25) buf 0 (200 - 2 * (hsiz / 8)) (hsiz / 8).

(* the loop and the end of SHA3_absorb, keccak.c 147-154; one iteration per
   block, fuel as in md_blocks *)
Fixpoint k_blocks (fuel : nat) (rsiz : Z) (st : list Z) (buf data : bytes) : out (list Z * Z * bytes) :=
  match fuel with
  | O => Hang
  | S f =>
      if zlen data >=? rsiz then
        k_blocks f rsiz (KeccakAbsorb st (firstn (Z.to_nat rsiz) data)) buf (skipn (Z.to_nat rsiz) data)
      else
        olet buf := (if zlen data >? 0 then c_memcpy buf 0 data else Ret buf) in
        Ret (st, zlen data, buf)
  end.
(* SHA3_absorb, keccak.c 126-154 *)
Definition SHA3_absorb (c : k_ctx) (data : bytes) : out k_ctx :=
  let rest st buf data :=
    olet r := k_blocks (S (length data)) (k_rsiz c) st buf data in
    let '(st, num, buf) := r in Ret (KC st buf num (k_rsiz c) (k_hsiz c)) in
  if negb (k_num c =? 0) then
    let n := k_rsiz c - k_num c in
    if zlen data <? n then
      olet buf := c_memcpy (k_buf c) (k_num c) data in
      Ret (KC (k_state c) buf (k_num c + zlen data) (k_rsiz c) (k_hsiz c))
    else
      olet buf := c_memcpy (k_buf c) (k_num c) (firstn (Z.to_nat n) data) in
      rest (KeccakAbsorb (k_state c) (firstn (Z.to_nat (k_rsiz c)) buf)) buf (skipn (Z.to_nat n) data)
  else rest (k_state c) (k_buf c) data.

(* SHA3_extract, keccak.c 156-185; the output loop writes whole words, half a
   word at the end if hsiz is not a multiple of 8 *)
Definition k_output (st : list Z) (hsiz : Z) : bytes :=
  let half := 4 * ((hsiz + 3) / 4) in
  firstn (Z.to_nat half) (concat (map (fun i => let s := kget st i in
    map (fun k => Z.shiftr s (8 * k) mod 256) [0; 1; 2; 3; 4; 5; 6; 7]) (seq 0 (Z.to_nat ((hsiz + 7) / 8))))).
Definition SHA3_extract (padding : Z) (c : k_ctx) : out (k_ctx * bytes) :=
  let n := k_num c in
  olet buf := c_memcpy (k_buf c) n [padding] in
  let n := n + 1 in
  olet buf := c_memset0 buf n (k_rsiz c - n) in
  olet buf := c_memcpy buf (k_rsiz c - 1) [Z.lor (nth (Z.to_nat (k_rsiz c - 1)) buf 0) 128] in
  let st := KeccakAbsorb (k_state c) (firstn (Z.to_nat (k_rsiz c)) buf) in
  let o := k_output st (k_hsiz c) in
  (* the output string has hsiz bytes, stubs-sha3.c 74 *)
  if zlen o >? k_hsiz c then Undef else Ret (KC st buf (k_num c) (k_rsiz c) (k_hsiz c), o).

(* class sha3, cryptokit.ml 1194-1214.  The context is a pointer, set to NULL
   by wipe (stubs-sha3.c 79-87): later calls dereference NULL. *)
Definition sha3_upd (c : option k_ctx) (data : bytes) : out (option k_ctx) :=
  match c with None => Undef | Some c => olet c := SHA3_absorb c data in Ret (Some c) end.
Definition sha3_fin (official : bool) (c : option k_ctx) : option k_ctx * out bytes :=
  match c with
  | None => (None, Undef)
  | Some k =>
      match SHA3_extract (if official then 6 else 1) k with
      | Ret (k', o) => (Some k', Ret o)
      | Raise e => (c, Raise e) | Undef => (c, Undef) | Hang => (c, Hang)
      end
  end.
Definition sha3_class (sz : Z) (official : bool) : hash :=
  c_hash (option k_ctx) (sz / 8) sha3_upd (sha3_fin official) (fun _ => None).
(* new sha3 *)
Definition sha3_new (fresh : Z -> bytes) (sz : Z) (official : bool) : out hobj :=
  if (sz =? 224) || (sz =? 256) || (sz =? 384) || (sz =? 512)
  then Ret (HObj (sha3_class sz official) (Some (SHA3_init sz (fresh 144))))
  else Raise (Error Wrong_key_size).
(* Hash.sha3 and Hash.keccak, cryptokit.ml 1216-1218 *)
Definition sha3_obj fresh sz := sha3_new fresh sz true.
Definition keccak_obj fresh sz := sha3_new fresh sz false.
