(* C26 - C32, C35: hash functions. *)
From Verif Require Import Prelude Word SpecHash SpecRipemd SpecKeccak SpecBlake2 SpecBlake3 HashModel HashSpec ShaModel RipemdModel KeccakModel Blake2Model Blake3Model Md5Model
  Sha Ripemd KeccakHash Blake2 Blake3Hash Md5 HashSize.

(* [fresh n]: the unspecified contents of a new buffer of n bytes *)
Definition abc : bytes := [97; 98; 99].

Theorem C26_sha1 : forall fresh : Z -> bytes, (forall n, 0 <= n -> zlen (fresh n) = n) -> computes (sha1_obj fresh) sha1.
Proof. exact sha1_computes. Qed.
Print Assumptions C26_sha1.
Example C26_case : obj_hash_string (sha1_obj zeros) abc =
  Ret [169; 153; 62; 54; 71; 6; 129; 106; 186; 62; 37; 113; 120; 80; 194; 108; 156; 208; 216; 157].
Proof. vm_compute. reflexivity. Qed.

Theorem C27_sha224 : forall fresh : Z -> bytes, (forall n, 0 <= n -> zlen (fresh n) = n) -> computes (sha224_obj fresh) sha224.
Proof. exact sha224_computes. Qed.
Print Assumptions C27_sha224.
Theorem C27_sha256 : forall fresh : Z -> bytes, (forall n, 0 <= n -> zlen (fresh n) = n) -> computes (sha256_obj fresh) sha256.
Proof. exact sha256_computes. Qed.
Print Assumptions C27_sha256.
Example C27_case : obj_hash_string (sha224_obj zeros) abc =
    Ret [35; 9; 125; 34; 52; 5; 216; 34; 134; 66; 164; 119; 189; 162; 85; 179; 42; 173; 188; 228; 189; 160; 179; 247; 227; 108; 157; 167] /\
  obj_hash_string (sha256_obj zeros) abc =
    Ret [186; 120; 22; 191; 143; 1; 207; 234; 65; 65; 64; 222; 93; 174; 34; 35; 176; 3; 97; 163; 150; 23; 122; 156; 180; 16; 255; 97; 242; 0; 21; 173].
Proof. split; vm_compute; reflexivity. Qed.

Theorem C28_sha384 : forall fresh : Z -> bytes, (forall n, 0 <= n -> zlen (fresh n) = n) -> computes (sha384_obj fresh) sha384.
Proof. exact sha384_computes. Qed.
Print Assumptions C28_sha384.
Theorem C28_sha512 : forall fresh : Z -> bytes, (forall n, 0 <= n -> zlen (fresh n) = n) -> computes (sha512_obj fresh) sha512.
Proof. exact sha512_computes. Qed.
Print Assumptions C28_sha512.
Example C28_case : obj_hash_string (sha384_obj zeros) abc =
    Ret [203; 0; 117; 63; 69; 163; 94; 139; 181; 160; 61; 105; 154; 198; 80; 7; 39; 44; 50; 171; 14; 222; 209; 99; 26; 139; 96; 90; 67; 255; 91; 237; 128; 134; 7; 43; 161; 231; 204; 35; 88; 186; 236; 161; 52; 200; 37; 167] /\
  obj_hash_string (sha512_obj zeros) abc =
    Ret [221; 175; 53; 161; 147; 97; 122; 186; 204; 65; 115; 73; 174; 32; 65; 49; 18; 230; 250; 78; 137; 169; 126; 162; 10; 158; 238; 230; 75; 85; 211; 154; 33; 146; 153; 42; 39; 79; 193; 168; 54; 186; 60; 35; 163; 254; 235; 189; 69; 77; 68; 35; 100; 60; 232; 14; 42; 154; 201; 79; 165; 76; 164; 159].
Proof. split; vm_compute; reflexivity. Qed.

(* official = true: SHA-3; false: Keccak.  Other sizes are refused. *)
Theorem C29_sha3 : forall fresh : Z -> bytes, (forall n, 0 <= n -> zlen (fresh n) = n) -> forall sz official,
  sz = 224 \/ sz = 256 \/ sz = 384 \/ sz = 512 ->
  exists o, sha3_new fresh sz official = Ret o /\ h_size (ho_class o) = sz / 8 /\
    computes o (if official then sha3_spec sz else keccak_spec sz).
Proof. exact sha3_new_ok. Qed.
Print Assumptions C29_sha3.
Theorem C29_other_sizes : forall fresh sz official, ~ (sz = 224 \/ sz = 256 \/ sz = 384 \/ sz = 512) ->
  sha3_new fresh sz official = Raise (Error Wrong_key_size).
Proof. exact sha3_new_other. Qed.
Print Assumptions C29_other_sizes.
Example C29_case : (olet o := sha3_new zeros 256 true in obj_hash_string o abc) =
  Ret [58; 152; 93; 167; 79; 226; 37; 178; 4; 92; 23; 45; 107; 211; 144; 189; 133; 95; 8; 110; 62; 157; 82; 91; 70; 191; 226; 69; 17; 67; 21; 50].
Proof. vm_compute. reflexivity. Qed.

Theorem C30_ripemd160 : forall fresh : Z -> bytes, (forall n, 0 <= n -> zlen (fresh n) = n) -> computes (ripemd160_obj fresh) ripemd160.
Proof. exact ripemd160_computes. Qed.
Print Assumptions C30_ripemd160.
Example C30_case : obj_hash_string (ripemd160_obj zeros) abc =
  Ret [142; 178; 8; 247; 224; 93; 152; 122; 155; 4; 74; 142; 152; 198; 176; 135; 241; 90; 11; 252].
Proof. vm_compute. reflexivity. Qed.

(* sz in bits; the key is empty for the plain hash *)
Theorem C31_blake2b : forall (fresh : Z -> bytes) sz key, (forall n, 0 <= n -> zlen (fresh n) = n) ->
  8 <= sz <= 512 -> sz mod 8 = 0 -> zlen key <= 64 -> bytes_ok key ->
  exists o, blake2b_obj fresh sz key = Ret o /\ h_size (ho_class o) = sz / 8 /\ computes o (blake2b_spec (sz / 8) key).
Proof. exact blake2b_ok. Qed.
Print Assumptions C31_blake2b.
Theorem C31_blake2s : forall (fresh : Z -> bytes) sz key, (forall n, 0 <= n -> zlen (fresh n) = n) ->
  8 <= sz <= 256 -> sz mod 8 = 0 -> zlen key <= 32 -> bytes_ok key ->
  exists o, blake2s_obj fresh sz key = Ret o /\ h_size (ho_class o) = sz / 8 /\ computes o (blake2s_spec (sz / 8) key).
Proof. exact blake2s_ok. Qed.
Print Assumptions C31_blake2s.
Theorem C31_other_parameters : forall fresh sz key,
  (~ (8 <= sz <= 512 /\ sz mod 8 = 0 /\ zlen key <= 64) -> blake2b_obj fresh sz key = Raise (Error Wrong_key_size)) /\
  (~ (8 <= sz <= 256 /\ sz mod 8 = 0 /\ zlen key <= 32) -> blake2s_obj fresh sz key = Raise (Error Wrong_key_size)).
Proof. intros fresh sz key. split; [exact (blake2_new_other 64 12 32 24 16 63 blake2b_iv fresh sz key)|exact (blake2_new_other 32 10 16 12 8 7 blake2s_iv fresh sz key)]. Qed.
Print Assumptions C31_other_parameters.
Example C31_case : (olet o := blake2b_obj zeros 160 [107; 101; 121] in obj_hash_string o abc) =
    Ret [99; 197; 233; 210; 225; 103; 153; 30; 127; 202; 159; 232; 75; 74; 252; 178; 250; 183; 204; 153] /\
  (olet o := blake2s_obj zeros 256 [] in obj_hash_string o abc) =
    Ret [80; 140; 94; 140; 50; 124; 20; 226; 225; 167; 43; 163; 78; 235; 69; 47; 55; 69; 139; 32; 158; 214; 58; 41; 77; 153; 155; 76; 134; 103; 89; 130].
Proof. split; vm_compute; reflexivity. Qed.

(* BLAKE3 is defined for less than 2^64 bytes *)
Theorem C32_blake3 : forall key sz, 0 < sz -> sz mod 8 = 0 -> zlen key = 0 \/ zlen key = 32 -> bytes_ok key ->
  exists o, blake3_obj key sz = Ret o /\ h_size (ho_class o) = sz / 8 /\
    computes_on (fun m => zlen m < 2 ^ 64) o (fun m => Ret (blake3_spec key (sz / 8) m)).
Proof. exact blake3_ok. Qed.
Print Assumptions C32_blake3.
Theorem C32_longer_outputs : forall key l1 l2 m, 0 <= l1 <= l2 ->
  zlen (blake3_spec key l2 m) = l2 /\ blake3_spec key l1 m = firstn (Z.to_nat l1) (blake3_spec key l2 m).
Proof. intros key l1 l2 m H. split; [apply blake3_size; lia|apply blake3_prefix; exact H]. Qed.
Print Assumptions C32_longer_outputs.
Theorem C32_other_parameters : forall key sz, ~ (0 < sz /\ sz mod 8 = 0 /\ (zlen key = 0 \/ zlen key = 32)) ->
  blake3_obj key sz = Raise (Error Wrong_key_size).
Proof. exact blake3_other. Qed.
Print Assumptions C32_other_parameters.
(* a message of three chunks, added in two calls, against the tree *)
Example C32_case : let m := map (fun i => Z.of_nat i mod 251) (seq 0 2049) in
  (olet o := blake3_obj [] 64 in
   snd (h_result (ho_class o) (fst (h_run (ho_class o) (ho_st o) [HString (firstn 1000 m); HSub m 1000 1049])))) =
  Ret [95; 77; 114; 244; 13; 122; 95; 130].
Proof. vm_compute. reflexivity. Qed.

(* The MD5 computation is the OCaml runtime's: [runtime_computes rt D] says
   that its three functions compute D of the concatenation of the updates.
   Calls adding less than 2^32 bytes at a time feed it every byte. *)
Theorem C35_md5_partial : forall rt D ops, runtime_computes rt D -> Forall hop_valid ops ->
  Forall (fun o => zlen (hop_bytes o) < 2 ^ 32) ops ->
  snd (h_run (md5_class rt) (rt_init rt) ops) = Ret tt /\
  snd (h_result (md5_class rt) (fst (h_run (md5_class rt) (rt_init rt) ops))) = Ret (D (added ops)).
Proof. exact md5_feeds. Qed.
Print Assumptions C35_md5_partial.
(* but a string of 2^32 bytes is not hashed at all: its MD5 is that of "" *)
Theorem C35_md5_refuted : exists s, bytes_ok s /\ zlen s <= max_string_length /\ s <> [] /\
  forall rt D, runtime_computes rt D -> obj_hash_string (md5_obj rt) s = Ret (D []).
Proof. exact md5_loses_ex. Qed.
Print Assumptions C35_md5_refuted.
(* a runtime: the checksum of everything it is given *)
Example C35_case : let rt := MD5Runtime Z 0 (fun c d => fold_left Z.add d c) (fun c => [c]) 0 in
  runtime_computes rt (fun m => [fold_left Z.add m 0]) /\ obj_hash_string (md5_obj rt) abc = Ret [294].
Proof.
  split; [|reflexivity]. intros l. cbn. f_equal. generalize 0. induction l as [|d l IH]; intros c; [reflexivity|]. cbn [fold_left concat]. rewrite fold_left_app. apply IH.
Qed.
