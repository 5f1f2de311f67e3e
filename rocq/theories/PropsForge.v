(* Properties C94 and C95: for how many keys a forged message is accepted.  Vocabulary in SpecForge.v: [chapoly_accepts] and
   [gcm_accepts]: the decryption object returns a plaintext; [auth_blocks]: the number of blocks authenticated. *)
From Verif Require Import Prelude BytesNum BlockModel CipherModel EncModel SpecAes AesModel AesniModel Aes AesApi SpecStream SpecPoly SpecGhash SpecAead PolyModel Poly AuthModel AeadModel Auth AeadApi SpecForge Forge Toy.

(* C94.  ChaCha20-Poly1305.  The one-time key of a (key, IV) is the beginning of its keystream, aead_key; its first half
   is r, its second half s.  Given two different messages and any tags for them, for each s at most 8 r per block. *)
Theorem C94_chacha20_poly1305 : forall fresh P header1 c1 t1 header2 c2 t2 s keys, (forall n, 0 <= n -> zlen (fresh n) = n) -> poly_class P ->
  bytes_ok header1 -> bytes_ok c1 -> bytes_ok t1 -> zlen t1 = 16 -> zlen header1 <= max_string_length -> zlen c1 + 16 <= max_string_length ->
  bytes_ok header2 -> bytes_ok c2 -> bytes_ok t2 -> zlen t2 = 16 -> zlen header2 <= max_string_length -> zlen c2 + 16 <= max_string_length ->
  (header1, c1) <> (header2, c2) ->
  NoDup (map (fun '(key, iv) => poly_r (aead_key key iv)) keys) ->
  (forall key iv, In (key, iv) keys -> (zlen key = 16 \/ zlen key = 32) /\ (zlen iv = 8 \/ zlen iv = 12) /\ bytes_ok key /\ bytes_ok iv /\
    poly_s (aead_key key iv) = s /\ chapoly_accepts fresh P key iv header1 (c1 ++ t1) /\ chapoly_accepts fresh P key iv header2 (c2 ++ t2)) ->
  zlen keys <= 8 * Z.max (auth_blocks header1 c1) (auth_blocks header2 c2).
Proof. exact chapoly_forgeries. Qed.
Print Assumptions C94_chacha20_poly1305.

(* an IV used twice, which makes two messages accepted *)
Definition c94_key : bytes := [1; 2; 3; 4; 5; 6; 7; 8; 9; 10; 11; 12; 13; 14; 15; 16].
Definition c94_iv : bytes := [1; 2; 3; 4; 5; 6; 7; 8].
Definition c94_t1 : bytes := [59; 57; 70; 102; 198; 186; 87; 62; 116; 146; 54; 62; 197; 159; 4; 40].
Definition c94_t2 : bytes := [54; 234; 4; 186; 204; 58; 144; 25; 52; 123; 207; 115; 83; 47; 174; 163].
Example C94_case :
  (forall key iv, In (key, iv) [(c94_key, c94_iv)] -> (zlen key = 16 \/ zlen key = 32) /\ (zlen iv = 8 \/ zlen iv = 12) /\
    poly_s (aead_key key iv) = 175198039679721876617074552179974343823 /\
    chapoly_accepts zeros (poly64 mach) key iv [1; 2] ([3] ++ c94_t1) /\ chapoly_accepts zeros (poly64 mach) key iv [1] ([2; 3] ++ c94_t2)) /\
  NoDup (map (fun '(key, iv) => poly_r (aead_key key iv)) [(c94_key, c94_iv)]) /\
  chapoly_accepts_b zeros (poly64 mach) c94_key c94_iv [1; 2] ([3] ++ c94_t2) = false /\
  auth_blocks [1; 2] [3] = 3.
Proof.
  split; [|split; [constructor; [intros []|constructor]|split; vm_compute; reflexivity]].
  intros key iv [E|[]]. injection E as <- <-. split; [left; reflexivity|]. split; [left; reflexivity|]. split; [vm_compute; reflexivity|].
  split; apply chapoly_accepts_intro; vm_compute; reflexivity.
Qed.

(* C95.  AES-GCM.  The hash key is the encryption of the block of zeroes, and the tag is masked with the encryption e of the
   initial counter block.  Given two different messages and any tags, for each e at most one hash key per block. *)
Theorem C95_aes_gcm : forall fresh accel nb header1 c1 t1 header2 c2 t2 e keys, (forall n, 0 <= n -> zlen (fresh n) = n) -> aes_class fresh nb ->
  bytes_ok header1 -> bytes_ok c1 -> bytes_ok t1 -> zlen t1 = 16 -> zlen header1 <= max_string_length -> zlen c1 + 144 <= max_string_length ->
  bytes_ok header2 -> bytes_ok c2 -> bytes_ok t2 -> zlen t2 = 16 -> zlen header2 <= max_string_length -> zlen c2 + 144 <= max_string_length ->
  (header1, c1) <> (header2, c2) ->
  NoDup (map (fun '(key, iv) => aes_E key (zeros 16)) keys) ->
  (forall key iv, In (key, iv) keys -> aes_key_size key /\ bytes_ok key /\ bytes_ok iv /\ zlen iv <= max_string_length /\
    aes_E key (gcm_J0 (aes_E key) iv) = e /\ gcm_accepts fresh accel nb key iv header1 (c1 ++ t1) /\ gcm_accepts fresh accel nb key iv header2 (c2 ++ t2)) ->
  zlen keys <= Z.max (auth_blocks header1 c1) (auth_blocks header2 c2).
Proof. exact gcm_forgeries. Qed.
Print Assumptions C95_aes_gcm.

Definition c95_iv : bytes := [1; 2; 3; 4; 5; 6; 7; 8; 9; 10; 11; 12].
Definition c95_t1 : bytes := [85; 183; 234; 213; 68; 60; 173; 87; 58; 67; 53; 99; 80; 122; 14; 223].
Definition c95_t2 : bytes := [251; 135; 15; 188; 175; 231; 48; 77; 235; 248; 34; 137; 81; 92; 240; 194].
Example C95_case :
  (forall key iv, In (key, iv) [(c94_key, c95_iv)] -> aes_key_size key /\
    aes_E key (gcm_J0 (aes_E key) iv) = [173; 118; 99; 33; 110; 122; 173; 172; 115; 129; 154; 148; 121; 123; 165; 84] /\
    gcm_accepts zeros true (new_aes zeros Encrypt) key iv [1; 2] ([3] ++ c95_t1) /\ gcm_accepts zeros true (new_aes zeros Encrypt) key iv [1] ([2; 3] ++ c95_t2)) /\
  NoDup (map (fun '(key, iv) => aes_E key (zeros 16)) [(c94_key, c95_iv)]) /\
  gcm_accepts_b zeros true (new_aes zeros Encrypt) c94_key c95_iv [1; 2] ([3] ++ c95_t2) = false.
Proof.
  split; [|split; [constructor; [intros []|constructor]|vm_compute; reflexivity]].
  intros key iv [E|[]]. injection E as <- <-. split; [left; reflexivity|]. split; [vm_compute; reflexivity|].
  split; apply gcm_accepts_intro; vm_compute; reflexivity.
Qed.
