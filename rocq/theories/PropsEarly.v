(* Property of authenticated decryption: C115. *)
From Verif Require Import Prelude SpecTransducer SpecBlock TransformModel CipherModel EncModel EncApi SpecAes AesModel AesniModel
  SpecStream StreamModel SpecPoly PolyModel Poly Aes AesApi HashModel ShaModel AuthModel AeadModel Auth SpecAead Gcm GcmObj ChaPoly AeadApi Toy Early.

(* C115.  [released o c]: what get_string returns after put_string c, with no call to
   finish_and_get_tag.  The ChaCha20-Poly1305 object has delivered the decryption of all of
   c, for any c, even those for which no tag was ever made; the transform that checks the
   tag delivers nothing for the same bytes with a wrong tag. *)
Theorem C115_chapoly : forall (fresh : Z -> bytes) P header iv key, (forall n, 0 <= n -> zlen (fresh n) = n) -> poly_class P ->
  zlen key = 16 \/ zlen key = 32 -> zlen iv = 8 \/ zlen iv = 12 -> bytes_ok key -> bytes_ok iv -> bytes_ok header -> zlen header <= max_string_length ->
  exists o, chacha20_poly1305 fresh P header iv key Decrypt = Ret o /\
  forall c, bytes_ok c -> zlen c + 16 <= max_string_length ->
  released o c = Ret (aead_C key iv c) /\
  forall t, bytes_ok t -> zlen t = 16 -> t <> aead_T key iv header c -> auth_check o (c ++ t) = Ret None.
Proof. exact chapoly_early. Qed.
Print Assumptions C115_chapoly.

(* AES-GCM: everything except the last block, whole or not. *)
Theorem C115_gcm : forall (fresh : Z -> bytes) accel nb key A iv, (forall n, 0 <= n -> zlen (fresh n) = n) -> aes_class fresh nb ->
  aes_key_size key -> bytes_ok key -> bytes_ok A -> bytes_ok iv -> zlen A <= max_string_length -> zlen iv <= max_string_length ->
  exists o, aes_gcm fresh accel nb A iv key Decrypt = Ret o /\
  forall X b, Forall (fun x => zlen x = 16) X -> bytes_ok (concat X) -> bytes_ok b -> 0 < zlen b <= 16 ->
  zlen (concat X) + 160 <= max_string_length ->
  released o (concat X ++ b) = Ret (gcm_C (aes_E key) iv (concat X)) /\
  forall t, bytes_ok t -> zlen t = 16 -> t <> gcm_T (aes_E key) iv A (concat X ++ b) -> auth_check o (concat X ++ b ++ t) = Ret None.
Proof. exact gcm_early. Qed.
Print Assumptions C115_gcm.

(* The first bytes of the ciphertext of RFC 8439 2.8.2, and one bit flipped: the altered text
   comes out, and is refused by the checking transform. *)
Definition early_key : bytes := map Z.of_nat (seq 128 32).
Definition early_iv : bytes := [7; 0; 0; 0; 64; 65; 66; 67; 68; 69; 70; 71].
Definition early_cipher : bytes := [0xd3; 0x1a; 0x8d; 0x34; 0x64; 0x8e].
Example C115_case :
  match chacha20_poly1305 toy_fresh (poly64 mach) [80] early_iv early_key Decrypt with
  | Ret o => released o early_cipher = Ret [76; 97; 100; 105; 101; 115] /\
             released o (xorb early_cipher [0; 0; 0; 0; 0; 1]) = Ret [76; 97; 100; 105; 101; 114] /\
             auth_check o (xorb early_cipher [0; 0; 0; 0; 0; 1] ++ zeros 16) = Ret None
  | _ => False
  end.
Proof. vm_compute. repeat split; reflexivity. Qed.
