(* Methods input_block_size and output_block_size of the transforms. *)
From Verif Require Import Prelude SpecBlock TransformModel BlockModel CipherModel CipherSpec CipherApi EncModel EncLawful SpecTransducer LibTransform.

(* class cipher (cryptokit.ml 778-779): the block size, twice;
   cipher_padded_encrypt (843) redefines the first, cipher_padded_decrypt
   (863) the second, to 1.  The classes inherit from [cipher] (841, 861).
   [bm]: the block size of the chained cipher. *)
Definition cipher_sizes (bm : Z) (p : option padding) (d : dir) : Z * Z :=
  match p, d with
  | None, _ => (bm, bm)
  | Some _, Encrypt => (1, bm)
  | Some _, Decrypt => (bm, 1)
  end.

(* a transform, with the values of its two methods: stream ciphers
   (cryptokit.ml 1041-1042), encodings (2247-2248, 2343-2344, 2409-2410,
   2448-2449), composition (200-201) *)
Inductive basic_transform (fresh : Z -> bytes) : tobj -> Z -> Z -> Z -> Z -> Prop :=
  | BT_cipher nb key bs E D m p iv d o ib ob :
      block_family nb key bs E D -> mode_ok bs (dmode m) -> iv_ok bs (dmode m) iv ->
      (forall q, p = Some q -> pad_supports q (mode_bs bs (dmode m))) ->
      make_cipher fresh nb m (option_map scheme_of p) iv key d = Ret o ->
      cipher_sizes (mode_bs bs (dmode m)) p d = (ib, ob) ->
      basic_transform fresh o 1 (4 * mode_bs bs (dmode m)) ib ob
  | BT_stream K prim wipe f rel k s :
      stream_prim K prim f rel -> rel k s -> basic_transform fresh (stream_obj fresh K prim wipe k) 1 0 1 1
  | BT_b64e ml pad : basic_transform fresh (base64_encode_obj fresh ml pad) 2 9 1 1
  | BT_b64d : basic_transform fresh (base64_decode_obj fresh) 1 3 1 1
  | BT_hexe : basic_transform fresh (hexa_encode_obj fresh) 2 0 1 1
  | BT_hexd : basic_transform fresh (hexa_decode_obj fresh) 1 1 1 1.
Inductive sized_transform (fresh : Z -> bytes) : tobj -> Z -> Z -> Z -> Z -> Prop :=
  | ST_basic o K A ib ob : basic_transform fresh o K A ib ob -> sized_transform fresh o K A ib ob
  | ST_compose o1 K1 A1 i1 b1 o2 K2 A2 i2 b2 :
      sized_transform fresh o1 K1 A1 i1 b1 -> sized_transform fresh o2 K2 A2 i2 b2 ->
      sized_transform fresh (composed o1 o2) (K1 * K2) (K2 * A1 + 2 * A2) i1 b2.
