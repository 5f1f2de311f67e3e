(* Properties of the block cipher primitives. *)
From Verif Require Import Prelude BlockModel CipherModel BlockObj SpecAes AesModel Aes AesniModel Toy AesApi SpecDes DesModel DesApi SpecBlowfish BlowfishModel Blowfish.

(* C17: the software AES computes FIPS 197, in both directions, on any ranges of any buffers,
   and rejects ranges outside its buffers. *)
Theorem C17_aes_encrypt : forall (fresh : Z -> bytes) key, (forall n, 0 <= n -> zlen (fresh n) = n) ->
  aes_key_size key -> bytes_ok key ->
  exists o, new_aes fresh Encrypt key = Ret o /\ block_computes o 16 (aes_E key) /\ block_checks o 16.
Proof. intros fresh key. exact (new_aes_computes fresh Encrypt key). Qed.
Print Assumptions C17_aes_encrypt.
Theorem C17_aes_decrypt : forall (fresh : Z -> bytes) key, (forall n, 0 <= n -> zlen (fresh n) = n) ->
  aes_key_size key -> bytes_ok key ->
  exists o, new_aes fresh Decrypt key = Ret o /\ block_computes o 16 (aes_D key) /\ block_checks o 16.
Proof. intros fresh key. exact (new_aes_computes fresh Decrypt key). Qed.
Print Assumptions C17_aes_decrypt.
(* FIPS 197 appendix C.1: the specification and the object give the published ciphertext *)
Example C17_case :
  aes_E [0;1;2;3;4;5;6;7;8;9;10;11;12;13;14;15] [0;17;34;51;68;85;102;119;136;153;170;187;204;221;238;255]
    = [105;196;224;216;106;123;4;48;216;205;183;128;112;180;197;90] /\
  match new_aes toy_fresh Encrypt [0;1;2;3;4;5;6;7;8;9;10;11;12;13;14;15] with
  | Ret o => snd (fst (bc_transform (b_bc o) (b_st o) [9;9;0;17;34;51;68;85;102;119;136;153;170;187;204;221;238;255] 2 (zeros 18) 1))
      = [0;105;196;224;216;106;123;4;48;216;205;183;128;112;180;197;90;0]
  | _ => False
  end.
Proof. vm_compute. split; reflexivity. Qed.

(* C18 *)
Theorem C18_aes_inverse : forall (fresh : Z -> bytes) key, (forall n, 0 <= n -> zlen (fresh n) = n) ->
  aes_key_size key -> bytes_ok key ->
  exists e d, new_aes fresh Encrypt key = Ret e /\ new_aes fresh Decrypt key = Ret d /\ undoes e d 16 /\ undoes d e 16.
Proof. exact aes_undoes. Qed.
Print Assumptions C18_aes_inverse.
Example C18_case :
  match new_aes toy_fresh Decrypt [0;1;2;3;4;5;6;7;8;9;10;11;12;13;14;15] with
  | Ret o => snd (fst (bc_transform (b_bc o) (b_st o) [105;196;224;216;106;123;4;48;216;205;183;128;112;180;197;90] 0 (zeros 16) 0))
      = [0;17;34;51;68;85;102;119;136;153;170;187;204;221;238;255]
  | _ => False
  end.
Proof. vm_compute. reflexivity. Qed.

(* C19: whichever implementation the machine selects, results and exceptions are the same *)
Theorem C19_aesni_agrees : forall (fresh : Z -> bytes) d key, (forall n, 0 <= n -> zlen (fresh n) = n) -> bytes_ok key ->
  (exists a b, new_aes fresh d key = Ret a /\ new_aesni fresh d key = Ret b /\ same_transform a b) \/
  (new_aes fresh d key = Raise (Error Wrong_key_size) /\ new_aesni fresh d key = Raise (Error Wrong_key_size)).
Proof. exact aesni_same. Qed.
Print Assumptions C19_aesni_agrees.
Theorem C19_aesni_computes : forall (fresh : Z -> bytes) d key, (forall n, 0 <= n -> zlen (fresh n) = n) ->
  aes_key_size key -> bytes_ok key ->
  exists o, new_aesni fresh d key = Ret o /\ block_computes o 16 (aes_dir d key) /\ block_checks o 16.
Proof. exact new_aesni_computes. Qed.
Print Assumptions C19_aesni_computes.
Example C19_case :
  match new_aesni toy_fresh Encrypt [0;1;2;3;4;5;6;7;8;9;10;11;12;13;14;15;16;17;18;19;20;21;22;23] with
  | Ret o => snd (fst (bc_transform (b_bc o) (b_st o) [0;17;34;51;68;85;102;119;136;153;170;187;204;221;238;255] 0 (zeros 16) 0))
      = [221;169;124;164;134;76;223;224;110;175;112;160;236;13;113;145]
  | _ => False
  end.
Proof. vm_compute. reflexivity. Qed.

(* C15, AES keys *)
Theorem C15_aes_key_size : forall (fresh : Z -> bytes) d key, (forall n, 0 <= n -> zlen (fresh n) = n) -> bytes_ok key ->
  (aes_key_size key -> (exists o, new_aes fresh d key = Ret o) /\ (exists o, new_aesni fresh d key = Ret o)) /\
  (~ aes_key_size key -> new_aes fresh d key = Raise (Error Wrong_key_size) /\ new_aesni fresh d key = Raise (Error Wrong_key_size)).
Proof. exact aes_key_sizes. Qed.
Print Assumptions C15_aes_key_size.
Example C15_aes_case : aes_key_size (zeros 24) /\ ~ aes_key_size (zeros 17).
Proof. unfold aes_key_size. vm_compute. split; [auto|]. intros [H|[H|H]]; discriminate H. Qed.

(* C20 *)
Theorem C20_des : forall d key, zlen key = 8 -> bytes_ok key ->
  exists o, new_des d key = Ret o /\ block_computes o 8 (match d with Encrypt => des_E key | Decrypt => des_D key end) /\ block_checks o 8.
Proof. exact new_des_computes. Qed.
Print Assumptions C20_des.
(* the single-length validation set at the end of d3des.c *)
Example C20_case :
  des_E [0x01;0x23;0x45;0x67;0x89;0xab;0xcd;0xef] [0x01;0x23;0x45;0x67;0x89;0xab;0xcd;0xe7] = [0xc9;0x57;0x44;0x25;0x6a;0x5e;0xd3;0x1d] /\
  match new_des Encrypt [0x01;0x23;0x45;0x67;0x89;0xab;0xcd;0xef] with
  | Ret o => snd (fst (bc_transform (b_bc o) (b_st o) [0x01;0x23;0x45;0x67;0x89;0xab;0xcd;0xe7] 0 (zeros 9) 1))
      = [0; 0xc9;0x57;0x44;0x25;0x6a;0x5e;0xd3;0x1d]
  | _ => False
  end.
Proof. vm_compute. split; reflexivity. Qed.

(* C21 *)
Theorem C21_des_inverse : forall key, zlen key = 8 -> bytes_ok key ->
  exists e d, new_des Encrypt key = Ret e /\ new_des Decrypt key = Ret d /\ undoes e d 8 /\ undoes d e 8.
Proof. exact des_undoes. Qed.
Print Assumptions C21_des_inverse.
(* triple DES is EDE with keys 0..7, 8..15 and 16..23 (0..7 again for 16-byte keys) *)
Theorem C21_triple_des : forall d key, zlen key = 16 \/ zlen key = 24 -> bytes_ok key ->
  exists o, new_triple_des d key = Ret o /\ block_computes o 8 (match d with Encrypt => tdea_E key | Decrypt => tdea_D key end) /\ block_checks o 8.
Proof. exact new_triple_computes. Qed.
Print Assumptions C21_triple_des.
Theorem C21_triple_des_inverse : forall key, zlen key = 16 \/ zlen key = 24 -> bytes_ok key ->
  exists e d, new_triple_des Encrypt key = Ret e /\ new_triple_des Decrypt key = Ret d /\ undoes e d 8 /\ undoes d e 8.
Proof. exact triple_undoes. Qed.
Print Assumptions C21_triple_des_inverse.
(* the double- and triple-length validation sets at the end of d3des.c *)
Example C21_case :
  match new_triple_des Encrypt [0x01;0x23;0x45;0x67;0x89;0xab;0xcd;0xef; 0xfe;0xdc;0xba;0x98;0x76;0x54;0x32;0x10],
        new_triple_des Encrypt [0x01;0x23;0x45;0x67;0x89;0xab;0xcd;0xef; 0xfe;0xdc;0xba;0x98;0x76;0x54;0x32;0x10; 0x89;0xab;0xcd;0xef;0x01;0x23;0x45;0x67] with
  | Ret o, Ret o' =>
      snd (fst (bc_transform (b_bc o) (b_st o) [0x01;0x23;0x45;0x67;0x89;0xab;0xcd;0xe7] 0 (zeros 8) 0)) = [0x7f;0x1d;0x0a;0x77;0x82;0x6b;0x8a;0xff] /\
      snd (fst (bc_transform (b_bc o') (b_st o') [0x01;0x23;0x45;0x67;0x89;0xab;0xcd;0xe7] 0 (zeros 8) 0)) = [0xde;0x0b;0x7c;0x06;0xae;0x5e;0x0e;0xd5]
  | _, _ => False
  end.
Proof. vm_compute. split; reflexivity. Qed.

(* C15, DES and triple DES keys *)
Theorem C15_des_key_size : forall d key, bytes_ok key ->
  (zlen key = 8 -> exists o, new_des d key = Ret o) /\ (zlen key <> 8 -> new_des d key = Raise (Error Wrong_key_size)) /\
  (zlen key = 16 \/ zlen key = 24 -> exists o, new_triple_des d key = Ret o) /\
  (~ (zlen key = 16 \/ zlen key = 24) -> new_triple_des d key = Raise (Error Wrong_key_size)).
Proof. exact des_key_sizes. Qed.
Print Assumptions C15_des_key_size.
Example C15_des_case : new_des Encrypt (zeros 7) = Raise (Error Wrong_key_size) /\ new_triple_des Decrypt (zeros 8) = Raise (Error Wrong_key_size).
Proof. split; reflexivity. Qed.

(* C22 *)
Theorem C22_blowfish : forall d key, 4 <= zlen key <= 56 -> bytes_ok key ->
  exists o, new_blowfish d key = Ret o /\ block_computes o 8 (match d with Encrypt => blowfish_E key | Decrypt => blowfish_D key end) /\ block_checks o 8.
Proof. exact new_blowfish_computes. Qed.
Print Assumptions C22_blowfish.
Theorem C22_blowfish_inverse : forall key, 4 <= zlen key <= 56 -> bytes_ok key ->
  exists e d, new_blowfish Encrypt key = Ret e /\ new_blowfish Decrypt key = Ret d /\ undoes e d 8 /\ undoes d e 8.
Proof. exact blowfish_undoes. Qed.
Print Assumptions C22_blowfish_inverse.
(* the first of Eric Young's test vectors *)
Example C22_case :
  match new_blowfish Encrypt (zeros 8) with
  | Ret o => snd (fst (bc_transform (b_bc o) (b_st o) (zeros 8) 0 (zeros 8) 0)) = [0x4e;0xf9;0x97;0x45;0x61;0x98;0xdd;0x78]
  | _ => False
  end.
Proof. vm_compute. reflexivity. Qed.

(* C15, Blowfish keys *)
Theorem C15_blowfish_key_size : forall d key, bytes_ok key ->
  (4 <= zlen key <= 56 -> exists o, new_blowfish d key = Ret o) /\ (~ 4 <= zlen key <= 56 -> new_blowfish d key = Raise (Error Wrong_key_size)).
Proof. exact blowfish_key_sizes. Qed.
Print Assumptions C15_blowfish_key_size.
Example C15_blowfish_case : new_blowfish Encrypt (zeros 3) = Raise (Error Wrong_key_size) /\ new_blowfish Decrypt (zeros 57) = Raise (Error Wrong_key_size).
Proof. split; reflexivity. Qed.
