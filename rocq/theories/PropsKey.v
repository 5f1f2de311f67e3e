(* C15 for the constructors of module MAC; C70: DES keys; standard test vectors for C37 and C38. *)
From Verif Require Import Prelude SpecBlake3 HashModel HashSpec BlockModel CipherModel AesModel AesniModel DesModel MacModel Blake3Model MacCons MacKeys SpecDes BlockObj DesParity.

(* [mac_make fresh c key]: constructor c of module MAC applied to key.
   [mac_key_allowed], [mac_iv_allowed]: the documented sizes. *)
Theorem C15_mac_sizes_partial : forall (fresh : Z -> bytes) c key, (forall n, 0 <= n -> zlen (fresh n) = n) ->
  bytes_ok key -> zlen key <= max_string_length -> mac_args_ok fresh c -> (forall sz, c = MBlake3 sz -> key <> []) ->
  (mac_key_allowed c key -> mac_iv_allowed c -> exists o, mac_make fresh c key = Ret o) /\
  (~ mac_key_allowed c key -> mac_make fresh c key = Raise (Error Wrong_key_size)) /\
  (mac_key_allowed c key -> ~ mac_iv_allowed c -> mac_make fresh c key = Raise (Error Wrong_IV_size)).
Proof. exact mac_sizes. Qed.
Print Assumptions C15_mac_sizes_partial.
(* MAC.blake3 and the empty key: accepted, although the key must have length 32,
   and the object computes the hash without a key *)
Theorem C15_blake3_mac_refuted : forall fresh sz, 0 < sz -> sz mod 8 = 0 -> exists key, ~ mac_key_allowed (MBlake3 sz) key /\
  exists o, mac_make fresh (MBlake3 sz) key = Ret o /\
    computes_on (fun m => zlen m < 2 ^ 64) o (fun m => Ret (blake3_spec [] (sz / 8) m)).
Proof. intros fresh sz H1 H2. exists []. exact (blake3_empty_key fresh sz H1 H2). Qed.
Print Assumptions C15_blake3_mac_refuted.
Example C15_mac_case :
  mac_make zeros (MCmac true None) (zeros 17) = Raise (Error Wrong_key_size) /\
  mac_make zeros (MFinal (Some (zeros 16)) None) (zeros 24) = Raise (Error Wrong_IV_size) /\
  (exists o, mac_make zeros (MFinal (Some (zeros 8)) None) (zeros 24) = Ret o) /\
  mac_make zeros (MSip 96) (zeros 16) = Raise (Error Wrong_key_size).
Proof. split; [reflexivity|]. split; [vm_compute; reflexivity|]. split; [eexists; reflexivity|reflexivity]. Qed.

(* C37: RFC 4493, section 4, examples 1 to 3, with both implementations of AES *)
Example C37_rfc4493 :
  let key := [0x2b; 0x7e; 0x15; 0x16; 0x28; 0xae; 0xd2; 0xa6; 0xab; 0xf7; 0x15; 0x88; 0x09; 0xcf; 0x4f; 0x3c] in
  let m := [0x6b; 0xc1; 0xbe; 0xe2; 0x2e; 0x40; 0x9f; 0x96; 0xe9; 0x3d; 0x7e; 0x11; 0x73; 0x93; 0x17; 0x2a;
            0xae; 0x2d; 0x8a; 0x57; 0x1e; 0x03; 0xac; 0x9c; 0x9e; 0xb7; 0x6f; 0xac; 0x45; 0xaf; 0x8e; 0x51;
            0x30; 0xc8; 0x1c; 0x46; 0xa3; 0x5c; 0xe4; 0x11] in
  let mac ni m := olet o := mac_make zeros (MCmac ni None) key in obj_hash_string o m in
  mac false [] = Ret [0xbb; 0x1d; 0x69; 0x29; 0xe9; 0x59; 0x37; 0x28; 0x7f; 0xa3; 0x7d; 0x12; 0x9b; 0x75; 0x67; 0x46] /\
  mac true (firstn 16 m) = Ret [0x07; 0x0a; 0x16; 0xb4; 0x6b; 0x4d; 0x41; 0x44; 0xf7; 0x9b; 0xdd; 0x9d; 0xd0; 0x4a; 0x28; 0x7c] /\
  mac false m = Ret [0xdf; 0xa6; 0x67; 0x47; 0xde; 0x9a; 0xe6; 0x30; 0x30; 0xca; 0x32; 0x61; 0x14; 0x97; 0xc8; 0x27].
Proof. split; [|split]; vm_compute; reflexivity. Qed.

(* C70.  Two keys that differ at most in the least significant bits of their bytes
   give the same objects (or the same exception). *)
Theorem C70_des_parity : forall d key key', map (fun b => b / 2) key = map (fun b => b / 2) key' ->
  new_des d key = new_des d key' /\ new_triple_des d key = new_triple_des d key' /\
  (forall fresh iv p, des_final_triple_des fresh new_des iv p key = des_final_triple_des fresh new_des iv p key').
Proof. intros d key key' H. split; [exact (des_parity d key key' H)|]. split; [exact (triple_parity d key key' H)|]. intros fresh iv p. exact (final_parity fresh iv p key key' H). Qed.
Print Assumptions C70_des_parity.
(* triple DES with three times the same key is DES *)
Theorem C70_triple_single : forall d key, zlen key = 8 -> bytes_ok key ->
  exists o o', new_des d key = Ret o /\ new_triple_des d (key ++ key ++ key) = Ret o' /\
    block_computes o 8 (match d with Encrypt => des_E key | Decrypt => des_D key end) /\
    block_computes o' 8 (match d with Encrypt => des_E key | Decrypt => des_D key end).
Proof. exact triple_single. Qed.
Print Assumptions C70_triple_single.
Example C70_case : let key := [0x01;0x23;0x45;0x67;0x89;0xab;0xcd;0xef] in let key' := [0x00;0x22;0x45;0x66;0x88;0xab;0xcc;0xee] in
  map (fun b => b / 2) key = map (fun b => b / 2) key' /\
  des_E key' [0x01;0x23;0x45;0x67;0x89;0xab;0xcd;0xe7] = [0xc9;0x57;0x44;0x25;0x6a;0x5e;0xd3;0x1d].
Proof. split; vm_compute; reflexivity. Qed.
