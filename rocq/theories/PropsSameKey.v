(* C101: different keys that give the same function; C102: DES, complements and weak keys. *)
From Verif Require Import Prelude SpecHash ShaModel HashModel EncModel EncLawful HashSpec BlockModel CipherModel BlockObj DesModel BlowfishModel StreamModel MacModel HashLib SpecCollide SpecSameKey SameKey DesInvert.

(* C101.  [same_cycle key key']: the two keys repeated for ever are the same sequence;
   a key and its repetitions are an instance. *)
Theorem C101_blowfish : forall d key key', 4 <= zlen key <= 56 -> 4 <= zlen key' <= 56 -> bytes_ok key -> bytes_ok key' -> same_cycle key key' ->
  new_blowfish d key = new_blowfish d key'.
Proof. exact blowfish_cycle. Qed.
Print Assumptions C101_blowfish.
Theorem C101_arcfour : forall fresh d key key', 1 <= zlen key <= 256 -> 1 <= zlen key' <= 256 -> same_cycle key key' ->
  new_arcfour key = new_arcfour key' /\ Cipher_arcfour fresh key d = Cipher_arcfour fresh key' d.
Proof. intros fresh d key key' L L' H. assert (E := arcfour_cycle key key' L L' H). split; [exact E|]. unfold Cipher_arcfour. rewrite E. reflexivity. Qed.
Print Assumptions C101_arcfour.
Theorem C101_repeated : forall key n, key <> [] -> (0 < n)%nat -> same_cycle key (concat (repeat key n)).
Proof. intros key n H Hn. apply repeat_cycle; [|exact Hn]. destruct key; [contradiction|cbn; lia]. Qed.
Print Assumptions C101_repeated.
(* a key of two parts is the key of three parts whose last is the first again; the same
   for the MAC that ends with triple DES *)
Theorem C101_triple_two : forall fresh iv p d k1 k2, zlen k1 = 8 -> zlen k2 = 8 ->
  new_triple_des d (k1 ++ k2) = new_triple_des d (k1 ++ k2 ++ k1) /\
  des_final_triple_des fresh new_des iv p (k1 ++ k2) = des_final_triple_des fresh new_des iv p (k1 ++ k2 ++ k1).
Proof. intros fresh iv p d k1 k2 L1 L2. split; [exact (triple_two d k1 k2 L1 L2)|exact (final_two fresh iv p k1 k2 L1 L2)]. Qed.
Print Assumptions C101_triple_two.
(* three parts with two equal neighbours: DES with the other part *)
Theorem C101_triple_neighbours : forall d k k', zlen k = 8 -> zlen k' = 8 -> bytes_ok k -> bytes_ok k' ->
  exists o o1 o2, new_des d k' = Ret o /\ new_triple_des d (k ++ k ++ k') = Ret o1 /\ new_triple_des d (k' ++ k ++ k) = Ret o2 /\
    same_block o o1 /\ same_block o o2.
Proof. exact triple_neighbours. Qed.
Print Assumptions C101_triple_neighbours.
(* HMAC: zero bytes added to a key within the block; a key longer than the block and its hash *)
Theorem C101_hmac_zeros : forall fresh o d B key n, (forall n, 0 <= n -> zlen (fresh n) = n) -> hmac_hash fresh o d B -> bytes_ok key -> 0 <= n -> zlen key + n <= B ->
  exists h1 h2, hmac_of o B key = Ret h1 /\ hmac_of o B (key ++ zeros n) = Ret h2 /\ forall ops, Forall hop_valid ops -> result_of h1 ops = result_of h2 ops.
Proof. exact hmac_zeros. Qed.
Print Assumptions C101_hmac_zeros.
Theorem C101_hmac_long : forall fresh o d B key, (forall n, 0 <= n -> zlen (fresh n) = n) -> hmac_hash fresh o d B -> bytes_ok key -> B < zlen key <= max_string_length ->
  exists h1 h2, hmac_of o B key = Ret h1 /\ hmac_of o B (d key) = Ret h2 /\ forall ops, Forall hop_valid ops -> result_of h1 ops = result_of h2 ops.
Proof. exact hmac_long. Qed.
Print Assumptions C101_hmac_long.
Example C101_case : same_cycle [1; 2; 3; 4] [1; 2; 3; 4; 1; 2; 3; 4] /\
  (olet o := new_arcfour [1; 2] in Ret (snd (fst (sc_transform (so_sc o) (so_st o) [0; 0; 0] 0 [0; 0; 0] 0 3)))) =
  (olet o := new_arcfour [1; 2; 1; 2; 1; 2] in Ret (snd (fst (sc_transform (so_sc o) (so_st o) [0; 0; 0] 0 [0; 0; 0] 0 3)))) /\
  new_triple_des Encrypt (zeros 16) = new_triple_des Encrypt (zeros 24) /\
  hmac_hash zeros (sha1_obj zeros) sha1 64 /\
  (olet h := hmac_of (sha1_obj zeros) 64 [107] in result_of h [HByte 1]) = (olet h := hmac_of (sha1_obj zeros) 64 [107; 0; 0] in result_of h [HByte 1]).
Proof. split; [exact (repeat_cycle [1; 2; 3; 4] 2 ltac:(cbn; lia) ltac:(lia))|]. split; [vm_compute; reflexivity|]. split; [exact (triple_two Encrypt (zeros 8) (zeros 8) eq_refl eq_refl)|]. split; [constructor|vm_compute; reflexivity]. Qed.

(* C102.  [inverts o o']: o' does to inverted bytes what o does to the bytes.
   [weak_pairs]: the four weak keys, each with itself, and the six pairs of semi-weak keys. *)
Theorem C102_complement : forall d key, zlen key = 8 -> bytes_ok key ->
  exists o o', new_des d key = Ret o /\ new_des d (inverted key) = Ret o' /\ inverts o o'.
Proof. exact des_invert. Qed.
Print Assumptions C102_complement.
Theorem C102_triple_complement : forall d key, zlen key = 16 \/ zlen key = 24 -> bytes_ok key ->
  exists o o', new_triple_des d key = Ret o /\ new_triple_des d (inverted key) = Ret o' /\ inverts o o'.
Proof. exact triple_invert. Qed.
Print Assumptions C102_triple_complement.
Theorem C102_weak_keys : forall k k', In (k, k') weak_pairs ->
  (new_des Encrypt k = new_des Decrypt k' /\ new_des Decrypt k = new_des Encrypt k') /\
  exists o o', new_des Encrypt k = Ret o /\ new_des Encrypt k' = Ret o' /\ undoes o o' 8 /\ undoes o' o 8.
Proof. intros k k' H. split; [exact (weak_same k k' H)|exact (weak_undoes k k' H)]. Qed.
Print Assumptions C102_weak_keys.
Example C102_case :
  let enc key b := olet o := new_des Encrypt key in Ret (snd (fst (bc_transform (b_bc o) (b_st o) b 0 (zeros 8) 0))) in
  enc [0x01;0x23;0x45;0x67;0x89;0xab;0xcd;0xef] [0x01;0x23;0x45;0x67;0x89;0xab;0xcd;0xe7] = Ret [0xc9;0x57;0x44;0x25;0x6a;0x5e;0xd3;0x1d] /\
  enc [0xfe;0xdc;0xba;0x98;0x76;0x54;0x32;0x10] [0xfe;0xdc;0xba;0x98;0x76;0x54;0x32;0x18] = Ret [0x36;0xa8;0xbb;0xda;0x95;0xa1;0x2c;0xe2] /\
  (olet c := enc [0x01;0x1F;0x01;0x1F;0x01;0x0E;0x01;0x0E] [1;2;3;4;5;6;7;8] in enc [0x1F;0x01;0x1F;0x01;0x0E;0x01;0x0E;0x01] c) = Ret [1;2;3;4;5;6;7;8].
Proof. split; [|split]; vm_compute; reflexivity. Qed.
