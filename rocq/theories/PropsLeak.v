(* Property of the software AES: C116. *)
From Verif Require Import Prelude SpecAes Aes AesModel SpecLeak LeakModel Leak Toy.

(* C116.  [rijndaelEncrypt_l]: rijndaelEncrypt with the list of the table entries it reads, as
   (table, index).  It computes the same, for any arguments. *)
Theorem C116_same : forall rk Nr pt, fst (rijndaelEncrypt_l rk Nr pt) = rijndaelEncrypt rk Nr pt.
Proof. exact encrypt_same. Qed.
Print Assumptions C116_same.

(* The result is FIPS 197 and the reads are at the bytes of its successive states. *)
Theorem C116_reads : forall (fresh : Z -> bytes) key b, (forall n, 0 <= n -> zlen (fresh n) = n) ->
  aes_key_size key -> bytes_ok key -> zlen b = 16 -> bytes_ok b ->
  aes_encrypt_l fresh key b = (Ret (aes_E key b), aes_table_reads key b).
Proof. exact aes_encrypt_l_ok. Qed.
Print Assumptions C116_reads.

(* Number of reads and tables read: they depend on the size of the key only. *)
Theorem C116_tables : forall (fresh : Z -> bytes) key b, (forall n, 0 <= n -> zlen (fresh n) = n) ->
  aes_key_size key -> bytes_ok key -> zlen b = 16 -> bytes_ok b ->
  map fst (snd (aes_encrypt_l fresh key b)) =
    concat (repeat [0; 1; 2; 3; 0; 1; 2; 3; 0; 1; 2; 3; 0; 1; 2; 3]%nat (Z.to_nat (zlen key / 4) + 5)) ++ repeat 4%nat 16.
Proof. exact leak_tables. Qed.
Print Assumptions C116_tables.

(* The first sixteen indices are the bytes of the block xor the first sixteen of the key. *)
Theorem C116_first : forall (fresh : Z -> bytes) key b n, (forall n, 0 <= n -> zlen (fresh n) = n) ->
  aes_key_size key -> bytes_ok key -> zlen b = 16 -> bytes_ok b -> (n < 16)%nat ->
  let j := (4 * ((n / 4 + n mod 4) mod 4) + n mod 4)%nat in
  nth n (snd (aes_encrypt_l fresh key b)) (0%nat, 0) = ((n mod 4)%nat, Z.lxor (nth j b 0) (nth j key 0)).
Proof. exact leak_first. Qed.
Print Assumptions C116_first.

(* So the indices read for one known block determine the whole key, of any size. *)
Theorem C116_key : forall (fresh fresh' : Z -> bytes) key key' b,
  (forall n, 0 <= n -> zlen (fresh n) = n) -> (forall n, 0 <= n -> zlen (fresh' n) = n) ->
  aes_key_size key -> aes_key_size key' -> bytes_ok key -> bytes_ok key' -> zlen b = 16 -> bytes_ok b ->
  snd (aes_encrypt_l fresh key b) = snd (aes_encrypt_l fresh' key' b) -> key = key'.
Proof. exact leak_key. Qed.
Print Assumptions C116_key.

(* FIPS 197 appendix C.1: reads 0 to 4, 16 and 17, and the number of reads *)
Example C116_case :
  let l := snd (aes_encrypt_l toy_fresh (map Z.of_nat (seq 0 16)) (map (fun i => 17 * Z.of_nat i) (seq 0 16))) in
  firstn 5 l = [(0%nat, 0x00); (1%nat, 0x50); (2%nat, 0xa0); (3%nat, 0xf0); (0%nat, 0x40)] /\
  firstn 2 (skipn 16 l) = [(0%nat, 0x89); (1%nat, 0x5a)] /\ length l = 160%nat.
Proof. vm_compute. repeat split; reflexivity. Qed.
