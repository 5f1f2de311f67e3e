(* C100: hash functions chosen by the size of the digest.  The definitions are in SpecDigest.v *)
From Verif Require Import Prelude SpecHash HashModel HashSpec ShaModel SpecDigest DigestSize.

(* for the sizes of the documentation: the digest of the standard, of exactly sz bits.  BLAKE3 is defined for less than 2^64 bytes *)
Theorem C100_by_size : forall (fresh : Z -> bytes) f sz, (forall n, 0 <= n -> zlen (fresh n) = n) -> size_allowed f sz ->
  exists o, hash_by_size fresh f sz = Ret o /\
    computes_on (fun m : bytes => f = FBlake3 -> zlen m < 2 ^ 64) o (fun m => Ret (digest_of f sz m)) /\ (forall m, zlen (digest_of f sz m) = sz / 8).
Proof. intros fresh f sz Hf H. destruct (by_size fresh f sz Hf H) as (o & E & C). exact (ex_intro _ o (conj E (conj C (fun m => digest_size f sz m H)))). Qed.
Print Assumptions C100_by_size.
(* for every other integer, negative ones included, the exception Wrong_key_size *)
Theorem C100_refused : forall (fresh : Z -> bytes) f sz, ~ size_allowed f sz -> hash_by_size fresh f sz = Raise (Error Wrong_key_size).
Proof. exact by_size_other. Qed.
Print Assumptions C100_refused.
(* hence digests of two sizes never agree, whatever was added *)
Theorem C100_sizes_differ : forall (fresh : Z -> bytes) f sz1 sz2 o1 o2 ops1 ops2 r1 r2, (forall n, 0 <= n -> zlen (fresh n) = n) ->
  hash_by_size fresh f sz1 = Ret o1 -> hash_by_size fresh f sz2 = Ret o2 ->
  Forall hop_valid ops1 -> Forall hop_valid ops2 -> zlen (added ops1) < 2 ^ 64 -> zlen (added ops2) < 2 ^ 64 ->
  snd (h_result (ho_class o1) (fst (h_run (ho_class o1) (ho_st o1) ops1))) = Ret r1 -> snd (h_result (ho_class o2) (fst (h_run (ho_class o2) (ho_st o2) ops2))) = Ret r2 ->
  zlen r1 = sz1 / 8 /\ zlen r2 = sz2 / 8 /\ (r1 = r2 -> sz1 = sz2).
Proof. exact by_size_differ. Qed.
Print Assumptions C100_sizes_differ.
Example C100_case : size_allowed FSha2 384 /\ size_allowed FBlake2b 160 /\ ~ size_allowed FBlake2s 512 /\
  hash_by_size zeros FSha2 160 = Raise (Error Wrong_key_size) /\ hash_by_size zeros FBlake3 (-8) = Raise (Error Wrong_key_size) /\
  (olet o := hash_by_size zeros FSha2 224 in obj_hash_string o [97; 98; 99]) =
    Ret [35; 9; 125; 34; 52; 5; 216; 34; 134; 66; 164; 119; 189; 162; 85; 179; 42; 173; 188; 228; 189; 160; 179; 247; 227; 108; 157; 167].
Proof. repeat split; try (vm_compute; reflexivity); try (cbn; tauto); try lia. intros [H _]. lia. Qed.
