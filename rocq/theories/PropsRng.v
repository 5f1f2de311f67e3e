(* Properties C48 to C50: random generators. *)
From Verif Require Import Prelude BytesNum TransformModel BlockModel CipherModel SpecAes AesModel AesniModel SpecStream StreamModel SpecRng RngModel Rng Toy.

(* C48.  [r_run]: the buffers and outcomes of a sequence of calls random_bytes;
   [delivered]: those of a generator delivering the given bytes in order. *)
Theorem C48_stream : forall (fresh : Z -> bytes) seed, bytes_ok seed ->
  (zlen seed < 16 -> pseudo_rng fresh seed = Raise (Error Seed_too_short)) /\
  (16 <= zlen seed -> exists o, pseudo_rng fresh seed = Ret o /\
   forall qs, r_run (ro_class o) (ro_st o) qs = delivered (chacha20 (seed_key seed) 0 (zeros 8)) 0 qs).
Proof. exact pseudo_rng_stream. Qed.
Print Assumptions C48_stream.
(* seeds of the same length that differ in the first 32 bytes give different keys *)
Theorem C48_seeds_partial : forall s1 s2, 16 <= zlen s1 -> zlen s1 = zlen s2 -> seed_key s1 = seed_key s2 -> firstn 32 s1 = firstn 32 s2.
Proof. exact seed_key_inj. Qed.
Print Assumptions C48_seeds_partial.
(* seeds of different lengths can give the same generator *)
Theorem C48_seeds_refuted : forall fresh : Z -> bytes, exists s1 s2, s1 <> s2 /\ bytes_ok s1 /\ bytes_ok s2 /\ 16 <= zlen s1 /\ 16 <= zlen s2 /\
  exists o1 o2, pseudo_rng fresh s1 = Ret o1 /\ pseudo_rng fresh s2 = Ret o2 /\
  forall qs, r_run (ro_class o1) (ro_st o1) qs = r_run (ro_class o2) (ro_st o2) qs.
Proof. exact seed_collision. Qed.
Print Assumptions C48_seeds_refuted.
(* the all-zero key of 32 bytes: RFC 8439, A.1, test vector 1 begins 76 b8 e0 ad *)
Example C48_case :
  match pseudo_rng toy_fresh (zeros 40) with
  | Ret o => r_run (ro_class o) (ro_st o) [Req [9; 9; 9; 9] 1 2; Req [9] 0 2; Req [9; 9; 9] 1 2] =
             [([9; 0x76; 0xb8; 9], Ret tt); ([9], Raise Invalid_argument); ([9; 0xe0; 0xad], Ret tt)]
  | _ => False
  end.
Proof. vm_compute. reflexivity. Qed.

(* C49 *)
Theorem C49_stream : forall (fresh : Z -> bytes) nb seed, (forall n, 0 <= n -> zlen (fresh n) = n) ->
  (nb = new_aes fresh Encrypt \/ nb = new_aesni fresh Encrypt) -> bytes_ok seed ->
  (zlen seed < 16 -> pseudo_rng_aes_ctr fresh nb seed = Raise (Error Seed_too_short)) /\
  (16 <= zlen seed -> exists o, pseudo_rng_aes_ctr fresh nb seed = Ret o /\
   forall qs, Forall q_valid qs -> r_run (ro_class o) (ro_st o) qs = delivered (ctr_stream (aes_E (firstn 16 seed))) 0 qs).
Proof. exact pseudo_rng_aes_ctr_stream. Qed.
Print Assumptions C49_stream.
(* all-zero AES key: E(0) = 66 e9 4b d4 ... 2b 2e, E(1) = 58 e2 fc ce ... *)
Example C49_case :
  match pseudo_rng_aes_ctr toy_fresh (new_aes toy_fresh Encrypt) (zeros 20) with
  | Ret o => map (fun r => sub (fst r) 0 2) (r_run (ro_class o) (ro_st o) [Req (zeros 15) 0 15; Req (zeros 3) 0 3]) = [[0x66; 0xe9]; [0x2e; 0x58]]
  | _ => False
  end.
Proof. vm_compute. reflexivity. Qed.

(* C50.  In each case: the buffer is the old one with the successive source bytes b written
   from ofs on; b has len bytes if the call succeeds, and fewer if it raises. *)
(* [ch_data ch]: the bytes the device has not delivered yet; [sched]: any schedule of short reads and errors *)
Theorem C50_device : forall sched ch buf ofs len,
  (len <= 0 -> r_bytes (device_rng sched) (Some ch) buf ofs len = ((Some ch, buf), Ret tt)) /\
  (0 < len -> in_range buf ofs len = false -> r_bytes (device_rng sched) (Some ch) buf ofs len = ((Some ch, buf), Raise Invalid_argument)) /\
  (in_range buf ofs len = true -> exists b ch' r, r_bytes (device_rng sched) (Some ch) buf ofs len = ((Some ch', splice buf ofs b), r) /\ ch_data ch = b ++ ch_data ch' /\
    ((r = Ret tt /\ zlen b = len) \/ ((r = Raise (Error Entropy_source_closed) /\ ch_data ch' = [] \/ r = Raise Unix_error) /\ zlen b < len))).
Proof. exact device_rng_ok. Qed.
Print Assumptions C50_device.
(* [ge k n]: what the k-th call to getentropy, for n bytes, returns; [entropy ge k ns]: the
   concatenation of the results of the calls k, k+1, ... for ns bytes, none above 256 *)
Theorem C50_system : forall ge k buf ofs len, (forall k n b, ge k n = Some b -> zlen b = n) ->
  (in_range buf ofs len = false -> r_bytes (system_rng ge) k buf ofs len = ((k, buf), Raise Invalid_argument)) /\
  (in_range buf ofs len = true -> exists ns r, let b := entropy ge k ns in Forall (fun n => 1 <= n <= 256) ns /\
   r_bytes (system_rng ge) k buf ofs len = (((k + length ns)%nat, splice buf ofs b), r) /\
   ((r = Ret tt /\ zlen b = len) \/ (r = Raise (Error Entropy_source_closed) /\ zlen b < len))).
Proof. exact system_rng_ok. Qed.
Print Assumptions C50_system.
(* [rd_values rd k k']: the values the executions k .. k'-1 of RDRAND returned; every one of
   them is used, in order; an exception only after 20 failures in a row *)
Theorem C50_hardware : forall rd k buf ofs len,
  (in_range buf ofs len = false -> r_bytes (hardware_rng rd) k buf ofs len = ((k, buf), Raise Invalid_argument)) /\
  (in_range buf ofs len = true -> exists k' r, let b := firstn (Z.to_nat len) (flat_map (to_le 8) (rd_values rd k k')) in (k <= k')%nat /\
   r_bytes (hardware_rng rd) k buf ofs len = ((k', splice buf ofs b), r) /\
   ((r = Ret tt /\ zlen b = len /\ 8 * zlen (rd_values rd k k') < len + 8) \/
    (r = Raise (Error Entropy_source_closed) /\ zlen b < len /\ exists k0, (k <= k0)%nat /\ k' = (k0 + 20)%nat /\ rd_values rd k0 k' = []))).
Proof. exact hardware_rng_ok. Qed.
Print Assumptions C50_hardware.
(* short reads; a failed RDRAND *)
Example C50_case :
  r_bytes (device_rng (fun k => Some (Z.of_nat k))) (Some (Channel [1; 2; 3; 4; 5] 0)) (zeros 6) 1 4 = ((Some (Channel [5] 3), [0; 1; 2; 3; 4; 0]), Ret tt) /\
  r_bytes (hardware_rng (fun k => if (k =? 0)%nat then None else Some (0x0807060504030201 + Z.of_nat k))) 0%nat (zeros 12) 1 10 =
    ((3%nat, [0; 2; 2; 3; 4; 5; 6; 7; 8; 3; 2; 0]), Ret tt).
Proof. split; vm_compute; reflexivity. Qed.
