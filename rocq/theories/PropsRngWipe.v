(* C119: the generators after wipe. *)
From Verif Require Import Prelude BytesNum TransformModel BlockModel CipherModel SpecAes AesModel AesniModel SpecStream StreamModel SpecRng RngModel Rng WipeMore RngWipe Toy.

(* C119.  The device is closed: every request for one byte or more raises an exception and
   writes nothing, a second wipe raises an exception. *)
Theorem C119_device : forall sched ch qs, let w := r_wipe (device_rng sched) (Some ch) in
  snd w = Ret tt /\ snd (r_wipe (device_rng sched) (fst w)) = Raise Unix_error /\
  r_run (device_rng sched) (fst w) qs =
  map (fun q => (q_buf q, if q_len q <=? 0 then Ret tt else if in_range (q_buf q) (q_ofs q) (q_len q) then Raise Unix_error else Raise Invalid_argument)) qs.
Proof. exact device_wiped. Qed.
Print Assumptions C119_device.
(* the others from the system: no effect *)
Theorem C119_system : forall ge rd R, R = system_rng ge \/ R = hardware_rng rd \/ R = no_rng -> forall s qs,
  snd (r_wipe R s) = Ret tt /\ r_run R (fst (r_wipe R s)) qs = r_run R s qs.
Proof. exact no_effect. Qed.
Print Assumptions C119_system.
(* AES in counter mode: the seed and the block in progress are zero; the rest of that block is
   delivered as zeros and the stream goes on with the next block.  [r_after]: the state after
   requests; [asked]: how many bytes they asked for. *)
Theorem C119_aes : forall fresh nb seed, (forall n, 0 <= n -> zlen (fresh n) = n) -> (nb = new_aes fresh Encrypt \/ nb = new_aesni fresh Encrypt) -> bytes_ok seed -> 16 <= zlen seed ->
  exists A s0, pseudo_rng_aes_ctr fresh nb seed = Ret (RObj (actr_class A) s0) /\ forall qs, Forall q_valid qs ->
  let s := fst (r_wipe (actr_class A) (r_after (actr_class A) s0 qs)) in
  ac_seed s = zeros (zlen seed) /\ ac_obuf s = zeros 16 /\ forall qs', Forall q_valid qs' ->
  r_run (actr_class A) s qs' = delivered (fun n => if (n <? (asked qs + 15) / 16 * 16)%nat then 0 else ctr_stream (aes_E (firstn 16 seed)) n) (asked qs) qs'.
Proof. exact actr_wiped. Qed.
Print Assumptions C119_aes.
(* ChaCha20: the seed is zero; C90_wiped_answers says what is delivered *)
Theorem C119_chacha_seed : forall fresh seed, 16 <= zlen seed -> exists s0, pseudo_rng fresh seed = Ret (RObj pseudo_rng_class s0) /\
  forall qs, snd (fst (r_wipe pseudo_rng_class (r_after pseudo_rng_class s0 qs))) = zeros (zlen seed).
Proof. exact chacha_seed. Qed.
Print Assumptions C119_chacha_seed.
(* a device with three bytes, two of them read; a generator of which 3 bytes were asked, then 15 after
   wipe: 13 zeros, then bytes of the second block *)
Definition two_by_two (n : nat) : option Z := Some 2.
Example C119_case :
  let ask (len : Z) : request := Req (repeat 9 15) 0 len in
  r_run (device_rng two_by_two) (Some (Channel [1; 2; 3] 0)) [ask 2; ask 5] = [(1 :: 2 :: repeat 9 13, Ret tt); (3 :: repeat 9 14, Raise (Error Entropy_source_closed))] /\
  r_run (device_rng two_by_two) (fst (r_wipe (device_rng two_by_two) (r_after (device_rng two_by_two) (Some (Channel [1; 2; 3] 0)) [ask 2]))) [ask 1; ask 0] = [(repeat 9 15, Raise Unix_error); (repeat 9 15, Ret tt)] /\
  match pseudo_rng_aes_ctr toy_fresh (new_aes toy_fresh Encrypt) (repeat 5 16) with
  | Ret o => r_run (ro_class o) (fst (r_wipe (ro_class o) (r_after (ro_class o) (ro_st o) [ask 3]))) [ask 15]
  | _ => [] end = [(repeat 0 13 ++ firstn 2 (aes_E (repeat 5 16) (to_be 16 1)), Ret tt)].
Proof. cbv zeta. split; [vm_compute; reflexivity|]. split; [vm_compute; reflexivity|]. vm_compute. reflexivity. Qed.
