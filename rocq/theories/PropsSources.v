(* C81: the sources of randomness. *)
From Verif Require Import Prelude BytesNum TransformModel SpecRng RngModel Rng SourcesModel Sources.

(* C81.  A machine is described by what getentropy, /dev/random, cpuid and the executions of RDRAND will answer.
   A sequence of requests of secure_rng, in range and all successful: the bytes given are those of the first source that exists, in
   order ([answered]: the buffers with the bytes bs written in them; [entropy], [rd_values]: see C50; [hw_answers]: no execution of
   RDRAND is used twice, nor those of the test, the last of which gave a value that is not all ones) *)
Theorem C81_source : forall m qs, (forall ge, m_system m = Some ge -> forall k n b, ge k n = Some b -> zlen b = n) -> qs <> [] ->
  Forall q_proper qs -> Forall (fun r => snd r = Ret tt) (r_run (ro_class (secure_rng m)) (ro_st (secure_rng m)) qs) ->
  exists bs, r_run (ro_class (secure_rng m)) (ro_st (secure_rng m)) qs = answered qs bs /\ map zlen bs = map q_len qs /\
   ((exists ge ns, m_system m = Some ge /\ Forall (fun n => 1 <= n <= 256) ns /\ concat bs = entropy ge 0 ns) \/
    (m_system m = None /\ exists sched data rest, m_device m = Some (sched, data) /\ data = concat bs ++ rest) \/
    (m_system m = None /\ m_device m = None /\ m_cpuid m = true /\
     exists k n, (1 <= k <= 160)%nat /\ m_rdrand m (k - 1)%nat = Some n /\ n <> 2 ^ 64 - 1 /\ hw_answers (m_rdrand m) k bs)).
Proof. exact secure_sources. Qed.
Print Assumptions C81_source.
(* no source: every request raises No_entropy_source *)
Theorem C81_none : forall m, m_system m = None -> m_device m = None -> (m_cpuid m = false \/ forall i n, m_rdrand m i = Some n -> n = 2 ^ 64 - 1) ->
  forall qs, r_run (ro_class (secure_rng m)) (ro_st (secure_rng m)) qs = map (fun q => (q_buf q, Raise (Error No_entropy_source))) qs.
Proof. exact secure_none_run. Qed.
Print Assumptions C81_none.
(* hardware_rng () refuses a processor without RDRAND, and one whose RDRAND fails or answers all ones for ever *)
Theorem C81_stuck : forall m, (m_cpuid m = false \/ forall i n, m_rdrand m i = Some n -> n = 2 ^ 64 - 1) -> new_hardware_rng m 0 = Raise (Error No_entropy_source).
Proof. exact stuck_refused. Qed.
Print Assumptions C81_stuck.
(* it accepts one that gives another value in the first eight executions, and the test ends after 160 executions in any case *)
Theorem C81_working : forall m i n, m_cpuid m = true -> (i < 8)%nat -> m_rdrand m i = Some n -> n <> 2 ^ 64 - 1 ->
  exists k, new_hardware_rng m 0 = Ret (RObj (hardware_rng (m_rdrand m)) k).
Proof. exact working_accepted. Qed.
Print Assumptions C81_working.
Theorem C81_test_ends : forall m, match hardware_rng_available m 0 with
  | (k, true) => m_cpuid m = true /\ (1 <= k <= 160)%nat /\ exists n, m_rdrand m (k - 1)%nat = Some n /\ n <> 2 ^ 64 - 1
  | (k, false) => m_cpuid m = false \/ (8 <= k <= 160)%nat /\ forall i n, (i < k)%nat -> m_rdrand m i = Some n -> n = 2 ^ 64 - 1
  end.
Proof. exact hardware_test. Qed.
Print Assumptions C81_test_ends.
(* system_rng () and hardware_rng (): what each object gives *)
Theorem C81_system : forall m, (m_system m = None -> new_system_rng m = Raise (Error No_entropy_source)) /\
  forall ge, m_system m = Some ge -> (forall k n b, ge k n = Some b -> zlen b = n) -> exists o, new_system_rng m = Ret o /\
  forall qs, Forall q_proper qs -> Forall (fun r => snd r = Ret tt) (r_run (ro_class o) (ro_st o) qs) ->
  exists bs ns, r_run (ro_class o) (ro_st o) qs = answered qs bs /\ map zlen bs = map q_len qs /\ Forall (fun n => 1 <= n <= 256) ns /\ concat bs = entropy ge 0 ns.
Proof. exact system_object. Qed.
Print Assumptions C81_system.
Theorem C81_hardware : forall m o, new_hardware_rng m 0 = Ret o -> exists k n, (1 <= k <= 160)%nat /\ m_rdrand m (k - 1)%nat = Some n /\ n <> 2 ^ 64 - 1 /\
  forall qs, Forall q_proper qs -> Forall (fun r => snd r = Ret tt) (r_run (ro_class o) (ro_st o) qs) ->
  exists bs, r_run (ro_class o) (ro_st o) qs = answered qs bs /\ map zlen bs = map q_len qs /\ hw_answers (m_rdrand m) k bs.
Proof. exact hardware_object. Qed.
Print Assumptions C81_hardware.
(* a failure and a value of all ones, then 0x0807060504030203, 0x0807060504030204, ...: the third value only serves for the test *)
Example C81_case :
  let rd := fun k : nat => if (k =? 0)%nat then None else if (k =? 1)%nat then Some (2 ^ 64 - 1) else Some (0x0807060504030201 + Z.of_nat k) in
  let m := Machine None None true rd in
  let m' := Machine None (Some ((fun _ => Some 1), [1; 2; 3; 4])) true rd in
  let qs := [Req [9; 9; 9] 1 2; Req [9; 9] 0 1] in
  Forall q_proper qs /\
  r_run (ro_class (secure_rng m)) (ro_st (secure_rng m)) qs = [([9; 4; 2], Ret tt); ([5; 9], Ret tt)] /\
  r_run (ro_class (secure_rng m')) (ro_st (secure_rng m')) qs = [([9; 1; 2], Ret tt); ([3; 9], Ret tt)].
Proof. cbn zeta. split; [repeat constructor|]. split; vm_compute; reflexivity. Qed.
