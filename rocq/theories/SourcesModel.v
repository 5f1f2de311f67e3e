(* The choice of a source of randomness: cryptokit.ml 1847, 1877-1899, and the test of RDRAND, stubs-rng.c 138-157. *)
From Verif Require Import Prelude BytesNum TransformModel RngModel.

(* A machine.  m_system: getentropy, None if the library was compiled without it; m_device: /dev/random, the schedule of its
   reads and the bytes it will deliver, None if it cannot be opened; m_cpuid: bit 30 of ecx given by cpuid;
   m_rdrand k: the k-th execution of RDRAND *)
Record machine := Machine {
  m_system : option (nat -> Z -> option bytes);
  m_device : option ((nat -> option Z) * bytes);
  m_cpuid : bool;
  m_rdrand : nat -> option Z }.

(* caml_hardware_rng_available, the loop of stubs-rng.c 150-152; k: the number of executions of RDRAND so far *)
Fixpoint available_loop (rd : nat -> option Z) (retries : nat) (k : nat) : nat * bool :=
  match retries with
  | O => (k, false)
  | S r =>
      match rdrand64 rd 20 k with
      | (k, Some n) => if negb (n =? 2 ^ 64 - 1) then (k, true) else available_loop rd r k
      | (k, None) => available_loop rd r k
      end
  end.
(* stubs-rng.c 138-157 *)
Definition hardware_rng_available (m : machine) (k : nat) : nat * bool :=
  if m_cpuid m then available_loop (m_rdrand m) 8 k else (k, false).

(* system_rng (), cryptokit.ml 1846-1847 *)
Definition new_system_rng (m : machine) : out robj :=
  match m_system m with Some ge => Ret (RObj (system_rng ge) 0%nat) | None => Raise (Error No_entropy_source) end.
(* hardware_rng (), cryptokit.ml 1878-1881 *)
Definition new_hardware_rng (m : machine) (k : nat) : out robj :=
  let (k, ok) := hardware_rng_available m k in
  if ok then Ret (RObj (hardware_rng (m_rdrand m)) k) else Raise (Error No_entropy_source).
(* secure_rng, cryptokit.ml 1890-1899; evaluated when the library starts *)
Definition secure_rng (m : machine) : robj :=
  match m_system m with
  | Some ge => RObj (system_rng ge) 0%nat
  | None =>
      match m_device m with
      | Some (sched, data) => RObj (device_rng sched) (Some (Channel data 0))
      | None => let (k, ok) := hardware_rng_available m 0 in
                if ok then RObj (hardware_rng (m_rdrand m)) k else RObj no_rng tt
      end
  end.
