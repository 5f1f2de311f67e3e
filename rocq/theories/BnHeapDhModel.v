(* Diffie-Hellman parameters over a memory: cryptokit.ml 2196-2206.  No number is erased. *)
From Verif Require Import Prelude RngModel BnModel BnHeapModel.

Section Parameters.
Variable share : heap -> Z -> list bn -> nat.
Variable fresh : Z -> bytes.
Variable R : rng.
Variable nextprime : Z -> Z.
(* find_generator, 2199-2201 *)
Fixpoint m_dh_find_generator (fuel : nat) (s : ms R) (numbits : Z) : ms R * out bn :=
  match fuel with
  | O => (s, Hang)
  | S f =>
    let! (s, g) := m_random share fresh R s false (numbits - 1) in
    if num (snd s) g <=? 1 then m_dh_find_generator f s numbits else (s, Ret g)
  end.
(* new_parameters, 2196-2206 *)
Definition m_dh_new_parameters (fuel : nat) (s : ms R) (privlen numbits : Z) : ms R * out m_dh_params :=
  if (numbits <? 32) || (numbits <=? privlen) then (s, Raise (Error Wrong_key_size)) else
  let! (s, np) := m_random_prime share fresh R nextprime fuel s numbits in
  let! (s, ng) := m_dh_find_generator fuel s numbits in
  on_heap R s (let! (h, bp) := m_to_bytes (snd s) (Some numbits) np in
               let! (h, bg) := m_to_bytes h (Some numbits) ng in
               (h, Ret (MDhParams bp bg privlen))).
End Parameters.
