(* C90.  Programs that use several generators.  [m]: what the strings and arrays of the program hold at the start; [m_run]: the
   program run on the model; [spec_run] (SpecRngMem.v): every generator gives the bytes of its own stream in order, into the range asked
   for, and wipe writes zeros over the string that was the seed. *)
From Verif Require Import Prelude BytesNum BlockModel CipherModel SpecAes AesModel AesniModel SpecStream StreamModel SpecRng RngModel Rng WipeMore SpecRngMem RngMemModel RngMem Toy.

Theorem C90_programs : forall fresh nb m ops, (forall n, 0 <= n -> zlen (fresh n) = n) -> (nb = new_aes fresh Encrypt \/ nb = new_aesni fresh Encrypt) ->
  (forall i, bytes_ok (m i)) -> prog_ok m [] ops ->
  snd (m_run fresh nb m [] ops) = snd (spec_run m [] ops) /\ forall i, fst (m_run fresh nb m [] ops) i = fst (spec_run m [] ops) i.
Proof. exact programs. Qed.
Print Assumptions C90_programs.

(* What is never asked for, and is not the seed of a wiped generator, is not written; in any program, proper or not *)
Theorem C90_frame : forall fresh nb m ops i, ~ In i (arrays ops) -> ~ In i (seeds ops) \/ Forall (fun o => not_wipe o = true) ops ->
  fst (m_run fresh nb m [] ops) i = m i.
Proof. exact frame. Qed.
Print Assumptions C90_frame.

(* Each string is the seed of at most one generator: the wipes change no result and nothing but the seeds *)
Theorem C90_independent_partial : forall fresh nb m ops, (forall n, 0 <= n -> zlen (fresh n) = n) -> (nb = new_aes fresh Encrypt \/ nb = new_aesni fresh Encrypt) ->
  (forall i, bytes_ok (m i)) -> prog_ok m [] ops -> NoDup (seeds ops) -> (forall i, In i (arrays ops) -> ~ In i (seeds ops)) ->
  others ops (snd (m_run fresh nb m [] ops)) = combine (filter not_wipe ops) (snd (spec_run m [] (filter not_wipe ops))) /\
  forall i, ~ In i (seeds ops) -> fst (m_run fresh nb m [] ops) i = fst (spec_run m [] (filter not_wipe ops)) i.
Proof. exact wipe_once. Qed.
Print Assumptions C90_independent_partial.

(* Missing: seeds used again.  For every seed, once a generator made from it is wiped, a generator made from the same string gives the
   bytes of a seed of zeros *)
Theorem C90_seed_lost : forall fresh nb m k1 k2 s r len, (forall n, 0 <= n -> zlen (fresh n) = n) -> (nb = new_aes fresh Encrypt \/ nb = new_aesni fresh Encrypt) ->
  (forall i, bytes_ok (m i)) -> 16 <= zlen (m s) -> r <> s -> 0 <= len <= zlen (m r) ->
  let x := m_run fresh nb m [] [New k1 s; Wipe 0; New k2 s; Ask 1 r 0 len] in
  snd x = [Ret tt; Ret tt; Ret tt; Ret tt] /\ fst x s = zeros (zlen (m s)) /\
  fst x r = splice (m r) 0 (ks_bytes (stream_of k2 (zeros (zlen (m s)))) 0 (Z.to_nat len)).
Proof. exact seed_reused. Qed.
Print Assumptions C90_seed_lost.

(* Hence wiping one generator changes what another one gives *)
Theorem C90_independent_refuted : exists m ops, (forall i, bytes_ok (m i)) /\ prog_ok m [] ops /\ (forall i, In i (arrays ops) -> ~ In i (seeds ops)) /\
  let nb := new_aes toy_fresh Encrypt in fst (m_run toy_fresh nb m [] ops) 1%nat <> fst (m_run toy_fresh nb m [] (filter not_wipe ops)) 1%nat.
Proof. exact reuse_differs. Qed.
Print Assumptions C90_independent_refuted.

(* A wiped pseudo_rng still answers: the same bytes whatever it was, the first 128 of them zeros *)
Theorem C90_wiped_answers : exists stream, (forall n, (n < 128)%nat -> stream n = 0) /\
  forall fresh seed o qs qs', (forall n, 0 <= n -> zlen (fresh n) = n) -> pseudo_rng fresh seed = Ret o ->
  r_run (ro_class o) (fst (r_wipe (ro_class o) (r_after (ro_class o) (ro_st o) qs))) qs' = delivered stream 0 qs'.
Proof. exact (ex_intro _ dead_stream (conj dead_zero wiped_chacha)). Qed.
Print Assumptions C90_wiped_answers.

(* Two generators from the strings 0 and 1, asked in turn; the first one is wiped in between; the third has the string of the first as
   its seed, now zeros *)
Definition c90_mem (i : nat) : bytes := match i with 0%nat => repeat 7 16 | 1%nat => repeat 9 20 | _ => zeros 4 end.
Definition c90_ops : list rop := [New Chacha20_gen 0; New Aes_ctr_gen 1; Ask 0 2 0 2; Ask 1 2 2 2; Wipe 0; Ask 1 3 1 2; New Chacha20_gen 0; Ask 2 4 0 4; New Chacha20_gen 4].
Example C90_case : (forall i, bytes_ok (c90_mem i)) /\ prog_ok c90_mem [] c90_ops /\
  let x := m_run toy_fresh (new_aes toy_fresh Encrypt) c90_mem [] c90_ops in
  map (fst x) [0; 1; 2; 3; 4]%nat = [zeros 16; repeat 9 20; [147; 27; 132; 249]; [0; 194; 14; 0]; [137; 103; 9; 82]] /\ nth 8 (snd x) Hang = Raise (Error Seed_too_short).
Proof.
  split; [intros [|[|i]]; cbn; repeat constructor; lia|]. split.
  - apply prog_okb_ok. vm_compute. reflexivity.
  - vm_compute. split; reflexivity.
Qed.
