(* The output buffer on 32-bit machines: C108. *)
From Verif Require Import Prelude BufOutModel BufHistory BufWordModel SpecBufWord BufWord.

(* C108.  With OCaml integers of any width and strings of any maximal length max_len, such that
   four times the one fits in the other, the output buffer is a queue of at most max_len bytes:
   sizes never overflow, the growing loop ends, and a full buffer is refused and unchanged *)
Theorem C108_queue : forall width max_len, 2 <= width -> 4 * max_len <= 2 ^ (width - 1) -> max_len <= max_string_length ->
  forall fresh, (forall n, 0 <= n -> zlen (fresh n) = n) ->
  forall n ops, 0 < n <= max_len -> Forall (bop_fits max_len) ops ->
  brun_w width max_len fresh (bo_new fresh n) ops = bounded_run max_len [] ops.
Proof. exact buffer_is_queue_w. Qed.
Print Assumptions C108_queue.
(* so it is on 32-bit machines *)
Theorem C108_queue_32 : forall fresh n ops, (forall n, 0 <= n -> zlen (fresh n) = n) ->
  0 < n <= max_len_32 -> Forall (bop_fits max_len_32) ops ->
  brun_w 31 max_len_32 fresh (bo_new fresh n) ops = bounded_run max_len_32 [] ops.
Proof. exact queue_32. Qed.
Print Assumptions C108_queue_32.
(* there and on 64-bit machines every history is observed to be the same, as long as the 32-bit
   buffer does not overflow *)
Theorem C108_same : forall fresh n ops, (forall n, 0 <= n -> zlen (fresh n) = n) ->
  0 < n <= max_len_32 -> Forall (bop_fits max_len_32) ops ->
  ~ In (BExn (Error Output_buffer_overflow)) (bounded_run max_len_32 [] ops) ->
  brun_w 31 max_len_32 fresh (bo_new fresh n) ops = brun fresh (bo_new fresh n) ops.
Proof. exact same_32_64. Qed.
Print Assumptions C108_same.
(* the model of 64-bit machines used elsewhere is the instance with 63 bits *)
Theorem C108_model : forall fresh n ops, (forall n, 0 <= n -> zlen (fresh n) = n) ->
  0 < n <= max_len_64 -> Forall bop_ok ops ->
  brun_w 63 max_len_64 fresh (bo_new fresh n) ops = brun fresh (bo_new fresh n) ops.
Proof. exact model_64. Qed.
Print Assumptions C108_model.
(* without the condition on overflow the two differ: 2^24 - 4 bytes fit on one machine only *)
Theorem C108_same_refuted : exists ops, Forall (bop_fits max_len_32) ops /\ forall fresh n, (forall n, 0 <= n -> zlen (fresh n) = n) -> 0 < n <= max_len_32 ->
  brun_w 31 max_len_32 fresh (bo_new fresh n) ops = [BUnit; BExn (Error Output_buffer_overflow); BInt max_len_32] /\
  brun fresh (bo_new fresh n) ops = [BUnit; BUnit; BInt (max_len_32 + 1)].
Proof. exact differ_32_64. Qed.
Print Assumptions C108_same_refuted.

(* a buffer of 2 bytes that grows to 4, moves its contents and grows again *)
Example C108_case : brun_w 31 max_len_32 zeros (bo_new zeros 2) [Produce [1; 2; 3]; GetChr; GetChr; Produce [4; 5]; Produce [6; 7]; Available; GetStr; GetChr]
  = [BUnit; BInt 1; BInt 2; BUnit; BUnit; BInt 5; BBytes [3; 4; 5; 6; 7]; BExn End_of_file] /\
  (* integers of 6 bits, strings of at most 8 bytes *)
  brun_w 6 8 zeros (bo_new zeros 1) [Produce [1; 2; 3]; Produce [4; 5; 6; 7]; Produce [8; 9]; Produce [8]; GetStr]
  = [BUnit; BUnit; BExn (Error Output_buffer_overflow); BUnit; BBytes [1; 2; 3; 4; 5; 6; 7; 8]].
Proof. split; vm_compute; reflexivity. Qed.
