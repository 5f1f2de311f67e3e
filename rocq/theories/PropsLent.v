(* The array lent by get_substring: C105. *)
From Verif Require Import Prelude BufOutModel BufOut BufHistory LentModel SpecLent Lent Toy.

(* C105.  Whatever the caller stores in the array that get_substring returned, before the next
   production of output, no later output changes: the calls are those of the queue of C01. *)
Theorem C105_writes : forall fresh, (forall n, 0 <= n -> zlen (fresh n) = n) ->
  forall n ops, 0 < n <= max_string_length -> Forall bop_ok (calls ops) -> polite false ops = true ->
  lrun fresh (bo_new fresh n) ops = qrun [] (calls ops).
Proof. exact lent_writes. Qed.
Print Assumptions C105_writes.
(* the returned range is the pending output, and it stays in the array until the next
   production *)
Theorem C105_reads : forall fresh b buf ofs len b1 ops, bo_inv b -> bo_get_substring b = (b1, Ret (buf, ofs, len)) -> forallb quiet ops = true ->
  sub buf ofs len = bo_contents b /\ obuf (bafter fresh b1 ops) = buf.
Proof. exact lent_reads. Qed.
Print Assumptions C105_reads.
(* wipe overwrites it *)
Theorem C105_wiped : forall fresh b buf ofs len b1 ops, bo_inv b -> bo_get_substring b = (b1, Ret (buf, ofs, len)) -> forallb quiet ops = true ->
  obuf (bo_wipe (bafter fresh b1 ops)) = zeros (zlen buf).
Proof. exact lent_wiped. Qed.
Print Assumptions C105_wiped.
(* after the next production: a write changes the output, and the lent bytes are lost *)
Theorem C105_late_refuted : exists ops, polite false ops = false /\ lrun toy_fresh (bo_new toy_fresh 8) ops <> qrun [] (calls ops).
Proof. exists [Call (Produce [1; 2]); Call GetSub; Call (Produce [3]); Write [9; 9; 9; 9; 9; 9; 9; 9]; Call GetStr]. vm_compute. split; [reflexivity|discriminate]. Qed.
Print Assumptions C105_late_refuted.
Theorem C105_late_read_refuted : exists b buf ofs len b1, bo_inv b /\ bo_get_substring b = (b1, Ret (buf, ofs, len)) /\
  sub (obuf (bafter toy_fresh b1 [Produce [3]])) ofs len <> sub buf ofs len.
Proof. exists (BO [1; 2; 0; 0] 0 2), [1; 2; 0; 0], 0, 2, (BO [1; 2; 0; 0] 0 0). split; [vm_compute; repeat split; discriminate|]. split; [reflexivity|]. vm_compute. discriminate. Qed.
Print Assumptions C105_late_read_refuted.
(* a polite caller, on a buffer that also grows *)
Example C105_case :
  polite false [Call (Produce [1; 2]); Call GetSub; Write [9; 8]; Call Available; Write [7; 7]; Call (Produce [3; 4; 5]); Call GetChr; Call GetSub; Write [0; 0; 0; 0]] = true /\
  lrun toy_fresh (bo_new toy_fresh 2) [Call (Produce [1; 2]); Call GetSub; Write [9; 8]; Call Available; Write [7; 7]; Call (Produce [3; 4; 5]); Call GetChr; Call GetSub; Write [0; 0; 0; 0]] =
  [BUnit; BBytes [1; 2]; BInt 0; BUnit; BInt 3; BBytes [4; 5]].
Proof. vm_compute. split; reflexivity. Qed.
