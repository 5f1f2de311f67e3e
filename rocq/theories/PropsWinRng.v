(* C92.  The system generator on Windows.  [win_run]: programs that make, ask and wipe any number of such generators; [gen k n]: what
   CryptGenRandom does at its k-th call, for n bytes, [gen_ok]: n bytes if it returns TRUE, and at most n if FALSE; [pick k l]: the handle
   that the system chooses when those of l are in use, [pick_ok]: not one of them.  [w_handles w]: the handles in use. *)
From Verif Require Import Prelude SpecTransducer RngModel SpecWinRng WinRngModel WinRng.

(* One request: all that is written is b, from ofs on; b is what CryptGenRandom gave for len mod 2^32 bytes, and has that length on success *)
Theorem C92_exact : forall gen h w buf ofs len, gen_ok gen ->
  (in_range buf ofs len = false -> r_bytes (win_rng gen h) w buf ofs len = ((w, buf), Raise Invalid_argument)) /\
  (in_range buf ofs len = true -> In h (w_handles w) -> let n := len mod 2 ^ 32 in let b := snd (gen (w_answers w) n) in
   exists w' r, r_bytes (win_rng gen h) w buf ofs len = ((w', splice buf ofs b), r) /\ w_handles w' = w_handles w /\
   ((r = Ret tt /\ zlen b = n) \/ (r = Raise (Error Entropy_source_closed) /\ zlen b <= n))) /\
  (in_range buf ofs len = true -> ~ In h (w_handles w) -> r_bytes (win_rng gen h) w buf ofs len = ((w, buf), Raise (Error Entropy_source_closed))).
Proof. exact win_fill. Qed.
Print Assumptions C92_exact.

(* Hence not every successful request is filled: asked for some number n of bytes, Random.string returns a string nothing was written to *)
Theorem C92_filled_refuted : exists n, 0 < n <= max_string_length /\ forall gen h w fresh, gen_ok gen -> In h (w_handles w) -> (forall m, 0 <= m -> zlen (fresh m) = m) ->
  fst (gen (w_answers w) 0) = true -> snd (rng_string fresh (win_rng gen h) w n) = Ret (fresh n).
Proof. exact long_request. Qed.
Print Assumptions C92_filled_refuted.

(* Programs, for requests below 2^32 bytes: every generator answers until it is wiped, whatever is done with the others and whatever
   handles the system chooses; without provider there is no generator *)
Theorem C92_programs_partial : forall avail pick gen ops, pick_ok pick -> uses_ok avail gen (WS 0 0 []) ops ->
  win_run avail pick gen (World 0 0 []) [] ops = expected avail gen (WS 0 0 []) ops.
Proof. exact win_programs. Qed.
Print Assumptions C92_programs_partial.

(* Missing: generators used after wipe.  The second wipe of a generator can close another one *)
Theorem C92_wiped_twice_refuted : exists avail pick gen ops1 ops2 buf, pick_ok pick /\ gen_ok gen /\
  nth_error (win_run avail pick gen (World 0 0 []) [] (ops1 ++ [WAsk 1 buf 0 4])) (length ops1) = Some ([1; 2; 3; 4], Ret tt) /\
  ops2 = ops1 ++ [WWipe 0] /\
  nth_error (win_run avail pick gen (World 0 0 []) [] (ops2 ++ [WAsk 1 buf 0 4])) (length ops2) = Some (buf, Raise (Error Entropy_source_closed)).
Proof. exact wiped_twice. Qed.
Print Assumptions C92_wiped_twice_refuted.

(* three generators; the second request for a provider fails; the handle of the first generator is given again to the third *)
Example C92_case :
  let avail k := negb (k =? 1)%nat in let gen k n := ((k <? 2)%nat, repeat (7 + Z.of_nat k) (Z.to_nat n)) in
  let ops := [WNew; WNew; WNew; WAsk 0 [0; 0; 0] 1 2; WWipe 1; WWipe 0; WNew; WAsk 2 [0; 0; 0] 0 3; WAsk 2 [0; 0] 0 3; WAsk 2 [0] 0 1] in
  pick_ok next_handle /\ uses_ok avail gen (WS 0 0 []) ops /\
  win_run avail next_handle gen (World 0 0 []) [] ops =
    [([], Ret tt); ([], Raise (Error No_entropy_source)); ([], Ret tt); ([0; 7; 7], Ret tt); ([], Ret tt); ([], Ret tt); ([], Ret tt); ([8; 8; 8], Ret tt);
     ([0; 0], Raise Invalid_argument); ([9], Raise (Error Entropy_source_closed))].
Proof. split; [exact next_handle_ok|]. split; [repeat split; try reflexivity|]. reflexivity. Qed.
