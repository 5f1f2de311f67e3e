(* C05, C06: composition and channels. *)
From Verif Require Import Prelude SpecTransducer TransformModel ShortReads Transform BlockModel CipherModel CipherSpec CipherApi
  Lawful EncModel EncLawful EncApi LibTransform Toy.

(* C05.  For transforms built by the library (block ciphers in any mode with
   or without padding, stream ciphers, encodings, and compositions of such) *)
Theorem C05_compose_string : forall fresh, (forall n, 0 <= n -> zlen (fresh n) = n) ->
  forall o1 K1 A1 o2 K2 A2 msg,
  lib_transform fresh o1 K1 A1 -> lib_transform fresh o2 K2 A2 -> bytes_ok msg ->
  K1 * K2 * zlen msg + 2 * (K2 * A1 + 2 * A2) <= max_string_length ->
  (forall r, run_string (composed o1 o2) msg = Ret r <->
     exists r1, run_string o1 msg = Ret r1 /\ run_string o2 r1 = Ret r) /\
  ((exists r, run_string (composed o1 o2) msg = Ret r) \/ (exists e, run_string (composed o1 o2) msg = Raise e)).
Proof. exact lib_compose_string. Qed.
Print Assumptions C05_compose_string.

(* the same for every splitting of the message into calls *)
Theorem C05_compose_history : forall fresh, (forall n, 0 <= n -> zlen (fresh n) = n) ->
  forall o1 K1 A1 o2 K2 A2 msg r1 r,
  lib_transform fresh o1 K1 A1 -> lib_transform fresh o2 K2 A2 -> bytes_ok msg ->
  K1 * K2 * zlen msg + 2 * (K2 * A1 + 2 * A2) <= max_string_length ->
  run_string o1 msg = Ret r1 -> run_string o2 r1 = Ret r -> whole (composed o1 o2) msg (Ret r).
Proof. exact lib_compose_whole. Qed.
Print Assumptions C05_compose_history.

(* for any two transform objects whose behaviour is that of transducers M1
   and M2: every history of calls, with flushes, finishes and fetches
   anywhere, is a history of M1 followed by M2 *)
Theorem C05_compose_any : forall b1 o1 M1 s1 K1 A1 b2 o2 M2 s2 K2 A2,
  lawful b1 o1 M1 s1 K1 A1 -> lawful b2 o2 M2 s2 K2 A2 ->
  lawful false (composed o1 o2) (m_compose M1 M2) (s1, s2) (K1 * K2) (K2 * A1 + 2 * A2).
Proof. exact compose_lawful. Qed.
Print Assumptions C05_compose_any.

(* encrypt, then hexadecimal *)
Example C05_case : exists o,
  make_cipher toy_fresh toy_block None None None [1; 2; 3; 4] Encrypt = Ret o /\
  lib_transform toy_fresh o 1 16 /\ lib_transform toy_fresh (hexa_encode_obj toy_fresh) 2 0 /\
  run_string (composed o (hexa_encode_obj toy_fresh)) [1; 2; 3; 4; 5; 6; 7; 8] =
  Ret [48; 53; 48; 49; 48; 49; 48; 53; 48; 99; 48; 52; 48; 52; 48; 52].
Proof.
  eexists. split; [reflexivity|]. split.
  - apply (LT_cipher toy_fresh toy_block [1; 2; 3; 4] 4 (toy_E [1; 2; 3; 4]) (toy_D [1; 2; 3; 4]) None None None Encrypt);
      [apply toy_family; [reflexivity|repeat constructor; lia]|exact I|exact I|reflexivity].
  - split; [apply LT_hexe|]. vm_compute. reflexivity.
Qed.

(* C06.  The schedules of the channel give every sequence of short reads: any pieces of 1 to n bytes *)
Theorem C06_every_short_read : forall n l rest buf, 0 < n -> zlen buf = n -> Forall (fun p => 1 <= zlen p <= n) l ->
  exists sched, reads sched n (length l) (Channel (concat l ++ rest) 0) buf = l.
Proof. exact every_short_read. Qed.
Print Assumptions C06_every_short_read.
Example C06_short_read_case : reads (fun i => nth i [1; 3; 2] 0) 3 3 (Channel [1; 2; 3; 4; 5; 6; 7] 0) (zeros 3) = [[1]; [2; 3; 4]; [5; 6]].
Proof. reflexivity. Qed.

(* C06.  [sched k] is the number of bytes the k-th input call wants to return
   (any number; the channel returns at least one byte unless at the end) *)
Theorem C06_channel : forall fresh, (forall n, 0 <= n -> zlen (fresh n) = n) ->
  forall o K A sched len ic,
  lib_transform fresh o K A -> bytes_ok ic -> K * 256 + 2 * A <= max_string_length ->
  K * zlen ic + 2 * A <= max_string_length ->
  let data := requested len ic in
  let res := transform_channel fresh sched (o_tr o) (o_st o) len ic in
  (long_enough len ic = true ->
   match run_string o data with
   | Ret r => snd res = Ret tt /\ tc_out (fst res) = r /\ ch_data (tc_ch (fst res)) = skipn (length data) ic
   | _ => exists e, snd res = Raise e
   end) /\
  (long_enough len ic = false ->
   exists e, snd res = Raise e /\ (forall r, run_string o data = Ret r -> e = End_of_file)).
Proof. exact lib_channel. Qed.
Print Assumptions C06_channel.

Example C06_case :
  let tc len := transform_channel toy_fresh (fun k => Z.of_nat k + 1)
    (o_tr (hexa_encode_obj toy_fresh)) (o_st (hexa_encode_obj toy_fresh)) len [1; 2; 3; 250; 255] in
  (snd (tc (Some 4)) = Ret tt /\ tc_out (fst (tc (Some 4))) = [48; 49; 48; 50; 48; 51; 102; 97]) /\
  ch_data (tc_ch (fst (tc (Some 4)))) = [255] /\ snd (tc (Some 6)) = Raise End_of_file.
Proof. vm_compute. repeat split; reflexivity. Qed.
