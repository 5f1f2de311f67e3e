(* Exact conditions: parts of C48 and C69. *)
From Verif Require Import Prelude BytesNum SpecTransducer SpecBlock SpecModes TransformModel BlockModel CipherModel CipherSpec CipherApi SpecRng Exact Toy.

Local Definition toy_key : bytes := [17; 34; 51; 68].

(* C69: a message is refused as too long exactly from 256^n whole blocks on (n at most 8);
   it is accepted exactly if it is shorter and made of whole blocks *)
Theorem C69_exact : forall fresh, (forall n, 0 <= n -> zlen (fresh n) = n) ->
  forall nb key bs E D n iv d msg, block_family nb key bs E D -> 0 < n <= bs -> iv_ok bs (CTR_N n) iv -> bytes_ok msg -> zlen msg + 3 * bs <= max_string_length ->
  exists o, make_cipher fresh nb (Some (CTR_N n)) None iv key d = Ret o /\
  (run_string o msg = Raise (Error Message_too_long) <-> 256 ^ Z.min n 8 <= zlen msg / bs) /\
  ((exists r, run_string o msg = Ret r) <-> zlen msg / bs < 256 ^ Z.min n 8 /\ zlen msg mod bs = 0).
Proof. exact ctr_exact. Qed.
Print Assumptions C69_exact.
(* blocks of 4 bytes, counter of one byte: 1020 bytes are accepted, 1021 and 1024 are not *)
Example C69_exact_case : block_family toy_block toy_key 4 (toy_E toy_key) (toy_D toy_key) /\ iv_ok 4 (CTR_N 1) None /\
  map (fun len => match make_cipher toy_fresh toy_block (Some (CTR_N 1)) None None toy_key Encrypt with
                  | Ret o => match run_string o (repeat 7 len) with Ret r => Ret (zlen r) | Raise e => Raise e | _ => Undef end
                  | _ => Undef end) [1020; 1021; 1024]%nat = [Ret 1020; Raise (Error Wrong_data_length); Raise (Error Message_too_long)].
Proof. split; [apply toy_family; [reflexivity|repeat constructor; lia]|]. split; [exact Logic.I|]. vm_compute. reflexivity. Qed.

(* C48: two seeds give the same ChaCha20 key exactly if they are equal, or if neither has 16
   bytes and their first 32 bytes agree, missing ones counting as zero *)
Theorem C48_seeds_exact : forall s1 s2, 16 <= zlen s1 -> 16 <= zlen s2 ->
  (seed_key s1 = seed_key s2 <-> s1 = s2 \/ zlen s1 <> 16 /\ zlen s2 <> 16 /\ forall i, (i < 32)%nat -> nth i s1 0 = nth i s2 0).
Proof. exact seeds_exact. Qed.
Print Assumptions C48_seeds_exact.
(* 17 bytes, and the same followed by zeros and, after the 32nd byte, anything; 16 bytes and
   the same followed by a zero give different keys *)
Example C48_seeds_case : seed_key (repeat 1 17) = seed_key (repeat 1 17 ++ repeat 0 15 ++ [9; 9]) /\ repeat 1 17 <> repeat 1 17 ++ repeat 0 15 ++ [9; 9] /\
  seed_key (repeat 1 16) <> seed_key (repeat 1 16 ++ [0]).
Proof. split; [reflexivity|]. split; discriminate. Qed.
