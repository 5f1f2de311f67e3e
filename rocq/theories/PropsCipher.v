(* C04, C08-C16, C69: block cipher transforms, modes and padding. *)
From Verif Require Import Prelude BytesNum BufOutModel SpecTransducer SpecBlock SpecModes SpecPadding TransformModel BlockModel BlockFits
  CipherModel CipherSpec CipherFacts CipherApi History Modes CtrLimit BlockBounds ApiFacts Toy.

Definition toy_key : bytes := [17; 34; 51; 68].
Definition toy_fam : block_family toy_block toy_key 4 (toy_E toy_key) (toy_D toy_key) :=
  toy_family toy_key eq_refl ltac:(repeat constructor; lia).

(* C04.  Two histories with the same data, flushes and finishes *)
Theorem C04_chunking : forall fresh, (forall n, 0 <= n -> zlen (fresh n) = n) ->
  forall nb key bs E D m p iv d ops1 ops2, block_family nb key bs E D ->
  mode_ok bs (dmode m) -> iv_ok bs (dmode m) iv ->
  Forall op_valid ops1 -> Forall op_valid ops2 -> events ops1 = events ops2 ->
  let b := mode_bs bs (dmode m) in
  zlen (fed ops1) + 2 * b * finishes ops1 + b <= max_string_length ->
  exists o, make_cipher fresh nb m (option_map scheme_of p) iv key d = Ret o /\
    failure ops1 (run_ops o ops1) = failure ops2 (run_ops o ops2) /\
    (failure ops1 (run_ops o ops1) = None ->
     all_got (ops1 ++ [GetString]) (run_ops o (ops1 ++ [GetString])) =
     all_got (ops2 ++ [GetString]) (run_ops o (ops2 ++ [GetString]))).
Proof. exact cipher_chunking. Qed.
Print Assumptions C04_chunking.

Example C04_case :
  let ops1 := [PutChar 1; PutSubstring [0; 2; 3; 4; 5; 0] 1 4; GetChar; Flush; PutString [6; 7]; GetString; PutByte 8; Finish] in
  let ops2 := [PutString [1; 2; 3; 4; 5]; Flush; PutString [6; 7; 8]; Finish] in
  events ops1 = events ops2 /\
  exists o, make_cipher toy_fresh toy_block (Some (CFB 1)) None None toy_key Encrypt = Ret o /\
  all_got (ops2 ++ [GetString]) (run_ops o (ops2 ++ [GetString])) = [16; 3; 17; 4; 16; 7; 17; 8].
Proof. split; [reflexivity|]. eexists. split; [reflexivity|]. vm_compute. reflexivity. Qed.

(* C08.  [mode_spec] is the relation between input and output blocks of
   SP 800-38A; CTR refuses the last block before the counter would be reused
   (see C14, C69) *)
Theorem C08_modes : forall fresh, (forall n, 0 <= n -> zlen (fresh n) = n) ->
  forall nb key bs E D m iv d X, block_family nb key bs E D ->
  mode_ok bs (dmode m) -> iv_ok bs (dmode m) iv -> blocks_ok (mode_bs bs (dmode m)) X ->
  zlen (concat X) + 3 * mode_bs bs (dmode m) <= max_string_length ->
  exists o, make_cipher fresh nb m None iv key d = Ret o /\
  (within_limit bs (dmode m) (zlen X) ->
   exists Y, mode_spec bs (mode_fun E D (dmode m) d) (dmode m) d (iv_val bs iv) X Y /\
     run_string o (concat X) = Ret (concat Y) /\
     (forall ops, history_of (concat X) ops -> out_of o ops = concat Y)) /\
  (~ within_limit bs (dmode m) (zlen X) -> run_string o (concat X) = Raise (Error Message_too_long)).
Proof. exact cipher_computes_mode. Qed.
Print Assumptions C08_modes.

Example C08_case :
  blocks_ok 4 [[1; 2; 3; 4]; [5; 6; 7; 8]] /\
  forall m, In m [ECB; CBC; CFB 4; OFB 4; CTR; CTR_N 2] -> exists o r,
  make_cipher toy_fresh toy_block (Some m) None (Some [9; 8; 7; 6]) toy_key Encrypt = Ret o /\
  run_string o (concat [[1; 2; 3; 4]; [5; 6; 7; 8]]) = Ret r /\
  r = match m with
      | ECB => [21; 33; 49; 69; 25; 37; 53; 65]
      | CBC => [19; 38; 57; 76; 85; 28; 19; 82]
      | CFB _ => [22; 39; 56; 73; 93; 28; 19; 90]
      | OFB _ => [22; 39; 56; 73; 89; 31; 17; 91]
      | _ => [22; 39; 56; 73; 19; 35; 60; 69]
      end.
Proof.
  split; [repeat constructor; lia|].
  intros m Hm. cbn in Hm. repeat destruct Hm as [<-|Hm]; try contradiction;
    (eexists _, _; split; [reflexivity|]; split; [vm_compute; reflexivity|reflexivity]).
Qed.

(* C09 *)
Theorem C09_roundtrip_plain : forall fresh, (forall n, 0 <= n -> zlen (fresh n) = n) ->
  forall nb key bs E D m iv msg, block_family nb key bs E D ->
  mode_ok bs (dmode m) -> iv_ok bs (dmode m) iv ->
  bytes_ok msg -> zlen msg + 3 * mode_bs bs (dmode m) <= max_string_length ->
  within_limit bs (dmode m) (zlen msg / mode_bs bs (dmode m)) ->
  exists oe od, make_cipher fresh nb m None iv key Encrypt = Ret oe /\
    make_cipher fresh nb m None iv key Decrypt = Ret od /\
  (zlen msg mod mode_bs bs (dmode m) = 0 ->
   exists c, run_string oe msg = Ret c /\ run_string od c = Ret msg /\ zlen c = zlen msg /\
     (forall ops, history_of msg ops -> out_of oe ops = c) /\
     (forall ops, history_of c ops -> out_of od ops = msg)) /\
  (zlen msg mod mode_bs bs (dmode m) <> 0 ->
   run_string oe msg = Raise (Error Wrong_data_length) /\ run_string od msg = Raise (Error Wrong_data_length)).
Proof. exact decrypt_encrypt_plain. Qed.
Print Assumptions C09_roundtrip_plain.

Example C09_case : exists oe od,
  make_cipher toy_fresh toy_block (Some (CFB 3)) None (Some [9; 8; 7; 6]) toy_key Encrypt = Ret oe /\
  make_cipher toy_fresh toy_block (Some (CFB 3)) None (Some [9; 8; 7; 6]) toy_key Decrypt = Ret od /\
  run_string oe [1; 2; 3; 4; 5; 6] = Ret [22; 39; 56; 45; 0; 35] /\
  run_string od [22; 39; 56; 45; 0; 35] = Ret [1; 2; 3; 4; 5; 6] /\
  run_string oe [1; 2; 3; 4] = Raise (Error Wrong_data_length).
Proof. eexists _, _. split; [reflexivity|]. split; [reflexivity|]. repeat split; vm_compute; reflexivity. Qed.

(* C10 *)
Theorem C10_roundtrip_padded : forall fresh, (forall n, 0 <= n -> zlen (fresh n) = n) ->
  forall nb key bs E D m p iv msg, block_family nb key bs E D ->
  mode_ok bs (dmode m) -> iv_ok bs (dmode m) iv -> pad_supports p (mode_bs bs (dmode m)) ->
  bytes_ok msg -> zlen msg + 4 * mode_bs bs (dmode m) <= max_string_length ->
  within_limit bs (dmode m) (zlen msg / mode_bs bs (dmode m) + 1) ->
  exists oe od c, make_cipher fresh nb m (Some (scheme_of p)) iv key Encrypt = Ret oe /\
    make_cipher fresh nb m (Some (scheme_of p)) iv key Decrypt = Ret od /\
    run_string oe msg = Ret c /\ run_string od c = Ret msg /\
    zlen c = (zlen msg / mode_bs bs (dmode m) + 1) * mode_bs bs (dmode m) /\
    (forall ops, history_of msg ops -> out_of oe ops = c) /\
    (forall ops, history_of c ops -> out_of od ops = msg).
Proof. exact decrypt_encrypt_padded. Qed.
Print Assumptions C10_roundtrip_padded.

Example C10_case : exists oe od,
  make_cipher toy_fresh toy_block None (Some padding_length) None toy_key Encrypt = Ret oe /\
  make_cipher toy_fresh toy_block None (Some padding_length) None toy_key Decrypt = Ret od /\
  run_string oe [1; 2; 3; 4; 5] = Ret [21; 33; 49; 69; 87; 16; 17; 84] /\
  run_string od [21; 33; 49; 69; 87; 16; 17; 84] = Ret [1; 2; 3; 4; 5] /\
  run_string od [21; 33; 49; 69; 86; 16; 17; 84] = Raise (Error Bad_padding).
Proof. eexists _, _. split; [reflexivity|]. split; [reflexivity|]. repeat split; vm_compute; reflexivity. Qed.

(* C11 *)
Theorem C11_pad_strip : forall buf used, bytes_ok buf -> 0 <= used < zlen buf -> zlen buf - used < 256 ->
  exists b, pad padding_length buf used = Ret b /\ sub b 0 used = sub buf 0 used /\ zlen b = zlen buf /\
    strip padding_length b = Ret used.
Proof. exact length_pad_strip. Qed.
Print Assumptions C11_pad_strip.
Theorem C11_strip_exact : forall blk, 0 < zlen blk -> bytes_ok blk ->
  (forall v, strip padding_length blk = Ret v <-> exists data, length_padded blk data /\ v = zlen data) /\
  ((exists v, strip padding_length blk = Ret v) \/ strip padding_length blk = Raise (Error Bad_padding)).
Proof. exact length_strip_exact. Qed.
Print Assumptions C11_strip_exact.
Example C11_case :
  pad padding_length [7; 7; 7; 7; 7] 2 = Ret [7; 7; 3; 3; 3] /\ strip padding_length [7; 7; 3; 3; 3] = Ret 2 /\
  strip padding_length [7; 7; 2; 3; 3] = Raise (Error Bad_padding) /\
  strip padding_length [7; 7; 3; 3; 0] = Raise (Error Bad_padding) /\
  strip padding_length [6; 6; 6; 6; 6] = Raise (Error Bad_padding) /\
  strip padding_length [5; 5; 5; 5; 5] = Ret 0.
Proof. vm_compute. repeat split; reflexivity. Qed.

(* C12 *)
Theorem C12_pad_strip : forall buf used, 0 <= used < zlen buf ->
  exists b, pad padding_8000 buf used = Ret b /\ sub b 0 used = sub buf 0 used /\ zlen b = zlen buf /\
    strip padding_8000 b = Ret used.
Proof. exact zeros_pad_strip. Qed.
Print Assumptions C12_pad_strip.
Theorem C12_strip_exact : forall blk,
  (forall v, strip padding_8000 blk = Ret v <-> exists data, zeros_padded blk data /\ v = zlen data) /\
  ((exists v, strip padding_8000 blk = Ret v) \/ strip padding_8000 blk = Raise (Error Bad_padding)).
Proof. exact zeros_strip_exact. Qed.
Print Assumptions C12_strip_exact.
Example C12_case :
  pad padding_8000 [7; 7; 7; 7; 7] 2 = Ret [7; 7; 128; 0; 0] /\ strip padding_8000 [7; 7; 128; 0; 0] = Ret 2 /\
  strip padding_8000 [7; 7; 7; 0; 0] = Raise (Error Bad_padding) /\
  strip padding_8000 [0; 0; 0; 0; 0] = Raise (Error Bad_padding) /\
  strip padding_8000 [128; 0; 128; 128; 0] = Ret 3.
Proof. vm_compute. repeat split; reflexivity. Qed.

(* C13.  The field is the bytes lim .. pos; [be] and [to_be] are big-endian
   decoding and encoding (modulo 256^w) *)
Theorem C13_increment : forall w c lim pos, 0 <= lim -> lim + Z.of_nat w = pos + 1 -> pos < zlen c -> bytes_ok c ->
  forall fuel, (w < fuel)%nat ->
  increment_counter_loop fuel c lim pos =
  Ret (sub c 0 lim ++ to_be w (be (sub c lim (Z.of_nat w)) + 1) ++ sub c (pos + 1) (zlen c - (pos + 1))).
Proof. exact increment_counter_loop_ok. Qed.
Print Assumptions C13_increment.
Example C13_case :
  increment_counter [1; 2; 255; 255; 9] 1 3 = Ret [1; 3; 0; 0; 9] /\
  increment_counter [1; 255; 255; 255; 9] 1 3 = Ret [1; 0; 0; 0; 9].
Proof. vm_compute. split; reflexivity. Qed.

(* C14.  The calls of the transform method of a CTR object on any number of
   blocks: the first ones are xored with the cipher of the successive counter
   blocks, which are pairwise different, all others are refused. *)
Theorem C14_ctr_no_reuse : forall fresh, (forall n, 0 <= n -> zlen (fresh n) = n) ->
  forall nb key bs E D m w iv d blks, block_family nb key bs E D ->
  ctr_width bs m = Some w -> mode_ok bs m -> iv_ok bs m iv -> blocks_ok bs blks ->
  exists c cc, nb Encrypt key = Ret c /\ chain fresh m d iv c = Ret cc /\
    length (bc_calls (b_bc cc) (b_st cc) blks) = length blks /\
    (forall j, (j < length blks)%nat ->
       nth j (bc_calls (b_bc cc) (b_st cc) blks) Hang =
       if Z.of_nat j <? ctr_limit (Z.to_nat w) - 1
       then Ret (xorb (nth j blks []) (E (ctr_block (Z.to_nat w) (iv_val bs iv) (Z.of_nat j))))
       else Raise (Error Message_too_long)) /\
    (forall i j, 0 <= i < ctr_limit (Z.to_nat w) -> 0 <= j < ctr_limit (Z.to_nat w) ->
       ctr_block (Z.to_nat w) (iv_val bs iv) i = ctr_block (Z.to_nat w) (iv_val bs iv) j -> i = j).
Proof. exact ctr_never_reuses. Qed.
Print Assumptions C14_ctr_no_reuse.

Example C14_case : exists c cc,
  toy_block Encrypt toy_key = Ret c /\ chain toy_fresh (CTR_N 1) Encrypt (Some [1; 2; 3; 254]) c = Ret cc /\
  let calls := bc_calls (b_bc cc) (b_st cc) (repeat [0; 0; 0; 0] 258) in
  map (fun j => nth j calls Hang) [0%nat; 1%nat; 2%nat; 254%nat; 255%nat; 256%nat; 257%nat] =
  [Ret [239; 33; 49; 69]; Ret [238; 33; 49; 69]; Ret [17; 33; 49; 69]; Ret [237; 33; 49; 69];
   Raise (Error Message_too_long); Raise (Error Message_too_long); Raise (Error Message_too_long)].
Proof. eexists _, _. split; [reflexivity|]. split; [reflexivity|]. vm_compute. reflexivity. Qed.

(* C69.  CTR accepts fewer messages than fit: with a one-byte counter 256
   blocks use each counter value once, and are refused. *)
Theorem C69_ctr_full_period_refuted : exists nb key bs E D o msg,
  block_family nb key bs E D /\ make_cipher toy_fresh nb (Some (CTR_N 1)) None None key Encrypt = Ret o /\
  zlen msg = 256 * bs /\ run_string o msg = Raise (Error Message_too_long).
Proof.
  exists toy_block, toy_key, 4, (toy_E toy_key), (toy_D toy_key). eexists. exists (zeros 1024).
  split; [exact toy_fam|]. split; [reflexivity|]. split; [reflexivity|]. vm_compute. reflexivity.
Qed.
Print Assumptions C69_ctr_full_period_refuted.
(* what is accepted: C08_modes with within_limit: all messages of at most
   2^(8w) - 1 blocks *)
Theorem C69_ctr_accepts_partial : forall fresh, (forall n, 0 <= n -> zlen (fresh n) = n) ->
  forall nb key bs E D n iv d X, block_family nb key bs E D ->
  0 < n <= bs -> iv_ok bs (CTR_N n) iv -> blocks_ok bs X ->
  zlen (concat X) + 3 * bs <= max_string_length -> zlen X <= 256 ^ Z.min n 8 - 1 ->
  exists o r, make_cipher fresh nb (Some (CTR_N n)) None iv key d = Ret o /\ run_string o (concat X) = Ret r.
Proof. exact ctr_accepts. Qed.
Print Assumptions C69_ctr_accepts_partial.

(* C15, initialization vectors *)
Theorem C15_iv_size_partial : forall fresh, (forall n, 0 <= n -> zlen (fresh n) = n) ->
  forall nb key bs E D m p iv d, block_family nb key bs E D -> mode_ok bs (dmode m) ->
  (forall v, iv = Some v -> bytes_ok v) ->
  match iv with
  | Some v => if zlen v =? bs then exists o, make_cipher fresh nb m p iv key d = Ret o
              else if match dmode m with ECB => true | _ => false end
              then exists o, make_cipher fresh nb m p iv key d = Ret o
              else make_cipher fresh nb m p iv key d = Raise (Error Wrong_IV_size)
  | None => exists o, make_cipher fresh nb m p iv key d = Ret o
  end.
Proof. exact cipher_iv_size. Qed.
Print Assumptions C15_iv_size_partial.
Example C15_case :
  make_cipher toy_fresh toy_block (Some CTR) None (Some [1; 2; 3]) toy_key Encrypt = Raise (Error Wrong_IV_size) /\
  make_cipher toy_fresh toy_block (Some CTR) None (Some [1; 2; 3; 4; 5]) toy_key Encrypt = Raise (Error Wrong_IV_size).
Proof. split; reflexivity. Qed.

(* C16.  An object made by a mode over a primitive, in any state reached by
   calls of its transform method, valid or not.  All modes except CBC
   encryption respect the ranges. *)
Theorem C16_ranges_partial : forall fresh, (forall n, 0 <= n -> zlen (fresh n) = n) ->
  forall K bs prim wipe k E, 0 < bs ->
  (forall b, zlen b = bs -> bytes_ok b -> prim k b = Ret (E b) /\ zlen (E b) = bs /\ bytes_ok (E b)) ->
  (forall k b r, prim k b = Ret r -> zlen r = bs) ->
  forall m d iv cc s src so dst d', mode_ok bs m -> (forall v, iv = Some v -> bytes_ok v) ->
  chain fresh m d iv (BObj (raw_cipher K bs prim wipe) k) = Ret cc -> ~ (m = CBC /\ d = Encrypt) ->
  reach (b_bc cc) (b_st cc) s -> bytes_ok src -> bytes_ok dst ->
  range_respecting (b_bc cc) s src so dst d'.
Proof. exact chain_respects. Qed.
Print Assumptions C16_ranges_partial.

(* CBC encryption reads outside the source array, for every primitive, state
   and range outside the array *)
Theorem C16_cbc_encrypt_refuted : forall C s src so dst d, in_range src so (bc_blocksize C) = false ->
  snd (bc_transform (cbc_encrypt C) s src so dst d) = Undef.
Proof. exact cbc_encrypt_unchecked. Qed.
Print Assumptions C16_cbc_encrypt_refuted.

(* it changes no byte of dst outside the range, and checks dst *)
Theorem C16_cbc_encrypt_frame : forall C, bc_frame C -> bc_frame (cbc_encrypt C).
Proof. exact cbc_encrypt_frame. Qed.
Print Assumptions C16_cbc_encrypt_frame.
Theorem C16_cbc_encrypt_dst : forall fresh : Z -> bytes, (forall n, 0 <= n -> zlen (fresh n) = n) ->
  forall (C : block_cipher) (good : bc_st C -> Prop), 0 < bc_blocksize C -> bc_checks C good ->
  forall (s : mode_st C) src so dst d, mode_good C good s -> in_range src so (bc_blocksize C) = true ->
  in_range dst d (bc_blocksize C) = false ->
  exists s', bc_transform (cbc_encrypt C) s src so dst d = ((s', dst), Raise Invalid_argument).
Proof. exact cbc_encrypt_checks_dst. Qed.
Print Assumptions C16_cbc_encrypt_dst.

Example C16_case : exists c cc ce,
  toy_block Encrypt toy_key = Ret c /\ chain toy_fresh CTR Encrypt None c = Ret cc /\
  chain toy_fresh CBC Encrypt None c = Ret ce /\
  (snd (fst (bc_transform (b_bc cc) (b_st cc) [1; 2; 3; 4; 5] 1 [9; 9; 9; 9; 9; 9] 2)) = [9; 9; 19; 33; 55; 65] /\
   snd (bc_transform (b_bc cc) (b_st cc) [1; 2; 3; 4; 5] 2 [9; 9; 9; 9; 9; 9] 2) = Raise Invalid_argument) /\
  snd (bc_transform (b_bc ce) (b_st ce) [1; 2; 3; 4; 5] 2 [9; 9; 9; 9; 9; 9] 2) = Undef.
Proof. eexists _, _, _. split; [reflexivity|]. split; [reflexivity|]. split; [reflexivity|]. split; [split|]; vm_compute; reflexivity. Qed.
