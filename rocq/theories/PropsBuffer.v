(* C01-C03: the output buffer and invalid ranges. *)
From Verif Require Import Prelude BufOutModel BufOut BufHistory SpecTransducer TransformModel CipherModel CipherSpec CipherApi
  BlockFits History EncModel EncLawful BlockModel SpecPadding ApiFacts StreamHang Toy.

(* C01.  Any sequence of productions and fetches on a buffer of any initial
   size is a first-in first-out queue, whatever the contents [fresh] of
   newly created buffers. *)
Theorem C01_buffer_is_fifo : forall fresh, (forall n, 0 <= n -> zlen (fresh n) = n) ->
  forall n ops, 0 < n <= max_string_length -> Forall bop_ok ops ->
  brun fresh (bo_new fresh n) ops = qrun [] ops.
Proof. exact buffer_is_queue. Qed.
Print Assumptions C01_buffer_is_fifo.

(* a buffer of 2 bytes that has to be compacted, then to grow *)
Example C01_case :
  brun toy_fresh (bo_new toy_fresh 2)
    [Produce [1]; GetChr; Produce [2; 3]; Available; GetChr; Produce [4; 5; 6]; GetStr; GetChr; Produce [7]; GetSub] =
  [BUnit; BInt 1; BUnit; BInt 2; BInt 2; BUnit; BBytes [3; 4; 5; 6]; BExn End_of_file; BUnit; BBytes [7]].
Proof. vm_compute. reflexivity. Qed.

(* C02.  Making room for n bytes *)
Theorem C02_room : forall fresh, (forall n, 0 <= n -> zlen (fresh n) = n) ->
  forall b n, bo_inv b -> 0 <= n -> zlen (bo_contents b) + n <= max_string_length ->
  exists b', ensure_capacity fresh b n = (b', Ret tt) /\ bo_inv b' /\ bo_contents b' = bo_contents b /\
    oend b' + n <= zlen (obuf b').
Proof. exact ensure_capacity_ok. Qed.
Print Assumptions C02_room.

Theorem C02_overflow : forall fresh, (forall n, 0 <= n -> zlen (fresh n) = n) ->
  forall b n, bo_inv b -> 0 <= n -> oend b - obeg b + n <= 2 ^ 61 ->
  zlen (bo_contents b) + n > max_string_length ->
  ensure_capacity fresh b n = (b, Raise (Error Output_buffer_overflow)).
Proof. exact ensure_capacity_overflow. Qed.
Print Assumptions C02_overflow.

(* above 2^61 it never ends: no number of iterations is enough *)
Theorem C02_beyond_bound_refuted : forall fresh, (forall n, 0 <= n -> zlen (fresh n) = n) ->
  forall n, 2 ^ 61 < n < 2 ^ 62 ->
  snd (ensure_capacity fresh (bo_new fresh 256) n) = Hang /\ forall fuel, grow_loop fuel n 512 = None.
Proof. exact ensure_capacity_hang. Qed.
Print Assumptions C02_beyond_bound_refuted.

Example C02_case :
  let b := BO [9; 1; 2] 1 3 in
  bo_contents b = [1; 2] /\
  bo_contents (fst (ensure_capacity toy_fresh b 5)) = [1; 2] /\
  zlen (obuf (fst (ensure_capacity toy_fresh b 5))) = 12 /\
  snd (ensure_capacity toy_fresh b (2 ^ 57)) = Raise (Error Output_buffer_overflow).
Proof. vm_compute. repeat split; reflexivity. Qed.

(* C03.  Block cipher transforms, after any history without exception: a
   range outside the array is refused if its length is positive. *)
Theorem C03_block_bad_range_partial : forall fresh, (forall n, 0 <= n -> zlen (fresh n) = n) ->
  forall nb key bs E D m p iv d ops src ofs len, block_family nb key bs E D ->
  mode_ok bs (dmode m) -> iv_ok bs (dmode m) iv ->
  Forall op_valid ops -> bytes_ok src -> is_int ofs -> is_int len -> in_range src ofs len = false ->
  let B := 4 * mode_bs bs (dmode m) in
  zlen (fed ops) + zlen src + B * (zlen ops + 2) <= max_string_length ->
  exists o, make_cipher fresh nb m (option_map scheme_of p) iv key d = Ret o /\
  (failure ops (run_ops o ops) = None ->
   let r := last_obs (run_ops o (ops ++ [PutSubstring src ofs len])) in
   if len <=? 0 then r = OUnit else r = OExn Invalid_argument \/ r = OExn (Error Message_too_long)).
Proof. exact cipher_bad_range. Qed.
Print Assumptions C03_block_bad_range_partial.

(* The full claim fails: every stream cipher transform runs forever on some
   lengths, *)
Theorem C03_stream_hang_refuted : forall fresh, (forall n, 0 <= n -> zlen (fresh n) = n) ->
  forall K prim wipe k b ofs len, 2 ^ 61 < len < 2 ^ 62 ->
  last (run_ops (stream_obj fresh K prim wipe k) [PutSubstring b ofs len]) OUnit = OHang.
Proof. exact stream_put_hang. Qed.
Print Assumptions C03_stream_hang_refuted.

(* block cipher transforms accept some bad ranges silently, *)
Theorem C03_silent_refuted : exists nb key o src ofs len,
  block_family nb key 4 (toy_E key) (toy_D key) /\
  make_cipher toy_fresh nb None None None key Encrypt = Ret o /\
  in_range src ofs len = false /\ run_ops o [PutSubstring src ofs len] = [OUnit].
Proof.
  exists toy_block, [1; 2; 3; 4]. eexists. exists [0; 0], 7, (-1).
  split; [apply toy_family; [reflexivity|repeat constructor; lia]|].
  split; [reflexivity|]. split; vm_compute; reflexivity.
Qed.
Print Assumptions C03_silent_refuted.

(* and the output changes although the range is refused. *)
Theorem C03_output_changes_refuted : exists nb key o src ofs len,
  block_family nb key 4 (toy_E key) (toy_D key) /\
  make_cipher toy_fresh nb None None None key Encrypt = Ret o /\
  in_range src ofs len = false /\
  run_ops o [AvailableOutput; PutSubstring src ofs len] = [OInt 0; OExn Invalid_argument] /\
  t_available (o_tr o) (fst (t_put_substring (o_tr o) (o_st o) src ofs len)) = 4.
Proof.
  exists toy_block, [1; 2; 3; 4]. eexists. exists [0; 0; 0; 0; 0], 0, 9.
  split; [apply toy_family; [reflexivity|repeat constructor; lia]|].
  split; [reflexivity|]. split; [|split]; vm_compute; reflexivity.
Qed.
Print Assumptions C03_output_changes_refuted.
