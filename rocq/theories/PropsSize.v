(* C71 (block sizes of transforms), C72 (flush). *)
From Verif Require Import Prelude SpecTransducer SpecBlock SpecModes TransformModel BlockModel CipherModel CipherSpec CipherFacts CipherApi BlockFits History
  EncModel EncLawful LibTransform BlockSizes SizeFacts FlushFacts Toy.

Local Definition toy_key : bytes := [17; 34; 51; 68].
Local Definition toy_fam : block_family toy_block toy_key 4 (toy_E toy_key) (toy_D toy_key) :=
  toy_family toy_key eq_refl ltac:(repeat constructor; lia).

(* C71.  [sized_transform fresh o K A ib ob]: o is a cipher, stream cipher,
   encoding or composition of such, K and A bound its growth, ib and ob are
   the results of its methods input_block_size and output_block_size. *)
Theorem C71_output_blocks : forall fresh, (forall n, 0 <= n -> zlen (fresh n) = n) ->
  forall o K A ib ob, sized_transform fresh o K A ib ob ->
  forall msg r, bytes_ok msg -> K * zlen msg + 2 * A <= max_string_length -> run_string o msg = Ret r -> zlen r mod ob = 0.
Proof. exact output_blocks. Qed.
Print Assumptions C71_output_blocks.
Theorem C71_input_blocks : forall fresh, (forall n, 0 <= n -> zlen (fresh n) = n) ->
  forall o K A ib ob, sized_transform fresh o K A ib ob ->
  forall msg, bytes_ok msg -> K * zlen msg + 2 * A <= max_string_length -> zlen msg mod ib <> 0 -> exists e, run_string o msg = Raise e.
Proof. exact input_blocks. Qed.
Print Assumptions C71_input_blocks.
(* the exact lengths: no padding *)
Theorem C71_plain_lengths : forall fresh, (forall n, 0 <= n -> zlen (fresh n) = n) ->
  forall nb key bs E D m iv, block_family nb key bs E D -> mode_ok bs (dmode m) -> iv_ok bs (dmode m) iv ->
  let bm := mode_bs bs (dmode m) in
  forall d msg, bytes_ok msg -> zlen msg + 3 * bm <= max_string_length ->
  exists o, make_cipher fresh nb m None iv key d = Ret o /\
    (within_limit bs (dmode m) (zlen msg / bm) -> zlen msg mod bm = 0 -> exists r, run_string o msg = Ret r /\ zlen r = zlen msg) /\
    (within_limit bs (dmode m) (zlen msg / bm) -> zlen msg mod bm <> 0 -> run_string o msg = Raise (Error Wrong_data_length)) /\
    (~ within_limit bs (dmode m) (zlen msg / bm) -> run_string o msg = Raise (Error Message_too_long)).
Proof. exact plain_outcome. Qed.
Print Assumptions C71_plain_lengths.
(* encryption with padding: the next multiple of the block size, never equal *)
Theorem C71_padded_encrypt_lengths : forall fresh, (forall n, 0 <= n -> zlen (fresh n) = n) ->
  forall nb key bs E D m iv, block_family nb key bs E D -> mode_ok bs (dmode m) -> iv_ok bs (dmode m) iv ->
  let bm := mode_bs bs (dmode m) in
  forall p msg, pad_supports p bm -> bytes_ok msg -> zlen msg + 4 * bm <= max_string_length ->
  exists o, make_cipher fresh nb m (Some (scheme_of p)) iv key Encrypt = Ret o /\
    (within_limit bs (dmode m) (zlen msg / bm + 1) -> exists r, run_string o msg = Ret r /\ zlen r = (zlen msg / bm + 1) * bm) /\
    (~ within_limit bs (dmode m) (zlen msg / bm + 1) -> run_string o msg = Raise (Error Message_too_long)).
Proof. exact padenc_outcome. Qed.
Print Assumptions C71_padded_encrypt_lengths.
Theorem C71_padded_decrypt_lengths : forall fresh, (forall n, 0 <= n -> zlen (fresh n) = n) ->
  forall nb key bs E D m iv, block_family nb key bs E D -> mode_ok bs (dmode m) -> iv_ok bs (dmode m) iv ->
  let bm := mode_bs bs (dmode m) in
  forall p msg, bytes_ok msg -> zlen msg + 3 * bm <= max_string_length ->
  exists o, make_cipher fresh nb m (Some (scheme_of p)) iv key Decrypt = Ret o /\
    (within_limit bs (dmode m) (zlen msg / bm) -> zlen msg mod bm = 0 -> msg <> [] ->
       (exists r, run_string o msg = Ret r /\ zlen msg - bm <= zlen r < zlen msg) \/ run_string o msg = Raise (Error Bad_padding)) /\
    (within_limit bs (dmode m) (zlen msg / bm) -> zlen msg mod bm <> 0 \/ msg = [] -> run_string o msg = Raise (Error Wrong_data_length)) /\
    (~ within_limit bs (dmode m) (zlen msg / bm) -> run_string o msg = Raise (Error Message_too_long)).
Proof. exact paddec_outcome. Qed.
Print Assumptions C71_padded_decrypt_lengths.
(* a whole number of input blocks, not empty, is never refused for its
   length.  Partial: not for compositions and the empty message, see below *)
Theorem C71_whole_blocks_partial : forall fresh, (forall n, 0 <= n -> zlen (fresh n) = n) ->
  forall o K A ib ob, basic_transform fresh o K A ib ob ->
  forall msg, bytes_ok msg -> msg <> [] -> K * zlen msg + 2 * A <= max_string_length -> zlen msg mod ib = 0 ->
  (exists r, run_string o msg = Ret r) \/ (exists e, run_string o msg = Raise (Error e) /\ (e = Message_too_long \/ e = Bad_padding \/ e = Bad_encoding)).
Proof. exact whole_blocks_accepted. Qed.
Print Assumptions C71_whole_blocks_partial.
(* a composition whose input_block_size is 1 and that refuses a message for
   its length: hexadecimal encoding, then a cipher without padding *)
Theorem C71_compose_refuted : exists o K A ob msg, sized_transform toy_fresh o K A 1 ob /\ bytes_ok msg /\
  run_string o msg = Raise (Error Wrong_data_length).
Proof.
  eexists (composed (hexa_encode_obj toy_fresh) _), _, _, _, [7]. split; [|split].
  - eapply ST_compose; [apply ST_basic, BT_hexe|]. eapply ST_basic, (BT_cipher toy_fresh toy_block toy_key 4 (toy_E toy_key) (toy_D toy_key) None None None Encrypt).
    + exact toy_fam.
    + exact Logic.I.
    + exact Logic.I.
    + discriminate.
    + reflexivity.
    + reflexivity.
  - repeat constructor; unfold byte_ok; lia.
  - vm_compute. reflexivity.
Qed.
Print Assumptions C71_compose_refuted.
(* decryption with padding: the empty message is a multiple of the block size *)
Theorem C71_empty_refuted : exists o K A ib ob, sized_transform toy_fresh o K A ib ob /\
  run_string o [] = Raise (Error Wrong_data_length).
Proof.
  eexists _, _, _, _, _. split.
  - eapply ST_basic, (BT_cipher toy_fresh toy_block toy_key 4 (toy_E toy_key) (toy_D toy_key) None (Some PLength) None Decrypt).
    + exact toy_fam.
    + exact Logic.I.
    + exact Logic.I.
    + intros q H. injection H as <-. cbn. lia.
    + reflexivity.
    + reflexivity.
  - vm_compute. reflexivity.
Qed.
Print Assumptions C71_empty_refuted.
Example C71_case : exists oe od,
  make_cipher toy_fresh toy_block (Some (CFB 3)) (Some padding_length) None toy_key Encrypt = Ret oe /\
  make_cipher toy_fresh toy_block (Some (CFB 3)) (Some padding_length) None toy_key Decrypt = Ret od /\
  (exists r, run_string oe [1; 2; 3] = Ret r /\ zlen r = 6) /\ run_string od [1; 2; 3; 4] = Raise (Error Wrong_data_length) /\
  run_string od [1; 2; 3] = Raise (Error Bad_padding).
Proof.
  eexists _, _. split; [reflexivity|]. split; [reflexivity|]. split; [|split; vm_compute; reflexivity].
  eexists. split; [vm_compute; reflexivity|reflexivity].
Qed.

(* C72.  ops: any calls except finish, none of which raised.  flush raises if
   the input so far is not a whole number of blocks, of the block size of the
   cipher whatever the padding, and otherwise makes available the
   transformation of all the input, without padding. *)
Theorem C72_flush : forall fresh, (forall n, 0 <= n -> zlen (fresh n) = n) ->
  forall nb key bs E D m iv, block_family nb key bs E D -> mode_ok bs (dmode m) -> iv_ok bs (dmode m) iv ->
  let bm := mode_bs bs (dmode m) in
  forall p d ops o, make_cipher fresh nb m (option_map scheme_of p) iv key d = Ret o -> Forall op_valid ops ->
  forallb not_finish ops = true -> zlen (fed ops) + 3 * bm <= max_string_length -> failure ops (run_ops o ops) = None ->
  let r := failure (ops ++ [Flush]) (run_ops o (ops ++ [Flush])) in
  (zlen (fed ops) mod bm <> 0 -> r = Some (OExn (Error Wrong_data_length))) /\
  (zlen (fed ops) mod bm = 0 -> ~ within_limit bs (dmode m) (zlen (fed ops) / bm) -> r = Some (OExn (Error Message_too_long))) /\
  (zlen (fed ops) mod bm = 0 -> within_limit bs (dmode m) (zlen (fed ops) / bm) -> r = None /\
     exists X Y, blocks_ok bm X /\ fed ops = concat X /\ mode_spec bs (mode_fun E D (dmode m) d) (dmode m) d (iv_val bs iv) X Y /\
       all_got (ops ++ [Flush; GetString]) (run_ops o (ops ++ [Flush; GetString])) = concat Y).
Proof. exact flush_result. Qed.
Print Assumptions C72_flush.
(* the transform goes on: flushes do not change the result, if no call raises *)
Theorem C72_flush_continue_partial : forall fresh, (forall n, 0 <= n -> zlen (fresh n) = n) ->
  forall nb key bs E D m iv, block_family nb key bs E D -> mode_ok bs (dmode m) -> iv_ok bs (dmode m) iv ->
  let bm := mode_bs bs (dmode m) in
  forall p d ops o, make_cipher fresh nb m (option_map scheme_of p) iv key d = Ret o -> Forall op_valid ops ->
  forallb not_finish ops = true -> zlen (fed ops) + 3 * bm <= max_string_length ->
  failure (ops ++ [Finish; GetString]) (run_ops o (ops ++ [Finish; GetString])) = None ->
  run_string o (fed ops) = Ret (out_of o ops).
Proof. exact flush_transparent. Qed.
Print Assumptions C72_flush_continue_partial.
(* decryption with padding: after a flush at the end of the input finish
   raises, though it succeeds without the flush *)
Theorem C72_flush_padded_refuted : exists nb key bs E D o msg r, block_family nb key bs E D /\
  make_cipher toy_fresh nb None (Some padding_length) None key Decrypt = Ret o /\
  run_string o msg = Ret r /\ failure [PutString msg; Flush; Finish] (run_ops o [PutString msg; Flush; Finish]) = Some (OExn (Error Wrong_data_length)).
Proof.
  exists toy_block, toy_key, 4, (toy_E toy_key), (toy_D toy_key). eexists. exists [21; 33; 49; 69; 87; 16; 17; 84], [1; 2; 3; 4; 5].
  split; [exact toy_fam|]. split; [reflexivity|]. split; vm_compute; reflexivity.
Qed.
Print Assumptions C72_flush_padded_refuted.
Example C72_case : exists o, make_cipher toy_fresh toy_block None (Some padding_length) None toy_key Encrypt = Ret o /\
  run_ops o [PutString [1; 2; 3; 4]; Flush; GetString; PutByte 5; Finish; GetString] = [OUnit; OUnit; OBytes [21; 33; 49; 69]; OUnit; OUnit; OBytes [87; 16; 17; 84]] /\
  run_ops o [PutString [1; 2; 3]; Flush] = [OUnit; OExn (Error Wrong_data_length)].
Proof. eexists. split; [reflexivity|]. split; vm_compute; reflexivity. Qed.
