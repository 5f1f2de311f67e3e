(* Model: blake3.c, blake3_portable.c, blake3_impl.h, stubs-blake3.c, class
   blake3.  As src/dune compiles it (BLAKE3_NO_SSE2, ..., BLAKE3_USE_NEON=0):
   the dispatch functions of blake3_dispatch.c call the portable ones and
   blake3_simd_degree () is 1. *)
From Verif Require Import Prelude BytesNum SpecBlock Word WordIO HashModel MdModel ShaModel KeccakModel.

(* flags, blake3_impl.h 13-21 *)
Definition CHUNK_START := 1.
Definition CHUNK_END := 2.
Definition PARENT := 4.
Definition ROOT := 8.
Definition KEYED_HASH := 16.
(* IV and MSG_SCHEDULE, blake3_impl.h 72-84 *)
Definition B3_IV : list Z :=
  [0x6A09E667; 0xBB67AE85; 0x3C6EF372; 0xA54FF53A; 0x510E527F; 0x9B05688C; 0x1F83D9AB; 0x5BE0CD19].
Definition MSG_SCHEDULE : list (list nat) :=
  [[0; 1; 2; 3; 4; 5; 6; 7; 8; 9; 10; 11; 12; 13; 14; 15];
   [2; 6; 3; 10; 7; 0; 4; 13; 1; 11; 12; 5; 9; 14; 15; 8];
   [3; 4; 10; 12; 13; 2; 7; 14; 6; 5; 9; 0; 11; 15; 8; 1];
   [10; 7; 12; 9; 14; 3; 13; 15; 4; 0; 11; 2; 5; 8; 1; 6];
   [12; 13; 9; 11; 15; 10; 14; 8; 7; 2; 5; 3; 0; 1; 6; 4];
   [9; 14; 11; 5; 8; 12; 15; 1; 13; 3; 0; 10; 2; 6; 4; 7];
   [11; 15; 5; 0; 1; 9; 8; 6; 14; 10; 2; 12; 3; 4; 7; 13]]%nat.

(* highest_one, blake3_impl.h 88-115: 63 ^ clz(x), x nonzero *)
Definition highest_one (x : Z) : Z := Z.log2 x.
(* popcnt, 118-129 *)
Fixpoint pos_popcnt (p : positive) : Z :=
  match p with xH => 1 | xO p => pos_popcnt p | xI p => 1 + pos_popcnt p end.
Definition popcnt (x : Z) : Z := match x with Zpos p => pos_popcnt p | _ => 0 end.
(* round_down_to_power_of_2, 133-135 *)
Definition round_down_to_power_of_2 (x : Z) : Z := c_shl 64 1 (highest_one (Z.lor x 1)).
(* load32, 143-147, at consecutive addresses; store_cv_words, 169-178 (store32 161-167) *)
Definition load_words32 (n : nat) (b : bytes) : list Z := map (fun i => load_le 32 4 (skipn (i * 4) b)) (seq 0 n).
Definition store_words32 (ws : list Z) : bytes := concat (map (fun w => map (fun i => c_shr w (8 * i) mod 256) [0; 1; 2; 3]) ws).

(* g, blake3_portable.c 8-18: the same four statements twice *)
Definition b3_half_g (v : list Z) (a b c d : nat) (x r1 r2 : Z) : list Z :=
  let w := 32 in
  let v := kput v a (c_add w (c_add w (kget v a) (kget v b)) x) in
  let v := kput v d (c_ror w (Z.lxor (kget v d) (kget v a)) r1) in
  let v := kput v c (c_add w (kget v c) (kget v d)) in
  kput v b (c_ror w (Z.lxor (kget v b) (kget v c)) r2).
Definition b3_g (v : list Z) (a b c d : nat) (x y : Z) : list Z :=
  b3_half_g (b3_half_g v a b c d x 16 12) a b c d y 8 7.
(* round_fn, 20-35 *)
Definition round_fn (v : list Z) (msg : list Z) (round : nat) : list Z :=
  let schedule := nth round MSG_SCHEDULE [] in
  let x j := nth (nth j schedule 0%nat) msg 0 in
  let v := b3_g v 0 4 8 12 (x 0%nat) (x 1%nat) in
  let v := b3_g v 1 5 9 13 (x 2%nat) (x 3%nat) in
  let v := b3_g v 2 6 10 14 (x 4%nat) (x 5%nat) in
  let v := b3_g v 3 7 11 15 (x 6%nat) (x 7%nat) in
  let v := b3_g v 0 5 10 15 (x 8%nat) (x 9%nat) in
  let v := b3_g v 1 6 11 12 (x 10%nat) (x 11%nat) in
  let v := b3_g v 2 7 8 13 (x 12%nat) (x 13%nat) in
  b3_g v 3 4 9 14 (x 14%nat) (x 15%nat).
(* compress_pre, 37-82; counter_low, counter_high: blake3_impl.h 137-141 *)
Definition compress_pre (cv : list Z) (block : bytes) (block_len counter flags : Z) : list Z :=
  let m := load_words32 16 block in
  let v := [kget cv 0; kget cv 1; kget cv 2; kget cv 3; kget cv 4; kget cv 5; kget cv 6; kget cv 7;
            kget B3_IV 0; kget B3_IV 1; kget B3_IV 2; kget B3_IV 3;
            counter mod 2 ^ 32; c_shr counter 32 mod 2 ^ 32; block_len; flags] in
  let v := round_fn v m 0 in
  let v := round_fn v m 1 in
  let v := round_fn v m 2 in
  let v := round_fn v m 3 in
  let v := round_fn v m 4 in
  let v := round_fn v m 5 in
  round_fn v m 6.
(* blake3_compress_in_place_portable, 84-98 *)
Definition compress_in_place (cv : list Z) (block : bytes) (block_len counter flags : Z) : list Z :=
  let v := compress_pre cv block block_len counter flags in
  map (fun i => Z.lxor (kget v i) (kget v (i + 8))) (seq 0 8).
(* blake3_compress_xof_portable, 100-123 *)
Definition compress_xof (cv : list Z) (block : bytes) (block_len counter flags : Z) : bytes :=
  let v := compress_pre cv block block_len counter flags in
  store_words32 (map (fun i => Z.lxor (kget v i) (kget v (i + 8))) (seq 0 8) ++
                 map (fun i => Z.lxor (kget v (i + 8)) (kget cv i)) (seq 0 8)).
(* hash_one_portable, 125-143 *)
Fixpoint hash_one_loop (blocks : nat) (input : bytes) (cv : list Z) (counter flags block_flags flags_end : Z) : list Z :=
  match blocks with
  | O => cv
  | S n =>
      let block_flags := if (blocks =? 1)%nat then Z.lor block_flags flags_end else block_flags in
      let cv := compress_in_place cv (firstn 64 input) 64 counter block_flags in
      hash_one_loop n (skipn 64 input) cv counter flags flags flags_end
  end.
Definition hash_one (input : bytes) (blocks : nat) (key : list Z) (counter flags flags_start flags_end : Z) : bytes :=
  store_words32 (hash_one_loop blocks input key counter flags (Z.lor flags flags_start) flags_end).
(* blake3_hash_many_portable, 145-160 *)
Fixpoint hash_many (inputs : list bytes) (blocks : nat) (key : list Z) (counter : Z) (increment : bool)
    (flags flags_start flags_end : Z) : list bytes :=
  match inputs with
  | [] => []
  | i :: inputs =>
      hash_one i blocks key counter flags flags_start flags_end ::
      hash_many inputs blocks key (if increment then c_add 64 counter 1 else counter) increment flags flags_start flags_end
  end.

(* blake3_chunk_state, blake3.h 20-27 *)
Record chunk_state := CS { cs_cv : list Z; cs_counter : Z; cs_buf : bytes; cs_buf_len : Z; cs_blocks : Z; cs_flags : Z }.
(* chunk_state_init, blake3.c 10-18 (followed in two places by an assignment to chunk_counter) *)
Definition chunk_state_init (key : list Z) (counter flags : Z) : chunk_state := CS key counter (zeros 64) 0 0 flags.
(* chunk_state_reset, 20-27 *)
Definition chunk_state_reset (s : chunk_state) (key : list Z) (counter : Z) : chunk_state :=
  CS key counter (zeros 64) 0 0 (cs_flags s).
(* chunk_state_len, 29-32 *)
Definition chunk_state_len (s : chunk_state) : Z := 64 * cs_blocks s + cs_buf_len s.
(* chunk_state_fill_buf, 34-44; returns the bytes not taken *)
Definition chunk_state_fill_buf (s : chunk_state) (input : bytes) : out (chunk_state * bytes) :=
  let take := 64 - cs_buf_len s in
  let take := if take >? zlen input then zlen input else take in
  olet buf := c_memcpy (cs_buf s) (cs_buf_len s) (firstn (Z.to_nat take) input) in
  Ret (CS (cs_cv s) (cs_counter s) buf (c_add 8 (cs_buf_len s) take) (cs_blocks s) (cs_flags s), skipn (Z.to_nat take) input).
(* chunk_state_maybe_start_flag, 46-52 *)
Definition maybe_start_flag (s : chunk_state) : Z := if cs_blocks s =? 0 then CHUNK_START else 0.

(* output_t, 54-60, and make_output, 62-73 *)
Record output_t := Output { o_cv : list Z; o_counter : Z; o_block : bytes; o_block_len : Z; o_flags : Z }.
(* output_chaining_value, 81-87 *)
Definition output_chaining_value (o : output_t) : bytes :=
  store_words32 (compress_in_place (o_cv o) (o_block o) (o_block_len o) (o_counter o) (o_flags o)).
(* output_root_bytes, 89-110, with seek = 0 *)
Fixpoint output_root_loop (fuel : nat) (o : output_t) (counter : Z) (out_len : Z) (out : bytes) : bytes :=
  match fuel with
  | O => out
  | S f =>
      if out_len >? 0 then
        let wide_buf := compress_xof (o_cv o) (o_block o) (o_block_len o) counter (Z.lor (o_flags o) ROOT) in
        let available := 64 in
        let n := if out_len >? available then available else out_len in
        output_root_loop f o (c_add 64 counter 1) (out_len - n) (out ++ firstn (Z.to_nat n) wide_buf)
      else out
  end.
Definition output_root_bytes (o : output_t) (out_len : Z) : bytes := output_root_loop (Z.to_nat out_len) o 0 out_len [].

(* the loop of chunk_state_update, 128-135 *)
Fixpoint chunk_update_loop (fuel : nat) (s : chunk_state) (input : bytes) : out (chunk_state * bytes) :=
  match fuel with
  | O => Hang
  | S f =>
      if zlen input >? 64 then
        let cv := compress_in_place (cs_cv s) (firstn 64 input) 64 (cs_counter s) (Z.lor (cs_flags s) (maybe_start_flag s)) in
        chunk_update_loop f (CS cv (cs_counter s) (cs_buf s) (cs_buf_len s) (c_add 8 (cs_blocks s) 1) (cs_flags s)) (skipn 64 input)
      else Ret (s, input)
  end.
(* chunk_state_update, 112-140 *)
Definition chunk_state_update (s : chunk_state) (input : bytes) : out chunk_state :=
  olet si := (if cs_buf_len s >? 0 then
      olet si := chunk_state_fill_buf s input in
      let '(s, input) := si in
      if zlen input >? 0 then
        let cv := compress_in_place (cs_cv s) (cs_buf s) 64 (cs_counter s) (Z.lor (cs_flags s) (maybe_start_flag s)) in
        Ret (CS cv (cs_counter s) (zeros 64) 0 (c_add 8 (cs_blocks s) 1) (cs_flags s), input)
      else Ret (s, input)
    else Ret (s, input)) in
  let '(s, input) := si in
  olet si := chunk_update_loop (S (length input)) s input in
  let '(s, input) := si in
  olet si := chunk_state_fill_buf s input in
  Ret (fst si).
(* chunk_state_output, 142-147 *)
Definition chunk_state_output (s : chunk_state) : output_t :=
  Output (cs_cv s) (cs_counter s) (cs_buf s) (cs_buf_len s) (Z.lor (Z.lor (cs_flags s) (maybe_start_flag s)) CHUNK_END).
(* parent_output, 149-152 *)
Definition parent_output (block : bytes) (key : list Z) (flags : Z) : output_t :=
  Output key 0 block 64 (Z.lor flags PARENT).
(* left_len, 157-162 *)
Definition left_len (content_len : Z) : Z := round_down_to_power_of_2 ((content_len - 1) / 1024) * 1024.

(* blake3_simd_degree, blake3_dispatch.c 247-276 *)
Definition simd_degree : Z := 1.
(* compress_chunks_parallel, 168-205; the chaining values are returned *)
Fixpoint full_chunks (fuel : nat) (input : bytes) : list bytes * bytes :=
  match fuel with
  | O => ([], input)
  | S f =>
      if zlen input >=? 1024 then
        let '(l, rest) := full_chunks f (skipn 1024 input) in (firstn 1024 input :: l, rest)
      else ([], input)
  end.
Definition compress_chunks_parallel (input : bytes) (key : list Z) (counter flags : Z) : out (list bytes) :=
  let '(chunks, rest) := full_chunks (length input) input in
  let cvs := hash_many chunks 16 key counter true flags CHUNK_START CHUNK_END in
  if zlen rest >? 0 then
    olet s := chunk_state_update (chunk_state_init key (c_add 64 counter (zlen chunks)) flags) rest in
    Ret (cvs ++ [output_chaining_value (chunk_state_output s)])
  else Ret cvs.
(* compress_parents_parallel, 211-245 *)
Fixpoint pairs (cvs : list bytes) : list bytes * list bytes :=
  match cvs with
  | a :: b :: cvs => let '(l, rest) := pairs cvs in ((a ++ b) :: l, rest)
  | _ => ([], cvs)
  end.
Definition compress_parents_parallel (cvs : list bytes) (key : list Z) (flags : Z) : list bytes :=
  let '(parents, odd) := pairs cvs in
  hash_many parents 1 key 0 false (Z.lor flags PARENT) 0 0 ++ odd.
(* blake3_compress_subtree_wide, 264-321.  The right chaining values are
   written at index degree of cv_array: only if there are degree left ones are
   the entries below left_n + right_n those of the two subtrees. *)
Fixpoint compress_subtree_wide (fuel : nat) (input : bytes) (key : list Z) (counter flags : Z) : out (list bytes) :=
  match fuel with
  | O => Hang
  | S f =>
      if zlen input <=? simd_degree * 1024 then compress_chunks_parallel input key counter flags else
      let n := left_len (zlen input) in
      let left_input := firstn (Z.to_nat n) input in
      let right_input := skipn (Z.to_nat n) input in
      let degree := if (n >? 1024) && (simd_degree =? 1) then 2 else simd_degree in
      olet left := compress_subtree_wide f left_input key counter flags in
      olet right := compress_subtree_wide f right_input key (c_add 64 counter (n / 1024)) flags in
      if negb (zlen left =? degree) then Undef else
      let cv_array := left ++ right in
      if zlen left =? 1 then
        if zlen cv_array <? 2 then Undef else Ret (firstn 2 cv_array)
      else Ret (compress_parents_parallel cv_array key flags)
  end.
(* compress_subtree_to_parent_node, 333-360; MAX_SIMD_DEGREE_OR_2 is 16 on x86
   and 2 elsewhere: the loop body never runs as there are 2 values.  The
   assertion num_cvs <= MAX_SIMD_DEGREE_OR_2 is the test below. *)
Definition compress_subtree_to_parent_node (input : bytes) (key : list Z) (counter flags : Z) : out bytes :=
  olet cvs := compress_subtree_wide (S (length input)) input key counter flags in
  if zlen cvs =? 2 then Ret (concat cvs) else Undef.

(* blake3_hasher, blake3.h 29-39: the first cv_stack_len entries of cv_stack,
   the top first *)
Record hasher := Hasher { hs_key : list Z; hs_chunk : chunk_state; hs_stack : list bytes }.
(* hasher_init_base, 362-367; blake3_hasher_init, 369; init_keyed, 371-376 *)
Definition hasher_init_base (key : list Z) (flags : Z) : hasher := Hasher key (chunk_state_init key 0 flags) [].
Definition hasher_init : hasher := hasher_init_base B3_IV 0.
Definition hasher_init_keyed (key : bytes) : hasher := hasher_init_base (load_words32 8 key) KEYED_HASH.

(* hasher_merge_cv_stack, 404-413: the two entries on top are replaced by
   the chaining value of their parent *)
Fixpoint merge_loop (fuel : nat) (stack : list bytes) (key : list Z) (flags post_merge_stack_len : Z) : out (list bytes) :=
  match fuel with
  | O => Hang
  | S f =>
      if zlen stack >? post_merge_stack_len then
        match stack with
        | b :: a :: stack =>
            merge_loop f (output_chaining_value (parent_output (a ++ b) key flags) :: stack) key flags post_merge_stack_len
        | _ => Undef
        end
      else Ret stack
  end.
Definition hasher_merge_cv_stack (h : hasher) (total_len : Z) : out hasher :=
  olet stack := merge_loop (S (length (hs_stack h))) (hs_stack h) (hs_key h) (cs_flags (hs_chunk h)) (popcnt total_len) in
  Ret (Hasher (hs_key h) (hs_chunk h) stack).
(* hasher_push_cv, 447-453; the stack has room for BLAKE3_MAX_DEPTH + 1 = 55 entries *)
Definition hasher_push_cv (h : hasher) (new_cv : bytes) (chunk_counter : Z) : out hasher :=
  olet h := hasher_merge_cv_stack h chunk_counter in
  if zlen (hs_stack h) >=? 55 then Undef else
  Ret (Hasher (hs_key h) (hs_chunk h) (new_cv :: hs_stack h)).

(* the inner loop of blake3_hasher_update, 521-523 *)
Fixpoint shrink (fuel : nat) (subtree_len count_so_far : Z) : out Z :=
  match fuel with
  | O => Hang
  | S f =>
      if Z.land (subtree_len - 1) count_so_far =? 0 then Ret subtree_len
      else shrink f (subtree_len / 2) count_so_far
  end.
Definition set_counter (h : hasher) (n : Z) : hasher :=
  let c := hs_chunk h in
  Hasher (hs_key h) (CS (cs_cv c) n (cs_buf c) (cs_buf_len c) (cs_blocks c) (cs_flags c)) (hs_stack h).
(* the loop of blake3_hasher_update, 503-550 *)
Fixpoint hasher_loop (fuel : nat) (h : hasher) (input : bytes) : out (hasher * bytes) :=
  match fuel with
  | O => Hang
  | S f =>
      if zlen input >? 1024 then
        let counter := cs_counter (hs_chunk h) in
        let flags := cs_flags (hs_chunk h) in
        let count_so_far := (counter * 1024) mod 2 ^ 64 in
        olet subtree_len := shrink 64 (round_down_to_power_of_2 (zlen input)) count_so_far in
        let subtree_chunks := subtree_len / 1024 in
        let sub_input := firstn (Z.to_nat subtree_len) input in
        olet h := (if subtree_len <=? 1024 then
            olet s := chunk_state_update (chunk_state_init (hs_key h) counter flags) sub_input in
            hasher_push_cv h (output_chaining_value (chunk_state_output s)) counter
          else
            olet cv_pair := compress_subtree_to_parent_node sub_input (hs_key h) counter flags in
            olet h := hasher_push_cv h (firstn 32 cv_pair) counter in
            hasher_push_cv h (skipn 32 cv_pair) (c_add 64 counter (subtree_chunks / 2))) in
        hasher_loop f (set_counter h (c_add 64 counter subtree_chunks)) (skipn (Z.to_nat subtree_len) input)
      else Ret (h, input)
  end.
Definition set_chunk (h : hasher) (s : chunk_state) : hasher := Hasher (hs_key h) s (hs_stack h).
(* blake3_hasher_update, 455-562; the second part *)
Definition hasher_update_rest (h : hasher) (input : bytes) : out hasher :=
  olet hi := hasher_loop (S (length input)) h input in
  let '(h, input) := hi in
  if zlen input >? 0 then
    olet s := chunk_state_update (hs_chunk h) input in
    let h := set_chunk h s in
    hasher_merge_cv_stack h (cs_counter (hs_chunk h))
  else Ret h.
Definition hasher_update (h : hasher) (input : bytes) : out hasher :=
  if zlen input =? 0 then Ret h else
  if chunk_state_len (hs_chunk h) >? 0 then
    let take := 1024 - chunk_state_len (hs_chunk h) in
    let take := if take >? zlen input then zlen input else take in
    olet s := chunk_state_update (hs_chunk h) (firstn (Z.to_nat take) input) in
    let h := set_chunk h s in
    let input := skipn (Z.to_nat take) input in
    if zlen input >? 0 then
      let counter := cs_counter (hs_chunk h) in
      olet h := hasher_push_cv h (output_chaining_value (chunk_state_output (hs_chunk h))) counter in
      hasher_update_rest (set_chunk h (chunk_state_reset (hs_chunk h) (hs_key h) (c_add 64 counter 1))) input
    else Ret h
  else hasher_update_rest h input.

(* the loop of blake3_hasher_finalize_seek, 603-609, over the remaining entries *)
Fixpoint finalize_loop (stack : list bytes) (key : list Z) (flags : Z) (o : output_t) : output_t :=
  match stack with
  | [] => o
  | cv :: stack => finalize_loop stack key flags (parent_output (cv ++ output_chaining_value o) key flags)
  end.
(* blake3_hasher_finalize, 564-567, and finalize_seek, 569-611, with seek = 0 *)
Definition hasher_finalize (h : hasher) (out_len : Z) : out bytes :=
  if out_len =? 0 then Ret [] else
  match hs_stack h with
  | [] => Ret (output_root_bytes (chunk_state_output (hs_chunk h)) out_len)
  | _ =>
      let flags := cs_flags (hs_chunk h) in
      if chunk_state_len (hs_chunk h) >? 0 then
        Ret (output_root_bytes (finalize_loop (hs_stack h) (hs_key h) flags (chunk_state_output (hs_chunk h))) out_len)
      else
        match hs_stack h with
        | b :: a :: stack =>
            Ret (output_root_bytes (finalize_loop stack (hs_key h) flags (parent_output (a ++ b) (hs_key h) flags)) out_len)
        | _ => Undef
        end
  end.

(* stubs-blake3.c: init 44-59, update 61-67, extract 70-78, wipe 80-86.  The
   context is a pointer, NULL after wipe: update and extract dereference it. *)
Definition b3_upd (c : option hasher) (d : bytes) : out (option hasher) :=
  match c with Some h => olet h := hasher_update h d in Ret (Some h) | None => Undef end.
Definition b3_fin (len : Z) (c : option hasher) : option hasher * out bytes :=
  match c with Some h => (c, hasher_finalize h len) | None => (c, Undef) end.
(* class blake3 key sz, cryptokit.ml 1314-1334; Hash.blake3 sz = new blake3 ""
   sz (1336), MAC.blake3 sz key = new Hash.blake3 key sz (1469) *)
Definition blake3_class (sz : Z) : hash := c_hash (option hasher) (sz / 8) b3_upd (b3_fin (sz / 8)) (fun _ => None).
Definition blake3_obj (key : bytes) (sz : Z) : out hobj :=
  if (sz >? 0) && (sz mod 8 =? 0) && ((zlen key =? 0) || (zlen key =? 32))
  then Ret (HObj (blake3_class sz) (Some (if zlen key =? 32 then hasher_init_keyed key else hasher_init)))
  else Raise (Error Wrong_key_size).
