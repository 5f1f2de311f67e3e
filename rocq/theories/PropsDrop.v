(* C87: output left in memory by buffers that have grown. *)
From Verif Require Import Prelude SpecTransducer SpecDrop BufOutModel BufOut BufHistory TransformModel BlockModel BlockBounds CipherModel AesModel
  BufDropModel BufDrop2.

(* C87.  The block cipher classes with the list of the arrays they have allocated for their output do what they do without it *)
Theorem C87_same_behaviour : forall fresh C k ops s,
  t_run (cipher_kind_m fresh C k) s ops =
  match k with
  | Plain => t_run (cipher fresh C) (cm_cs C s) ops
  | PadEnc p => t_run (cipher_padded_encrypt fresh C p) (cm_cs C s) ops
  | PadDec p => t_run (cipher_padded_decrypt fresh C p) (cm_cs C s) ops
  end.
Proof. exact run_sim. Qed.
Print Assumptions C87_same_behaviour.

(* if the caller fetches the output before 256 - blocksize bytes are pending, only one array is ever used, and wipe clears it *)
Theorem C87_small_output_partial : forall fresh, (forall n, 0 <= n -> zlen (fresh n) = n) ->
  forall C, 0 < bc_blocksize C <= 2 ^ 40 -> bc_frame C -> forall k, kind_ok k -> forall c0 ops,
  let T := cipher_kind_m fresh C k in let L := Z.max 256 (2 * bc_blocksize C) in
  timely T (L - bc_blocksize C) (cipher_new_m fresh C c0) ops ->
  cm_arrays C (fst (t_wipe T (after T (cipher_new_m fresh C c0) ops))) = [zeros L].
Proof. exact drop_none. Qed.
Print Assumptions C87_small_output_partial.

(* otherwise: a call that makes more output pending than the array holds ([out], of which a0 is too short) leaves the first m bytes of
   it in an array that no later call, and not wipe, erases; m is at least the size of the array less one block, and at least what
   was pending before the call *)
Theorem C87_kept : forall fresh, (forall n, 0 <= n -> zlen (fresh n) = n) ->
  forall C, 0 < bc_blocksize C <= 2 ^ 40 -> bc_frame C -> forall k, kind_ok k -> forall c0 ops0 o ops1 a0 o0 n0 out,
  let T := cipher_kind_m fresh C k in
  let s := after T (cipher_new_m fresh C c0) ops0 in
  let s1 := fst (t_step T s o) in
  let s2 := fst (t_wipe T (after T s1 ops1)) in
  produces o = true -> snd (t_step T s o) <> OExn Invalid_argument ->
  snd (t_get_substring T s) = Ret (a0, o0, n0) -> snd (t_get_string T s1) = Ret out -> zlen out > zlen a0 ->
  exists a m, In a (cm_arrays C s2) /\ holds a (sub out 0 m) /\ m <= zlen out /\ t_available T s <= m /\ zlen a0 - bc_blocksize C <= m.
Proof. exact drop_kept. Qed.
Print Assumptions C87_kept.

(* the first call on an object, for instance put_string of a long message *)
Theorem C87_kept_first_call : forall fresh, (forall n, 0 <= n -> zlen (fresh n) = n) ->
  forall C, 0 < bc_blocksize C <= 2 ^ 40 -> bc_frame C -> forall k, kind_ok k -> forall c0 o ops1 out,
  let T := cipher_kind_m fresh C k in let L := Z.max 256 (2 * bc_blocksize C) in
  let s := cipher_new_m fresh C c0 in
  let s1 := fst (t_step T s o) in
  let s2 := fst (t_wipe T (after T s1 ops1)) in
  produces o = true -> snd (t_step T s o) <> OExn Invalid_argument ->
  snd (t_get_string T s1) = Ret out -> zlen out > L ->
  exists a m, In a (cm_arrays C s2) /\ holds a (sub out 0 m) /\ L - bc_blocksize C <= m <= zlen out.
Proof. exact drop_kept_new. Qed.
Print Assumptions C87_kept_first_call.

(* any class that produces its output through buffered_output *)
Theorem C87_buffer_kept : forall fresh, (forall n, 0 <= n -> zlen (fresh n) = n) ->
  forall n ops0 l ops1, 0 < n <= max_string_length -> Forall bop_ok (ops0 ++ Produce l :: ops1) ->
  let s := bm_after fresh (bm_new fresh n) ops0 in
  snd (produce_m fresh s l) = Ret tt -> zlen (bo_contents (m_bo s)) + zlen l > zlen (obuf (m_bo s)) ->
  exists a, In a (bm_arrays (bm_wipe (bm_after fresh s (Produce l :: ops1)))) /\ holds a (bo_contents (m_bo s)).
Proof. exact buffer_kept. Qed.
Print Assumptions C87_buffer_kept.

(* so wipe does not erase all the output.  AES-CBC: a message of 320 bytes is decrypted, the result is fetched, and the object is
   wiped; an array dropped by the object holds the first 256 bytes of the message *)
Theorem C87_refuted : exists key message, zlen key = 16 /\ zlen message = 320 /\
  exists ck dk ce cd, new_aes zeros Encrypt key = Ret ck /\ chain zeros CBC Encrypt None ck = Ret ce /\
  new_aes zeros Decrypt key = Ret dk /\ chain zeros CBC Decrypt None dk = Ret cd /\
  let E := cipher_kind_m zeros (b_bc ce) Plain in let e := cipher_new_m zeros (b_bc ce) (b_st ce) in
  let D := cipher_kind_m zeros (b_bc cd) Plain in let d := cipher_new_m zeros (b_bc cd) (b_st cd) in
  exists ct, t_run E e [PutString message; Finish; GetString] = [OUnit; OUnit; OBytes ct] /\
    t_run D d [PutString ct; Finish; GetString] = [OUnit; OUnit; OBytes message] /\
    exists a, In a (cm_arrays _ (fst (t_wipe D (after D d [PutString ct; Finish; GetString])))) /\ holds a (sub message 0 256).
Proof. exact drop_refuted. Qed.
Print Assumptions C87_refuted.

(* the hypotheses of the theorems: AES decryption; 320 bytes are more than the first array holds; 200 bytes, twice, are not if they
   are fetched between *)
Example C87_case :
  let C := cbc_decrypt aes_decrypt_class in let T := cipher_kind_m zeros C Plain in
  let s := cipher_new_m zeros C (drop_ms aes_decrypt_class (caml_aes_cook_decrypt_key zeros drop_key)) in
  0 < bc_blocksize C <= 2 ^ 40 /\ bc_frame C /\ kind_ok (PadDec padding_length) /\
  produces (PutString drop_ct) = true /\ snd (t_step T s (PutString drop_ct)) = OUnit /\
  snd (t_get_string T (fst (t_step T s (PutString drop_ct)))) = Ret (sub drop_message 0 304) /\ zlen (sub drop_message 0 304) > Z.max 256 (2 * bc_blocksize C) /\
  timely T (Z.max 256 (2 * bc_blocksize C) - bc_blocksize C) s [PutString (zeros 200); GetString; PutString (zeros 200); GetString].
Proof.
  intros C T s. split; [cbn; lia|]. split; [exact aes_cbc_decrypt_frame|]. split; [left; reflexivity|]. split; [reflexivity|].
  split; [vm_compute; reflexivity|]. split; [vm_compute; reflexivity|]. split; [reflexivity|].
  vm_compute. intuition discriminate.
Qed.

Example C87_buffer_case :
  let s := bm_after zeros (bm_new zeros 4) [Produce [1; 2; 3]] in
  snd (produce_m zeros s [4; 5]) = Ret tt /\ zlen (bo_contents (m_bo s)) + zlen [4; 5] > zlen (obuf (m_bo s)) /\
  Forall bop_ok [Produce [1; 2; 3]; Produce [4; 5]; GetStr].
Proof. split; [reflexivity|]. split; [reflexivity|]. repeat constructor; discriminate. Qed.
