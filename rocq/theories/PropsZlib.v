(* Property C68, and the part of C03 about Zlib.  Vocabulary in SpecZlib.v: the zlib library is an
   arbitrary function that records its calls; [taken] and [made] are all the bytes it consumed and
   produced. *)
From Verif Require Import Prelude SpecTransducer TransformModel ZlibModel SpecZlib Zlib3 ZlibCases Toy.

(* C68.  The full property has no limit on sizes and no additional byte. *)
Theorem C68_compress_partial : forall (fresh : Z -> bytes), (forall n, 0 <= n -> zlen (fresh n) = n) ->
  forall zs (zlib : zs -> bytes -> Z -> flush_command -> zs * zcode * Z * bytes) zend, zlib_ok zlib ->
  forall fuel z ops, Forall op_valid ops -> Forall op_small ops ->
  let '(s, l) := t_exec (compress fresh _ (recorded zlib) (recorded_end zend) fuel) (z_new fresh _ (z, [])) ops in
  zlen (made (calls s)) <= zlimit ->
  ~ In OUndef l /\ (all_done ops l -> taken (calls s) = flat_map op_data ops /\
    exists rest, snd (t_get_string (compress fresh _ (recorded zlib) (recorded_end zend) fuel) s) = Ret rest /\ made (calls s) = returned ops l ++ rest).
Proof. exact compress_history. Qed.
Print Assumptions C68_compress_partial.
Theorem C68_uncompress_partial : forall (fresh : Z -> bytes), (forall n, 0 <= n -> zlen (fresh n) = n) ->
  forall zs (zlib : zs -> bytes -> Z -> flush_command -> zs * zcode * Z * bytes) zend, zlib_ok zlib ->
  forall fuel z ops, Forall op_valid ops -> Forall op_small ops ->
  let '(s, l) := t_exec (uncompress fresh _ (recorded zlib) (recorded_end zend) fuel) (z_new fresh _ (z, [])) ops in
  zlen (made (calls s)) <= zlimit ->
  ~ In OUndef l /\ (all_done ops l -> given [32] ops (taken (calls s)) /\
    exists rest, snd (t_get_string (uncompress fresh _ (recorded zlib) (recorded_end zend) fuel) s) = Ret rest /\ made (calls s) = returned ops l ++ rest).
Proof. exact uncompress_history. Qed.
Print Assumptions C68_uncompress_partial.
(* a whole string; finishing goes on to the end of the stream *)
Theorem C68_compress_string_partial : forall (fresh : Z -> bytes), (forall n, 0 <= n -> zlen (fresh n) = n) ->
  forall zs (zlib : zs -> bytes -> Z -> flush_command -> zs * zcode * Z * bytes) zend, zlib_ok zlib ->
  forall fuel z msg s res, zlen msg < 2 ^ 32 ->
  transform_string (compress fresh _ (recorded zlib) (recorded_end zend) fuel) (z_new fresh _ (z, [])) msg = (s, Ret res) -> zlen (made (calls s)) <= zlimit ->
  exists l1 l2, calls s = l1 ++ l2 /\ Forall (fun c => zc_flush c = Z_NO_FLUSH) l1 /\ taken l1 = msg /\ ended Z_FINISH l2 /\ taken l2 = [] /\ res = made (l1 ++ l2).
Proof. exact compress_string. Qed.
Print Assumptions C68_compress_string_partial.
Theorem C68_uncompress_string_partial : forall (fresh : Z -> bytes), (forall n, 0 <= n -> zlen (fresh n) = n) ->
  forall zs (zlib : zs -> bytes -> Z -> flush_command -> zs * zcode * Z * bytes) zend, zlib_ok zlib ->
  forall fuel z msg s res, zlen msg < 2 ^ 32 ->
  transform_string (uncompress fresh _ (recorded zlib) (recorded_end zend) fuel) (z_new fresh _ (z, [])) msg = (s, Ret res) -> zlen (made (calls s)) <= zlimit ->
  exists l1 l2, calls s = l1 ++ l2 /\ taken l1 = msg /\ ended Z_SYNC_FLUSH l2 /\ (taken l2 = [] \/ taken l2 = [32]) /\ res = made (l1 ++ l2).
Proof. exact uncompress_string. Qed.
Print Assumptions C68_uncompress_string_partial.
(* the loops end if the library makes progress *)
Theorem C68_compress_terminates_partial : forall (fresh : Z -> bytes), (forall n, 0 <= n -> zlen (fresh n) = n) ->
  forall zs (zlib : zs -> bytes -> Z -> flush_command -> zs * zcode * Z * bytes) zend, zlib_ok zlib ->
  forall mu z ops, progress zlib Z_FINISH mu -> Forall op_valid ops -> Forall op_small ops ->
  (forall fuel, zlen (made (calls (fst (t_exec (compress fresh _ (recorded zlib) (recorded_end zend) fuel) (z_new fresh _ (z, [])) ops)))) <= zlimit) ->
  exists N, forall fuel, (N <= fuel)%nat -> ~ In OHang (snd (t_exec (compress fresh _ (recorded zlib) (recorded_end zend) fuel) (z_new fresh _ (z, [])) ops)).
Proof. exact compress_terminates. Qed.
Print Assumptions C68_compress_terminates_partial.
Theorem C68_uncompress_terminates_partial : forall (fresh : Z -> bytes), (forall n, 0 <= n -> zlen (fresh n) = n) ->
  forall zs (zlib : zs -> bytes -> Z -> flush_command -> zs * zcode * Z * bytes) zend, zlib_ok zlib ->
  forall mu z ops, progress zlib Z_SYNC_FLUSH mu -> Forall op_valid ops -> Forall op_small ops ->
  (forall fuel, zlen (made (calls (fst (t_exec (uncompress fresh _ (recorded zlib) (recorded_end zend) fuel) (z_new fresh _ (z, [])) ops)))) <= zlimit) ->
  exists N, forall fuel, (N <= fuel)%nat -> ~ In OHang (snd (t_exec (uncompress fresh _ (recorded zlib) (recorded_end zend) fuel) (z_new fresh _ (z, [])) ops)).
Proof. exact uncompress_terminates. Qed.
Print Assumptions C68_uncompress_terminates_partial.
(* a string of 4 gigabytes or more is not handed over entirely *)
Theorem C68_compress_refuted : exists zs (zlib : zs -> bytes -> Z -> flush_command -> zs * zcode * Z * bytes) zend z fuel msg s res, zlib_ok zlib /\ bytes_ok msg /\
  transform_string (compress toy_fresh _ (recorded zlib) (recorded_end zend) fuel) (z_new toy_fresh _ (z, [])) msg = (s, Ret res) /\
  zlen (made (calls s)) <= zlimit /\ taken (calls s) <> msg.
Proof. exact compress_huge. Qed.
Print Assumptions C68_compress_refuted.
(* uncompress hands over a byte that is not in its input: here the library reads stored blocks
   (RFC 1951) and the input, which lacks its last byte, is accepted *)
Theorem C68_uncompress_refuted : exists zs (zlib : zs -> bytes -> Z -> flush_command -> zs * zcode * Z * bytes) zend z fuel msg s res, zlib_ok zlib /\ bytes_ok msg /\
  transform_string (uncompress toy_fresh _ (recorded zlib) (recorded_end zend) fuel) (z_new toy_fresh _ (z, [])) msg = (s, Ret res) /\
  zlen msg < 2 ^ 32 /\ zlen (made (calls s)) <= zlimit /\ taken (calls s) = msg ++ [32] /\ res = [97; 32].
Proof. exact uncompress_truncated. Qed.
Print Assumptions C68_uncompress_refuted.
Example C68_case : zlib_ok toy_deflate /\ progress toy_deflate Z_FINISH (@length Z) /\ zlib_ok stored_inflate /\ progress stored_inflate Z_SYNC_FLUSH (fun _ => 0%nat) /\
  (let ops := [PutString [1; 2; 3; 4; 5; 6]; PutSubstring [7; 8; 9; 10; 11; 12; 13; 14] 1 6; GetChar; Flush; GetString; PutChar 65; Finish; AvailableOutput] in
   let r := t_exec (compress toy_fresh _ (recorded toy_deflate) (recorded_end no_end) 5) (z_new toy_fresh _ ([], [])) ops in
   Forall op_small ops /\ snd r = [OUnit; OUnit; OInt 1; OUnit; OBytes [2; 3; 4; 5; 6; 8; 9; 10; 11; 12; 13]; OUnit; OUnit; OInt 1] /\ length (calls (fst r)) = 7%nat /\ zlen (made (calls (fst r))) = 13) /\
  snd (transform_string (uncompress toy_fresh _ (recorded stored_inflate) (recorded_end no_end) 5) (z_new toy_fresh _ (IHead, [])) [0; 1; 0; 254; 255; 9; 1; 2; 0; 253; 255; 97; 98]) = Ret [9; 97; 98].
Proof.
  split; [exact toy_deflate_ok|]. split; [exact toy_deflate_progress|]. split; [exact stored_ok|]. split; [exact stored_progress|]. split; [|vm_compute; reflexivity].
  cbv zeta. split; [repeat constructor; unfold op_small; vm_compute; reflexivity|]. vm_compute. repeat split; reflexivity.
Qed.

(* C03: compress and uncompress read outside the array *)
Theorem C03_zlib_refuted : exists b ofs len, in_range b ofs len = false /\
  forall (fresh : Z -> bytes) zs (zlib : zs -> bytes -> Z -> flush_command -> zs * zcode * Z * bytes) zend z fuel, (forall n, 0 <= n -> zlen (fresh n) = n) ->
  snd (t_put_substring (compress fresh _ zlib zend (S fuel)) (z_new fresh _ z) b ofs len) = Undef /\
  snd (t_put_substring (uncompress fresh _ zlib zend (S fuel)) (z_new fresh _ z) b ofs len) = Undef.
Proof. exists [1], 0, 1000. split; [reflexivity|]. exact zlib_bad_range. Qed.
Print Assumptions C03_zlib_refuted.
