(* Zlib.compress and Zlib.uncompress: cryptokit.ml 2490-2623, stubs-zlib.c.
   The zlib library itself is not modelled: it is a function given the
   state of the stream, the input made available, the room for output and the flush command,
   and returning the new state, a return code, the number of bytes consumed and the bytes
   produced. *)
From Verif Require Import Prelude BufOutModel TransformModel.

(* cryptokit.ml 2495-2499 *)
Inductive flush_command := Z_NO_FLUSH | Z_SYNC_FLUSH | Z_FULL_FLUSH | Z_FINISH.

(* the return codes as the stubs distinguish them: stubs-zlib.c 113, 119 and 158, 165.
   ZFail: negative codes, and Z_NEED_DICT for inflate *)
Inductive zcode := ZOk | ZEnd | ZFail.

Section Zlib.
Variable fresh : Z -> bytes.
Variable zs : Type.
(* deflate(zs, flush) or inflate(zs, flush) of the zlib library *)
Variable zlib : zs -> bytes -> Z -> flush_command -> zs * zcode * Z * bytes.
(* deflateEnd or inflateEnd; false: the result is not Z_OK *)
Variable zlib_end : zs -> zs * bool.

(* caml_zlib_deflate, stubs-zlib.c 98-123, and caml_zlib_inflate, 143-169.  avail_in and avail_out
   are 32-bit unsigned numbers in zlib.h: the lengths are truncated, and the numbers of bytes
   used are computed from the original lengths.
   The result contains the new contents of dst. *)
Definition uint32 (n : Z) : Z := n mod 2 ^ 32.
Definition zlib_stub (z : zs) (src : bytes) (srcpos srclen : Z) (dst : bytes) (dstpos dstlen : Z) (f : flush_command)
    : (zs * bytes) * out (bool * Z * Z) :=
  let avail_in := uint32 srclen in
  let avail_out := uint32 dstlen in
  if in_range src srcpos avail_in && in_range dst dstpos avail_out then
    let '(z', code, used, o) := zlib z (sub src srcpos avail_in) avail_out f in
    let dst' := splice dst dstpos o in
    match code with
    | ZFail => ((z', dst'), Raise (Error Compression_error))
    | _ => ((z', dst'), Ret (match code with ZEnd => true | _ => false end,
                             srclen - (avail_in - used), dstlen - (avail_out - zlen o)))
    end
  else ((z, dst), Undef).

(* caml_zlib_deflateEnd, stubs-zlib.c 125-131, and caml_zlib_inflateEnd, 171-177 *)
Definition zlib_end_stub (z : zs) : zs * out unit :=
  let '(z', ok) := zlib_end z in (z', if ok then Ret tt else Raise (Error Compression_error)).

(* the objects: zs and the inherited output buffer, cryptokit.ml 2515-2519, 2570-2574 *)
Definition zobj : Type := (zs * bo)%type.

(* self#ensure_capacity 256; let (finished, used_in, used_out) = deflate zs src ofs len obuf oend
   (Bytes.length obuf - oend) f in oend <- oend + used_out: common to all the methods *)
Definition z_call (s : zobj) (src : bytes) (ofs len : Z) (f : flush_command) : zobj * out (bool * Z) :=
  let! (s, u) := lift (fun b => (fst s, b)) (ensure_capacity fresh (snd s) 256) in
  let b := snd s in
  let '((z, ob), r) := zlib_stub (fst s) src ofs len (obuf b) (oend b) (zlen (obuf b) - oend b) f in
  let! (s, x) := ((z, BO ob (obeg b) (oend b)), r) in
  let '(finished, used_in, used_out) := x in
  ((fst s, BO (obuf (snd s)) (obeg (snd s)) (oend (snd s) + used_out)), Ret (finished, used_in)).

(* compress#put_substring, cryptokit.ml 2524-2535; fuel: the number of calls to deflate *)
Fixpoint def_put (fuel : nat) (s : zobj) (src : bytes) (ofs len : Z) : zobj * out unit :=
  if len >? 0 then
    match fuel with
    | O => (s, Hang)
    | S fuel' =>
        let! (s, x) := z_call s src ofs len Z_NO_FLUSH in
        if snd x <? len then def_put fuel' s src (ofs + snd x) (len - snd x) else (s, Ret tt)
    end
  else (s, Ret tt).

(* compress#flush, cryptokit.ml 2544-2552 *)
Fixpoint def_flush (fuel : nat) (s : zobj) : zobj * out unit :=
  match fuel with
  | O => (s, Hang)
  | S fuel' =>
      let! (s, x) := z_call s [] 0 0 Z_SYNC_FLUSH in
      if oend (snd s) =? zlen (obuf (snd s)) then def_flush fuel' s else (s, Ret tt)
  end.

(* compress#finish, cryptokit.ml 2554-2562 *)
Fixpoint def_finish (fuel : nat) (s : zobj) : zobj * out unit :=
  match fuel with
  | O => (s, Hang)
  | S fuel' =>
      let! (s, x) := z_call s [] 0 0 Z_FINISH in
      if fst x : bool then lift (fun z => (z, snd s)) (zlib_end_stub (fst s)) else def_finish fuel' s
  end.

(* uncompress#put_substring, cryptokit.ml 2579-2594 *)
Fixpoint inf_put (fuel : nat) (s : zobj) (src : bytes) (ofs len : Z) : zobj * out unit :=
  if len >? 0 then
    match fuel with
    | O => (s, Hang)
    | S fuel' =>
        let! (s, x) := z_call s src ofs len Z_SYNC_FLUSH in
        if snd x <? len then
          if fst x : bool then (s, Raise (Error Compression_error))
          else inf_put fuel' s src (ofs + snd x) (len - snd x)
        else (s, Ret tt)
    end
  else (s, Ret tt).

(* uncompress#finish, cryptokit.ml 2605-2615: the source is the string " " *)
Fixpoint do_finish (fuel : nat) (s : zobj) (first_finish : bool) : zobj * out unit :=
  match fuel with
  | O => (s, Hang)
  | S fuel' =>
      let! (s, x) := z_call s [32] 0 (if first_finish then 1 else 0) Z_SYNC_FLUSH in
      if fst x : bool then (s, Ret tt) else do_finish fuel' s false
  end.
Definition inf_finish (fuel : nat) (s : zobj) : zobj * out unit :=
  let! (s, u) := do_finish fuel s true in
  lift (fun z => (z, snd s)) (zlib_end_stub (fst s)).

(* the methods common to both classes, given put_substring, flush and finish:
   put_string, put_char, put_byte, cryptokit.ml 2537-2542 and 2596-2601; wipe, 2564-2565 and
   2617-2618, empties the output buffer only *)
Section Class.
Variables (put : zobj -> bytes -> Z -> Z -> zobj * out unit) (flush finish : zobj -> zobj * out unit).
Definition z_put_string (s : zobj) (str : bytes) := put s str 0 (zlen str).
Definition z_put_char (s : zobj) (c : Z) := z_put_string s [c].
Definition z_on_bo {A} (s : zobj) (r : bo * out A) : zobj * out A := ((fst s, fst r), snd r).
Definition z_class : transform := {|
  t_st := zobj;
  t_put_substring := put;
  t_put_string := z_put_string;
  t_put_char := z_put_char;
  t_put_byte := fun s b => if (0 <=? b) && (b <? 256) then z_put_char s b else (s, Raise Invalid_argument);
  t_flush := flush;
  t_finish := finish;
  t_available := fun s => bo_available (snd s);
  t_get_string := fun s => z_on_bo s (bo_get_string (snd s));
  t_get_substring := fun s => z_on_bo s (bo_get_substring (snd s));
  t_get_char := fun s => z_on_bo s (bo_get_char (snd s));
  t_get_byte := fun s => z_on_bo s (bo_get_char (snd s));
  t_wipe := fun s => ((fst s, bo_wipe (snd s)), Ret tt) |}.
End Class.

(* cryptokit.ml 2515-2566; the object is created from the stream z returned by deflateInit *)
Definition compress (fuel : nat) : transform := z_class (def_put fuel) (def_flush fuel) (def_finish fuel).
(* cryptokit.ml 2570-2619; flush does nothing, 2603 *)
Definition uncompress (fuel : nat) : transform := z_class (inf_put fuel) (fun s => (s, Ret tt)) (inf_finish fuel).
(* inherit buffered_output 512, cryptokit.ml 2519 and 2574 *)
Definition z_new (z : zs) : zobj := (z, bo_new fresh 512).
End Zlib.
