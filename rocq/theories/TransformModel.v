(* Class type [transform] and the functions on transforms:
   cryptokit.ml 141-228. *)
From Verif Require Import Prelude SpecTransducer.

(* class type transform, cryptokit.ml 141-162.  input_block_size and
   output_block_size are constants and are left out. *)
Record transform := {
  t_st : Type;
  t_put_substring : t_st -> bytes -> Z -> Z -> t_st * out unit;
  t_put_string : t_st -> bytes -> t_st * out unit;
  t_put_char : t_st -> Z -> t_st * out unit;
  t_put_byte : t_st -> Z -> t_st * out unit;
  t_flush : t_st -> t_st * out unit;
  t_finish : t_st -> t_st * out unit;
  t_available : t_st -> Z;
  t_get_string : t_st -> t_st * out bytes;
  t_get_substring : t_st -> t_st * out (bytes * Z * Z);
  t_get_char : t_st -> t_st * out Z;
  t_get_byte : t_st -> t_st * out Z;
  t_wipe : t_st -> t_st * out unit }.

(* transform_string, cryptokit.ml 164-167 *)
Definition transform_string (T : transform) (s : t_st T) (str : bytes) : t_st T * out bytes :=
  let! (s, u) := t_put_string T s str in
  let! (s, u) := t_finish T s in
  let! (s, r) := t_get_string T s in
  let! (s, u) := t_wipe T s in
  (s, Ret r).

(* An input channel: the bytes not read yet, and the number of calls to
   [input] so far.  [sched k] is how many bytes the k-th call would like to
   deliver; the actual number is brought into the range Stdlib.input
   promises: between 1 and min n (remaining), 0 at end of file. *)
Record channel := Channel { ch_data : bytes; ch_calls : nat }.

Definition input_amount (sched : nat -> Z) (ch : channel) (n : Z) : Z :=
  Z.min (Z.min n (zlen (ch_data ch))) (Z.max 1 (sched (ch_calls ch))).

(* Stdlib.input ic buf 0 n (n >= 1, buf at least n bytes) *)
Definition input (sched : nat -> Z) (ch : channel) (buf : bytes) (n : Z)
    : channel * bytes * Z :=
  let r := input_amount sched ch n in
  (Channel (skipn (Z.to_nat r) (ch_data ch)) (S (ch_calls ch)),
   splice buf 0 (firstn (Z.to_nat r) (ch_data ch)), r).

(* state of transform_channel: the transform, the input channel, ibuf, and
   everything output to oc *)
Record tcs (T : transform) := TCS {
  tc_tr : t_st T; tc_ch : channel; tc_ibuf : bytes; tc_out : bytes }.
Arguments TCS {T}. Arguments tc_tr {T}. Arguments tc_ch {T}.
Arguments tc_ibuf {T}. Arguments tc_out {T}.

Section Channel.
Variable fresh : Z -> bytes.
Variable sched : nat -> Z.
Variable T : transform.

Definition set_tr (s : tcs T) (t : t_st T) : tcs T := TCS t (tc_ch s) (tc_ibuf s) (tc_out s).

(* let (obuf, opos, olen) = tr#get_substring in output oc obuf opos olen;
   Stdlib.output raises Invalid_argument on a bad range.
   cryptokit.ml 175-176, 184-185, 194-195 *)
Definition tc_emit (s : tcs T) : tcs T * out unit :=
  let! (s, r) := lift (set_tr s) (t_get_substring T (tc_tr s)) in
  let '(obuf, opos, olen) := r in
  let! (s, l) := (s, bytes_sub obuf opos olen) in
  (TCS (tc_tr s) (tc_ch s) (tc_ibuf s) (tc_out s ++ l), Ret tt).

(* transf_to_eof, cryptokit.ml 171-178; each call reads at least one byte,
   so length data + 1 calls are enough *)
Fixpoint transf_to_eof (fuel : nat) (s : tcs T) : tcs T * out unit :=
  match fuel with
  | O => (s, Hang)
  | S f =>
      let '(ch, ib, r) := input sched (tc_ch s) (tc_ibuf s) 256 in
      let s := TCS (tc_tr s) ch ib (tc_out s) in
      if r >? 0 then
        let! (s, u) := lift (set_tr s) (t_put_substring T (tc_tr s) (tc_ibuf s) 0 r) in
        let! (s, u) := tc_emit s in
        transf_to_eof f s
      else (s, Ret tt)
  end.

(* transf_bounded, cryptokit.ml 179-187 *)
Fixpoint transf_bounded (fuel : nat) (s : tcs T) (numleft : Z) : tcs T * out unit :=
  match fuel with
  | O => (s, Hang)
  | S f =>
      if numleft >? 0 then
        let '(ch, ib, r) := input sched (tc_ch s) (tc_ibuf s) (Z.min 256 numleft) in
        let s := TCS (tc_tr s) ch ib (tc_out s) in
        if r =? 0 then (s, Raise End_of_file) else
        let! (s, u) := lift (set_tr s) (t_put_substring T (tc_tr s) (tc_ibuf s) 0 r) in
        let! (s, u) := tc_emit s in
        transf_bounded f s (numleft - r)
      else (s, Ret tt)
  end.

(* transform_channel, cryptokit.ml 169-196 *)
Definition transform_channel (tr : t_st T) (len : option Z) (ic : bytes) : tcs T * out unit :=
  let s := TCS tr (Channel ic 0) (fresh 256) [] in
  let fuel := S (length ic) in
  let! (s, u) := match len with
                 | None => transf_to_eof fuel s
                 | Some l => transf_bounded fuel s l
                 end in
  let s := TCS (tc_tr s) (tc_ch s) (zeros (zlen (tc_ibuf s))) (tc_out s) in
  let! (s, u) := lift (set_tr s) (t_finish T (tc_tr s)) in
  let! (s, u) := tc_emit s in
  lift (set_tr s) (t_wipe T (tc_tr s)).
End Channel.

(* class compose, cryptokit.ml 198-226 *)
Section Compose.
Variables T1 T2 : transform.
Let S12 : Type := (t_st T1 * t_st T2)%type.

Definition on1 {A} (s : S12) (r : t_st T1 * out A) : S12 * out A := ((fst r, snd s), snd r).
Definition on2 {A} (s : S12) (r : t_st T2 * out A) : S12 * out A := ((fst s, fst r), snd r).

(* method private transfer, cryptokit.ml 212-214 *)
Definition comp_transfer (s : S12) : S12 * out unit :=
  let! (s, r) := on1 s (t_get_substring T1 (fst s)) in
  let '(buf, ofs, len) := r in
  on2 s (t_put_substring T2 (snd s) buf ofs len).

Definition compose : transform := {|
  t_st := S12;
  t_put_substring := fun s buf ofs len =>
    let! (s, u) := on1 s (t_put_substring T1 (fst s) buf ofs len) in comp_transfer s;
  t_put_string := fun s str =>
    let! (s, u) := on1 s (t_put_string T1 (fst s) str) in comp_transfer s;
  t_put_char := fun s c =>
    let! (s, u) := on1 s (t_put_char T1 (fst s) c) in comp_transfer s;
  t_put_byte := fun s c =>
    let! (s, u) := on1 s (t_put_byte T1 (fst s) c) in comp_transfer s;
  t_flush := fun s =>
    let! (s, u) := on1 s (t_flush T1 (fst s)) in
    let! (s, u) := comp_transfer s in
    on2 s (t_flush T2 (snd s));
  t_finish := fun s =>
    let! (s, u) := on1 s (t_finish T1 (fst s)) in
    let! (s, u) := comp_transfer s in
    on2 s (t_finish T2 (snd s));
  t_available := fun s => t_available T2 (snd s);
  t_get_string := fun s => on2 s (t_get_string T2 (snd s));
  t_get_substring := fun s => on2 s (t_get_substring T2 (snd s));
  t_get_char := fun s => on2 s (t_get_char T2 (snd s));
  t_get_byte := fun s => on2 s (t_get_byte T2 (snd s));
  t_wipe := fun s =>
    let! (s, u) := on1 s (t_wipe T1 (fst s)) in
    on2 s (t_wipe T2 (snd s)) |}.
End Compose.

(* Running a history of calls on a transform object: the observations, up to
   the first exception of a put, flush or finish. *)
Definition unit_obs {S} (r : S * out unit) : S * obs :=
  (fst r, match snd r with
          | Ret _ => OUnit | Raise e => OExn e | Undef => OUndef | Hang => OHang end).
Definition int_obs {S} (r : S * out Z) : S * obs :=
  (fst r, match snd r with
          | Ret z => OInt z | Raise e => OExn e | Undef => OUndef | Hang => OHang end).
Definition bytes_obs {S} (r : S * out bytes) : S * obs :=
  (fst r, match snd r with
          | Ret l => OBytes l | Raise e => OExn e | Undef => OUndef | Hang => OHang end).
(* what the caller sees through the (buffer, offset, length) triple *)
Definition substring_obs {S} (r : S * out (bytes * Z * Z)) : S * obs :=
  (fst r, match snd r with
          | Ret (b, o, n) =>
              if in_range b o n then OBytes (sub b o n) else OExn Invalid_argument
          | Raise e => OExn e | Undef => OUndef | Hang => OHang end).

Definition t_step (T : transform) (s : t_st T) (o : op) : t_st T * obs :=
  match o with
  | PutSubstring b ofs len => unit_obs (t_put_substring T s b ofs len)
  | PutString str => unit_obs (t_put_string T s str)
  | PutChar c => unit_obs (t_put_char T s c)
  | PutByte n => unit_obs (t_put_byte T s n)
  | Flush => unit_obs (t_flush T s)
  | Finish => unit_obs (t_finish T s)
  | AvailableOutput => (s, OInt (t_available T s))
  | GetString => bytes_obs (t_get_string T s)
  | GetSubstring => substring_obs (t_get_substring T s)
  | GetChar => int_obs (t_get_char T s)
  | GetByte => int_obs (t_get_byte T s)
  end.

Fixpoint t_run (T : transform) (s : t_st T) (ops : list op) : list obs :=
  match ops with
  | [] => []
  | o :: ops' =>
      let '(s', ob) := t_step T s o in
      if ends o ob then [ob] else ob :: t_run T s' ops'
  end.
