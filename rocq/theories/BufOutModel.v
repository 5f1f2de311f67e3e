(* Model of class [buffered_output], cryptokit.ml 319-370. *)
From Verif Require Import Prelude.

(* Instance variables obuf, obeg, oend: cryptokit.ml 321-323 *)
Record bo := BO { obuf : bytes; obeg : Z; oend : Z }.

(* The loop [while oend - obeg + n > !newlen do newlen := !newlen * 2 done],
   cryptokit.ml 335-337, in 63-bit arithmetic.  None: fuel exhausted. *)
Fixpoint grow_loop (fuel : nat) (need newlen : Z) : option Z :=
  match fuel with
  | O => None
  | S f => if need >? newlen then grow_loop f need (wrap63 (newlen * 2)) else Some newlen
  end.

(* Each doubling of a positive 63-bit number overflows after at most 62
   steps, so 128 iterations decide termination (see BufOut.grow_loop_hang). *)
Definition grow_fuel : nat := 128.

Section BufOut.
(* [fresh n] is the unspecified content of [Bytes.create n] *)
Variable fresh : Z -> bytes.

(* class instantiation, cryptokit.ml 319-323 *)
Definition bo_new (initial_buffer_size : Z) : bo :=
  BO (fresh initial_buffer_size) 0 0.

(* method ensure_capacity, cryptokit.ml 325-349 *)
Definition ensure_capacity (b : bo) (n : Z) : bo * out unit :=
  let len := zlen (obuf b) in
  if wrap63 (oend b + n) >? len then
    if wrap63 (oend b - obeg b + n) <? len then
      match blit (obuf b) (obeg b) (obuf b) 0 (oend b - obeg b) with
      | Ret ob => (BO ob 0 (oend b - obeg b), Ret tt)
      | Raise e => (b, Raise e)
      | Undef => (b, Undef)
      | Hang => (b, Hang)
      end
    else
      let need := wrap63 (oend b - obeg b + n) in
      match grow_loop grow_fuel need (wrap63 (2 * len)) with
      | None => (b, Hang)
      | Some newlen0 =>
        let alloc newlen :=
          match blit (obuf b) (obeg b) (fresh newlen) 0 (oend b - obeg b) with
          | Ret ob => (BO ob 0 (oend b - obeg b), Ret tt)
          | Raise e => (b, Raise e)
          | Undef => (b, Undef)
          | Hang => (b, Hang)
          end in
        if newlen0 >? max_string_length then
          if need <=? max_string_length then alloc max_string_length
          else (b, Raise (Error Output_buffer_overflow))
        else alloc newlen0
      end
  else (b, Ret tt).

(* method available_output, cryptokit.ml 351 *)
Definition bo_available (b : bo) : Z := oend b - obeg b.

(* method get_substring, cryptokit.ml 353-354 *)
Definition bo_get_substring (b : bo) : bo * out (bytes * Z * Z) :=
  (BO (obuf b) 0 0, Ret (obuf b, obeg b, oend b - obeg b)).

(* method get_string, cryptokit.ml 356-357 *)
Definition bo_get_string (b : bo) : bo * out bytes :=
  match bytes_sub (obuf b) (obeg b) (oend b - obeg b) with
  | Ret r => (BO (obuf b) 0 0, Ret r)
  | Raise e => (b, Raise e)
  | Undef => (b, Undef)
  | Hang => (b, Hang)
  end.

(* method get_char, cryptokit.ml 359-363; get_byte (365-366) is the same
   function since characters are modelled by their codes *)
Definition bo_get_char (b : bo) : bo * out Z :=
  if obeg b >=? oend b then (b, Raise End_of_file)
  else match bytes_get (obuf b) (obeg b) with
       | Ret r => (BO (obuf b) (obeg b + 1) (oend b), Ret r)
       | Raise e => (b, Raise e)
       | Undef => (b, Undef)
       | Hang => (b, Hang)
       end.

(* method wipe, cryptokit.ml 368-369 *)
Definition bo_wipe (b : bo) : bo := BO (zeros (zlen (obuf b))) (obeg b) (oend b).

End BufOut.
