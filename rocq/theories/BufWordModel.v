(* Model: class buffered_output, cryptokit.ml 319-370, on a machine where OCaml integers have
   [width] bits and Sys.max_string_length is [max_len]: 63 and 2^57 - 9 on 64-bit machines (this is
   BufOutModel.v), 31 and 2^24 - 5 on 32-bit ones.  The methods that do no arithmetic on sizes
   (available_output, get_*, wipe) are those of BufOutModel.v: oend - obeg is between 0 and the
   length of the array. *)
From Verif Require Import Prelude BufOutModel BufHistory.

Section Word.
Variables width max_len : Z.
Variable fresh : Z -> bytes.

(* integer arithmetic modulo 2^width, signed *)
Definition wrap_int (x : Z) : Z := (x + 2 ^ (width - 1)) mod 2 ^ width - 2 ^ (width - 1).

(* the loop 335-337.  None: fuel exhausted *)
Fixpoint grow_loop_w (fuel : nat) (need newlen : Z) : option Z :=
  match fuel with
  | O => None
  | S f => if need >? newlen then grow_loop_w f need (wrap_int (newlen * 2)) else Some newlen
  end.
(* after width doublings the value is 0, or large enough *)
Definition grow_fuel_w : nat := Z.to_nat width + 2.

(* method ensure_capacity, cryptokit.ml 325-349 *)
Definition ensure_capacity_w (b : bo) (n : Z) : bo * out unit :=
  let len := zlen (obuf b) in
  if wrap_int (oend b + n) >? len then
    if wrap_int (oend b - obeg b + n) <? len then
      match blit (obuf b) (obeg b) (obuf b) 0 (oend b - obeg b) with
      | Ret ob => (BO ob 0 (oend b - obeg b), Ret tt)
      | Raise e => (b, Raise e)
      | Undef => (b, Undef)
      | Hang => (b, Hang)
      end
    else
      let need := wrap_int (oend b - obeg b + n) in
      match grow_loop_w grow_fuel_w need (wrap_int (2 * len)) with
      | None => (b, Hang)
      | Some newlen0 =>
        let alloc newlen :=
          match blit (obuf b) (obeg b) (fresh newlen) 0 (oend b - obeg b) with
          | Ret ob => (BO ob 0 (oend b - obeg b), Ret tt)
          | Raise e => (b, Raise e)
          | Undef => (b, Undef)
          | Hang => (b, Hang)
          end in
        if newlen0 >? max_len then
          if need <=? max_len then alloc max_len
          else (b, Raise (Error Output_buffer_overflow))
        else alloc newlen0
      end
  else (b, Ret tt).


(* what subclasses do to produce output, and the other methods, as in BufHistory.v *)
Definition produce_w (b : bo) (l : bytes) : bo * out unit :=
  let! (b, u) := ensure_capacity_w b (zlen l) in
  match blit l 0 (obuf b) (oend b) (zlen l) with
  | Ret ob => (BO ob (obeg b) (oend b + zlen l), Ret tt)
  | Raise e => (b, Raise e) | Undef => (b, Undef) | Hang => (b, Hang)
  end.

Definition bstep_w (b : bo) (o : bop) : bo * bobs :=
  match o with
  | Produce l => let r := produce_w b l in (fst r, obs_of (fun _ => BUnit) (snd r))
  | Available => (b, BInt (bo_available b))
  | GetStr => let r := bo_get_string b in (fst r, obs_of BBytes (snd r))
  | GetSub => let r := bo_get_substring b in
      (fst r, obs_of (fun x => match x with (bf, o, n) =>
         if in_range bf o n then BBytes (sub bf o n) else BExn Invalid_argument end) (snd r))
  | GetChr => let r := bo_get_char b in (fst r, obs_of BInt (snd r))
  end.
Fixpoint brun_w (b : bo) (ops : list bop) : list bobs :=
  match ops with [] => [] | o :: ops' => snd (bstep_w b o) :: brun_w (fst (bstep_w b o)) ops' end.
End Word.
