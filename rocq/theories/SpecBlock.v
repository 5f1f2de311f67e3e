(* Specification of a "block function with state" wrapped as a transducer.
   Independent of the cryptokit model. *)
From Verif Require Import Prelude SpecTransducer.

(* One block in, one block out; None: the function refuses (message too long) *)
Record blockfn := BF { bf_st : Type; bf_step : bf_st -> bytes -> bf_st * option bytes }.

Definition emit_block (f : blockfn) (sg : bf_st f) (blk : bytes)
  : bf_st f * bytes * option exn :=
  match bf_step f sg blk with
  | (sg', Some o) => (sg', o, None)
  | (sg', None) => (sg', [], Some (Error Message_too_long))
  end.

(* Blocks of [bs] bytes are run through [f]; a full block is kept until more
   data arrives or the transducer is flushed; flushing a partial block is an
   error. *)
Definition block_flush (bs : Z) (f : blockfn) (s : bf_st f * bytes)
    : (bf_st f * bytes) * bytes * option exn :=
  let '(sg, pend) := s in
  if zlen pend =? 0 then (s, [], None)
  else if zlen pend =? bs then
    let '(sg', o, e) := emit_block f sg pend in
    ((sg', match e with None => [] | _ => pend end), o, e)
  else (s, [], Some (Error Wrong_data_length)).

Definition block_byte (bs : Z) (f : blockfn) (s : bf_st f * bytes) (c : Z)
    : (bf_st f * bytes) * bytes * option exn :=
  let '(sg, pend) := s in
  if zlen pend =? bs then
    let '(sg', o, e) := emit_block f sg pend in
    ((sg', match e with None => [c] | _ => pend end), o, e)
  else ((sg, pend ++ [c]), [], None).

Definition block_mealy (bs : Z) (f : blockfn)
    (fin : bf_st f * bytes -> (bf_st f * bytes) * bytes * option exn) : mealy :=
  {| m_st := bf_st f * bytes; m_byte := block_byte bs f;
     m_flush := block_flush bs f; m_finish := fin |}.

(* no padding *)
Definition plain_mealy bs f := block_mealy bs f (block_flush bs f).

(* Padding functions of the specification: [padfn bs u] is the list of bytes
   appended to a partial block of u bytes; [unpadfn blk] is the length of the
   data in a padded block. *)
Definition padenc_fin (bs : Z) (padfn : Z -> option bytes) (f : blockfn)
    (s : bf_st f * bytes) : (bf_st f * bytes) * bytes * option exn :=
  let '(sg, pend) := s in
  let '(sg1, pend1, o1, e1) :=
    if zlen pend >=? bs then
      let '(sg', o, e) := emit_block f sg pend in
      (sg', match e with None => [] | _ => pend end, o, e)
    else (sg, pend, [], None) in
  match e1 with
  | Some e => ((sg1, pend1), o1, Some e)
  | None =>
      match padfn (zlen pend1) with
      | None => ((sg1, pend1), o1, Some Assert_failure)
      | Some p =>
          let '(sg2, o2, e2) := emit_block f sg1 (pend1 ++ p) in
          ((sg2, pend1), o1 ++ o2, e2)
      end
  end.

Definition paddec_fin (bs : Z) (unpadfn : bytes -> option Z) (f : blockfn)
    (s : bf_st f * bytes) : (bf_st f * bytes) * bytes * option exn :=
  let '(sg, pend) := s in
  if negb (zlen pend =? bs) then (s, [], Some (Error Wrong_data_length))
  else match emit_block f sg pend with
       | (sg', o, Some e) => ((sg', pend), [], Some e)
       | (sg', o, None) =>
           match unpadfn o with
           | None => ((sg', o), [], Some (Error Bad_padding))
           | Some v => ((sg', o), sub o 0 v, None)
           end
       end.

(* Running f over a list of blocks *)
Fixpoint bf_run (f : blockfn) (sg : bf_st f) (blks : list bytes) : bf_st f * option (list bytes) :=
  match blks with
  | [] => (sg, Some [])
  | b :: bl =>
      match bf_step f sg b with
      | (sg', None) => (sg', None)
      | (sg', Some o) =>
          match bf_run f sg' bl with
          | (sg'', Some os) => (sg'', Some (o :: os))
          | (sg'', None) => (sg'', None)
          end
      end
  end.

(* Cut a byte string in pieces of n bytes (last one possibly shorter) *)
Fixpoint chunks_fuel (fuel n : nat) (l : bytes) : list bytes :=
  match fuel with
  | O => []
  | S f => match l with
           | [] => []
           | _ => firstn n l :: chunks_fuel f n (skipn n l)
           end
  end.
Definition chunks (n : Z) (l : bytes) : list bytes := chunks_fuel (length l) (Z.to_nat n) l.
