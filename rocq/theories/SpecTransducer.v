(* Specification vocabulary for transforms: a byte-at-a-time transducer with
   an output queue.  Independent of the cryptokit model. *)
From Verif Require Import Prelude.

(* Every step returns the new state, the bytes emitted, and possibly the
   exception that ends the step (after the emission). *)
Record mealy := Mealy {
  m_st : Type;
  m_byte : m_st -> Z -> m_st * bytes * option exn;
  m_flush : m_st -> m_st * bytes * option exn;
  m_finish : m_st -> m_st * bytes * option exn }.

(* Feed a list of bytes, stopping at the first exception. *)
Fixpoint m_run (M : mealy) (sg : m_st M) (l : bytes) : m_st M * bytes * option exn :=
  match l with
  | [] => (sg, [], None)
  | c :: l' =>
      match m_byte M sg c with
      | (sg1, o1, Some e) => (sg1, o1, Some e)
      | (sg1, o1, None) =>
          let '(sg2, o2, e2) := m_run M sg1 l' in (sg2, o1 ++ o2, e2)
      end
  end.

Definition r_st {A} (r : A * bytes * option exn) : A := fst (fst r).
Definition r_out {A} (r : A * bytes * option exn) : bytes := snd (fst r).
Definition r_exn {A} (r : A * bytes * option exn) : option exn := snd r.

(* sequencing of two steps *)
Definition m_then {A B} (r : A * bytes * option exn) (k : A -> B * bytes * option exn)
    (dummy : A -> B) : B * bytes * option exn :=
  match r with
  | (sg, o, Some e) => (dummy sg, o, Some e)
  | (sg, o, None) => let '(sg2, o2, e2) := k sg in (sg2, o ++ o2, e2)
  end.

(* Whole-message behaviour: feed everything, then finish. *)
Definition m_total (M : mealy) (sg : m_st M) (l : bytes) : m_st M * bytes * option exn :=
  m_then (m_run M sg l) (m_finish M) (fun s => s).

(* The calls a user can make on a transform (class type transform,
   cryptokit.mli), and what they observe. *)
Inductive op :=
  | PutSubstring (b : bytes) (ofs len : Z)
  | PutString (s : bytes)
  | PutChar (c : Z)
  | PutByte (n : Z)
  | Flush | Finish
  | AvailableOutput | GetString | GetSubstring | GetChar | GetByte.

Inductive obs :=
  | OUnit | OInt (z : Z) | OBytes (l : bytes) | OExn (e : exn) | OUndef | OHang.

(* An operation is valid if it respects the documented argument ranges. *)
Definition op_valid (o : op) : Prop :=
  match o with
  | PutSubstring b ofs len =>
      in_range b ofs len = true /\ bytes_ok b /\ zlen b <= max_string_length
  | PutString s => bytes_ok s /\ zlen s <= max_string_length
  | PutChar c => byte_ok c
  | PutByte n => byte_ok n
  | _ => True
  end.

(* the bytes an operation feeds *)
Definition op_data (o : op) : bytes :=
  match o with
  | PutSubstring b ofs len => sub b ofs len
  | PutString s => s
  | PutChar c => [c]
  | PutByte n => [n]
  | _ => []
  end.

Definition emit_obs {A} (q : bytes) (r : A * bytes * option exn) : (A * bytes) * obs :=
  (r_st r, q ++ r_out r, match r_exn r with None => OUnit | Some e => OExn e end).

(* one operation on (transducer state, output queue) *)
Definition spec_step (M : mealy) (sg : m_st M) (q : bytes) (o : op) : (m_st M * bytes) * obs :=
  match o with
  | PutSubstring _ _ _ | PutString _ | PutChar _ | PutByte _ =>
      emit_obs q (m_run M sg (op_data o))
  | Flush => emit_obs q (m_flush M sg)
  | Finish => emit_obs q (m_finish M sg)
  | AvailableOutput => (sg, q, OInt (zlen q))
  | GetString | GetSubstring => (sg, [], OBytes q)
  | GetChar | GetByte =>
      match q with
      | [] => (sg, [], OExn End_of_file)
      | c :: q' => (sg, q', OInt c)
      end
  end.

(* does an observation end the history?  (An exception of a put, flush or
   finish; End_of_file from get_char does not.) *)
Definition ends (o : op) (ob : obs) : bool :=
  match o, ob with
  | (GetChar | GetByte), OExn End_of_file => false
  | _, (OExn _ | OUndef | OHang) => true
  | _, _ => false
  end.

Fixpoint spec_run (M : mealy) (sg : m_st M) (q : bytes) (ops : list op) : list obs :=
  match ops with
  | [] => []
  | o :: ops' =>
      let '(sg', q', ob) := spec_step M sg q o in
      if ends o ob then [ob] else ob :: spec_run M sg' q' ops'
  end.

(* sequential composition of transducers *)
Definition m_compose_step (M1 M2 : mealy)
    (r1 : m_st M1 * bytes * option exn) (s2 : m_st M2)
    : (m_st M1 * m_st M2) * bytes * option exn :=
  let '(s2', o2, e2) := m_run M2 s2 (r_out r1) in
  ((r_st r1, s2'), o2, match e2 with Some e => Some e | None => r_exn r1 end).

Definition m_compose_fin (M1 M2 : mealy) (fin1 : m_st M1 -> m_st M1 * bytes * option exn)
    (fin2 : m_st M2 -> m_st M2 * bytes * option exn) (s : m_st M1 * m_st M2)
    : (m_st M1 * m_st M2) * bytes * option exn :=
  match m_compose_step M1 M2 (fin1 (fst s)) (snd s) with
  | (s', o, Some e) => (s', o, Some e)
  | ((s1, s2), o, None) =>
      let '(s2', o', e') := fin2 s2 in ((s1, s2'), o ++ o', e')
  end.

Definition m_compose (M1 M2 : mealy) : mealy :=
  {| m_st := m_st M1 * m_st M2;
     m_byte := fun s c => m_compose_step M1 M2 (m_byte M1 (fst s) c) (snd s);
     m_flush := m_compose_fin M1 M2 (m_flush M1) (m_flush M2);
     m_finish := m_compose_fin M1 M2 (m_finish M1) (m_finish M2) |}.

(* ------------------------------------------------------------------ *)
(* Histories as event sequences: what the splitting into calls and the
   placement of the get calls must not matter for. *)
Inductive event := EByte (c : Z) | EFlush | EFinish.

Definition op_events (o : op) : list event :=
  match o with
  | Flush => [EFlush]
  | Finish => [EFinish]
  | _ => map EByte (op_data o)
  end.

Definition events (ops : list op) : list event := flat_map op_events ops.

Definition m_event (M : mealy) (sg : m_st M) (e : event) : m_st M * bytes * option exn :=
  match e with
  | EByte c => m_byte M sg c
  | EFlush => m_flush M sg
  | EFinish => m_finish M sg
  end.

Fixpoint m_events (M : mealy) (sg : m_st M) (l : list event) : m_st M * bytes * option exn :=
  match l with
  | [] => (sg, [], None)
  | c :: l' =>
      match m_event M sg c with
      | (sg1, o1, Some e) => (sg1, o1, Some e)
      | (sg1, o1, None) =>
          let '(sg2, o2, e2) := m_events M sg1 l' in (sg2, o1 ++ o2, e2)
      end
  end.

(* the bytes a call returns to the user *)
Definition got (o : op) (ob : obs) : bytes :=
  match o, ob with
  | (GetString | GetSubstring), OBytes l => l
  | (GetChar | GetByte), OInt c => [c]
  | _, _ => []
  end.

(* everything returned to the user during a history, in order *)
Definition all_got (ops : list op) (obs : list obs) : bytes :=
  concat (map (fun p => got (fst p) (snd p)) (combine ops obs)).
