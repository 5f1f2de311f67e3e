(* Vocabulary to state what a hash object computes. *)
From Verif Require Import Prelude HashModel.

(* the calls that add data to a hash object *)
Inductive hop :=
  | HSub (src : bytes) (ofs len : Z)   (* add_substring *)
  | HString (s : bytes)                (* add_string *)
  | HChar (c : Z)                      (* add_char *)
  | HByte (n : Z).                     (* add_byte *)

(* calls that OCaml's types and the documented ranges allow *)
Definition hop_valid (o : hop) : Prop :=
  match o with
  | HSub src ofs len => bytes_ok (sub src ofs len) /\ zlen src <= max_string_length /\ in_range src ofs len = true
  | HString s => bytes_ok s /\ zlen s <= max_string_length
  | HChar c => byte_ok c
  | HByte n => True
  end.

(* the bytes a call adds to the message *)
Definition hop_bytes (o : hop) : bytes :=
  match o with
  | HSub src ofs len => sub src ofs len
  | HString s => s
  | HChar c => [c]
  | HByte n => [n mod 256]
  end.
Definition added (ops : list hop) : bytes := concat (map hop_bytes ops).

Definition h_step (H : hash) (h : h_st H) (o : hop) : h_st H * out unit :=
  match o with
  | HSub src ofs len => h_add_substring H h src ofs len
  | HString s => h_add_string H h s
  | HChar c => h_add_char H h c
  | HByte n => h_add_byte H h n
  end.
Fixpoint h_run (H : hash) (h : h_st H) (ops : list hop) : h_st H * out unit :=
  match ops with
  | [] => (h, Ret tt)
  | o :: ops => let! (h, u) := h_step H h o in h_run H h ops
  end.

(* Starting from this object, after any valid calls adding a message of the
   domain P, all of which succeed, result returns (or raises) D of the
   concatenation of everything added, and the object can be wiped then. *)
Definition computes_on (P : bytes -> Prop) (o : hobj) (D : bytes -> out bytes) : Prop :=
  forall ops, Forall hop_valid ops -> P (added ops) ->
    snd (h_run (ho_class o) (ho_st o) ops) = Ret tt /\
    snd (h_result (ho_class o) (fst (h_run (ho_class o) (ho_st o) ops))) = D (added ops) /\
    snd (h_wipe (ho_class o) (fst (h_result (ho_class o) (fst (h_run (ho_class o) (ho_st o) ops))))) = Ret tt.
Definition computes (o : hobj) (d : bytes -> bytes) : Prop :=
  computes_on (fun _ => True) o (fun m => Ret (d m)).

(* the same functions on objects *)
Definition obj_hash_string (o : hobj) (s : bytes) : out bytes :=
  snd (hash_string (ho_class o) (ho_st o) s).
Definition obj_hash_channel (fresh : Z -> bytes) (sched : nat -> Z) (o : hobj) (len : option Z) (ic : bytes) : out bytes :=
  snd (hash_channel fresh sched (ho_class o) (ho_st o) len ic).
