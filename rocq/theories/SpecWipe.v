(* Calls on an object, including wipe, at any time: the object goes on being used after wipe and
   after exceptions. *)
From Verif Require Import Prelude SpecTransducer TransformModel HashModel.

Inductive wop := Call (o : op) | Wipe.
(* the integers of a call are OCaml integers, and its strings can exist *)
Definition op_possible (o : op) : Prop :=
  match o with
  | PutSubstring b ofs len => zlen b <= max_string_length /\ is_int ofs /\ is_int len
  | PutString s => zlen s <= max_string_length
  | PutByte n => is_int n
  | _ => True
  end.
Definition wop_possible (w : wop) : Prop := match w with Call o => op_possible o | Wipe => True end.

Definition w_step (T : transform) (s : t_st T) (w : wop) : t_st T * obs :=
  match w with Call o => t_step T s o | Wipe => unit_obs (t_wipe T s) end.
Fixpoint w_run (T : transform) (s : t_st T) (l : list wop) : t_st T * list obs :=
  match l with
  | [] => (s, [])
  | w :: l' => let (s1, ob) := w_step T s w in let (s2, obs) := w_run T s1 l' in (s2, ob :: obs)
  end.
(* no call reads or writes outside a buffer *)
Definition memory_safe (T : transform) (s : t_st T) : Prop :=
  forall l, Forall wop_possible l -> ~ In OUndef (snd (w_run T s l)).

(* the same for hash and MAC objects *)
Inductive hop := AddSubstring (b : bytes) (ofs len : Z) | AddString (s : bytes) | AddChar (c : Z) | AddByte (n : Z) | Result | HWipe.
Definition hop_possible (o : hop) : Prop :=
  match o with
  | AddSubstring b ofs len => zlen b <= max_string_length /\ is_int ofs /\ is_int len
  | AddString s => zlen s <= max_string_length
  | _ => True
  end.
Definition h_step (H : hash) (s : h_st H) (o : hop) : h_st H * obs :=
  match o with
  | AddSubstring b ofs len => unit_obs (h_add_substring H s b ofs len)
  | AddString str => unit_obs (h_add_string H s str)
  | AddChar c => unit_obs (h_add_char H s c)
  | AddByte n => unit_obs (h_add_byte H s n)
  | Result => bytes_obs (h_result H s)
  | HWipe => unit_obs (h_wipe H s)
  end.
Fixpoint h_run (H : hash) (s : h_st H) (l : list hop) : h_st H * list obs :=
  match l with
  | [] => (s, [])
  | o :: l' => let (s1, ob) := h_step H s o in let (s2, obs) := h_run H s1 l' in (s2, ob :: obs)
  end.
Definition hash_memory_safe (H : hash) (s : h_st H) : Prop :=
  forall l, Forall hop_possible l -> ~ In OUndef (snd (h_run H s l)).
