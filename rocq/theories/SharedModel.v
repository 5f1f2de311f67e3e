(* Model: several objects built on one and the same block cipher object.  The classes of chaining
   modes (cryptokit.ml 651-766), cipher (770-872), mac, mac_final_triple and cmac (876-981) keep a
   reference to the block cipher object they are given, not a copy.  In BlockModel.v and
   MacModel.v the state of that object is a field of their state; here the field is found by
   [cl_get] and [cl_put], and the objects of a program read it from, and write it to, one shared
   place. *)
From Verif Require Import Prelude SpecTransducer BufOutModel TransformModel HashModel HashSpec BlockModel CipherModel MacModel.

(* the calls on a transform or a hash *)
Inductive call := TCall (o : op) | HCall (o : hop) | HResult | DoWipe.
Definition wiping (c : call) : bool := match c with DoWipe => true | _ => false end.

(* A class whose objects use a block cipher object of state K.  A call that the object does not
   have is refused by the type checker; here it does nothing. *)
Record client (K : Type) := Client {
  cl_st : Type;
  cl_call : cl_st -> call -> cl_st * obs;
  cl_get : cl_st -> K;
  cl_put : cl_st -> K -> cl_st }.
Arguments cl_st {K}. Arguments cl_call {K}. Arguments cl_get {K}. Arguments cl_put {K}. Arguments Client {K}.

Record lens (S K : Type) := Lens { l_get : S -> K; l_put : S -> K -> S }.
Arguments Lens {S K}. Arguments l_get {S K}. Arguments l_put {S K}.
Definition lens_in {A B K} (f : lens A B) (g : lens B K) : lens A K :=
  Lens (fun s => l_get g (l_get f s)) (fun s k => l_put f s (l_put g (l_get f s) k)).
Definition at_self {K} : lens K K := Lens (fun s => s) (fun _ k => k).
Definition at_mode (C : block_cipher) : lens (mode_st C) (bc_st C) := Lens (fun s => ms_c s) (fun s k => set_c C s k).
Definition at_cipher (C : block_cipher) : lens (cs C) (bc_st C) :=
  Lens (fun s => c_c C s) (fun s k => CS C (c_ibuf C s) (c_used C s) (c_bo C s) k).
Definition at_mac (C : block_cipher) : lens (mst C) (bc_st C) := Lens (fun s => mc_c s) (fun s k => MSt (mc_iv s) (mc_buf s) (mc_used s) k).
Definition at_fst {A B} : lens (A * B) A := Lens fst (fun s k => (k, snd s)).
Definition at_snd {A B} : lens (A * B) B := Lens snd (fun s k => (fst s, k)).

Definition tr_call (T : transform) (s : t_st T) (c : call) : t_st T * obs :=
  match c with TCall o => t_step T s o | DoWipe => unit_obs (t_wipe T s) | _ => (s, OUndef) end.
Definition h_call (H : hash) (s : h_st H) (c : call) : h_st H * obs :=
  match c with
  | HCall o => unit_obs (h_step H s o) | HResult => bytes_obs (h_result H s) | DoWipe => unit_obs (h_wipe H s) | TCall _ => (s, OUndef) end.
Definition tr_client {K} (T : transform) (l : lens (t_st T) K) : client K := Client (t_st T) (tr_call T) (l_get l) (l_put l).
Definition h_client {K} (H : hash) (l : lens (h_st H) K) : client K := Client (h_st H) (h_call H) (l_get l) (l_put l).

(* an object, and all objects of a program, numbered *)
Record user (K : Type) := User { u_cl : client K; u_s : cl_st u_cl }.
Arguments User {K}. Arguments u_cl {K}. Arguments u_s {K}.
Definition upd {A} (w : nat -> A) (i : nat) (x : A) : nat -> A := fun j => if Nat.eqb i j then x else w j.

(* a program: calls on the objects, each of which uses the shared block cipher, now in state k *)
Fixpoint shared_run {K} (k : K) (w : nat -> user K) (l : list (nat * call)) : list (nat * obs) :=
  match l with
  | [] => []
  | (i, c) :: l =>
      let cl := u_cl (w i) in
      let r := cl_call cl (cl_put cl (u_s (w i)) k) c in
      (i, snd r) :: shared_run (cl_get cl (fst r)) (upd w i (User cl (fst r))) l
  end.
