(* Several generators in one program, with seeds and buffers that are places of a common memory. *)
From Verif Require Import Prelude SpecAes SpecStream SpecRng.

(* strings and arrays are numbered; [m i] is what number i holds *)
Definition store := nat -> bytes.
Definition set (m : store) (r : nat) (x : bytes) : store := fun i => if Nat.eqb i r then x else m i.

(* pseudo_rng and pseudo_rng_aes_ctr *)
Inductive kind := Chacha20_gen | Aes_ctr_gen.
(* what the program does: make a generator from string s (the generators are numbered 0, 1, ... in the order of their creation; a
   refused seed makes none); ask generator g for len bytes at position ofs of array r; wipe generator g *)
Inductive rop := New (k : kind) (s : nat) | Ask (g : nat) (r : nat) (ofs len : Z) | Wipe (g : nat).

(* the bytes that a generator gives *)
Definition stream_of (k : kind) (seed : bytes) : nat -> Z :=
  match k with
  | Chacha20_gen => chacha20 (seed_key seed) 0 (zeros 8)
  | Aes_ctr_gen => ctr_stream (aes_E (firstn 16 seed))
  end.
(* a generator: its bytes, how many it has given, the number of its seed, whether it has been wiped *)
Record agen := AG { g_kind : kind; g_stream : nat -> Z; g_pos : nat; g_seed : nat; g_wiped : bool }.
Fixpoint replace {A} (l : list A) (i : nat) (x : A) : list A :=
  match l, i with
  | [], _ => []
  | _ :: l, O => x :: l
  | y :: l, S i => y :: replace l i x
  end.
(* one operation on the memory and the generators *)
Definition spec_step (m : store) (gs : list agen) (o : rop) : store * list agen * out unit :=
  match o with
  | New k s => if zlen (m s) <? 16 then (m, gs, Raise (Error Seed_too_short)) else (m, gs ++ [AG k (stream_of k (m s)) 0 s false], Ret tt)
  | Ask g r ofs len =>
    match nth_error gs g with
    | None => (m, gs, Ret tt)
    | Some a =>
      if in_range (m r) ofs len
      then (set m r (splice (m r) ofs (ks_bytes (g_stream a) (g_pos a) (Z.to_nat len))),
            replace gs g (AG (g_kind a) (g_stream a) (g_pos a + Z.to_nat len) (g_seed a) (g_wiped a)), Ret tt)
      else (m, gs, Raise Invalid_argument)
    end
  | Wipe g =>
    match nth_error gs g with
    | None => (m, gs, Ret tt)
    | Some a => (set m (g_seed a) (zeros (zlen (m (g_seed a)))), replace gs g (AG (g_kind a) (g_stream a) (g_pos a) (g_seed a) true), Ret tt)
    end
  end.
(* nothing is asked of a wiped generator; pseudo_rng_aes_ctr is asked with ranges inside the array only *)
Definition step_ok (m : store) (gs : list agen) (o : rop) : Prop :=
  match o with
  | Ask g r ofs len => forall a, nth_error gs g = Some a -> g_wiped a = false /\ (g_kind a = Aes_ctr_gen -> in_range (m r) ofs len = true)
  | _ => True
  end.
Fixpoint prog_ok (m : store) (gs : list agen) (ops : list rop) : Prop :=
  match ops with
  | [] => True
  | o :: ops => step_ok m gs o /\ prog_ok (fst (fst (spec_step m gs o))) (snd (fst (spec_step m gs o))) ops
  end.
(* the memory at the end, and after each operation its result *)
Fixpoint spec_run (m : store) (gs : list agen) (ops : list rop) : store * list (out unit) :=
  match ops with
  | [] => (m, [])
  | o :: ops => let '(m, gs, r) := spec_step m gs o in let (m, l) := spec_run m gs ops in (m, r :: l)
  end.

(* reading a program: the seeds, and the operations other than wipe with their results *)
Definition seeds (ops : list rop) : list nat := flat_map (fun o => match o with New _ s => [s] | _ => [] end) ops.
Definition arrays (ops : list rop) : list nat := flat_map (fun o => match o with Ask _ r _ _ => [r] | _ => [] end) ops.
Definition not_wipe (o : rop) : bool := match o with Wipe _ => false | _ => true end.
Definition others (ops : list rop) (l : list (out unit)) : list (rop * out unit) := filter (fun p => not_wipe (fst p)) (combine ops l).
