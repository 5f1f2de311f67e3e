(* Programs that use system generators on Windows. *)
From Verif Require Import Prelude.

(* make a generator (those made are numbered 0, 1, ...); ask generator g for len bytes at position ofs of the array buf; wipe generator g *)
Inductive wrop := WNew | WAsk (g : nat) (buf : bytes) (ofs len : Z) | WWipe (g : nat).

(* What is expected.  [avail k]: whether the system grants the k-th request for a provider; [gen k n]: its answer to the k-th request for
   n bytes, success or not and the bytes it has written.  Nothing is said of handles: a generator is open from its creation to its wipe. *)
Section Expected.
Variable avail : nat -> bool.
Variable gen : nat -> Z -> bool * bytes.
Record wspec := WS { ws_requests : nat; ws_answers : nat; ws_open : list bool }.
Fixpoint close (l : list bool) (g : nat) : list bool :=
  match l, g with
  | [], _ => []
  | _ :: l, O => false :: l
  | b :: l, S g => b :: close l g
  end.
(* the array after the operation, and the outcome *)
Definition expected_step (s : wspec) (o : wrop) : wspec * (bytes * out unit) :=
  match o with
  | WNew => if avail (ws_requests s) then (WS (S (ws_requests s)) (ws_answers s) (ws_open s ++ [true]), ([], Ret tt))
            else (WS (S (ws_requests s)) (ws_answers s) (ws_open s), ([], Raise (Error No_entropy_source)))
  | WAsk g buf ofs len =>
    if in_range buf ofs len then
      let (ok, b) := gen (ws_answers s) len in
      (WS (ws_requests s) (S (ws_answers s)) (ws_open s), (splice buf ofs b, if ok then Ret tt else Raise (Error Entropy_source_closed)))
    else (s, (buf, Raise Invalid_argument))
  | WWipe g => (WS (ws_requests s) (ws_answers s) (close (ws_open s) g), ([], Ret tt))
  end.
(* the generators used are open, and asked for less than 2^32 bytes *)
Definition use_ok (s : wspec) (o : wrop) : Prop :=
  match o with
  | WNew => True
  | WAsk g _ _ len => nth_error (ws_open s) g = Some true /\ len < 2 ^ 32
  | WWipe g => nth_error (ws_open s) g = Some true
  end.
Fixpoint uses_ok (s : wspec) (ops : list wrop) : Prop :=
  match ops with [] => True | o :: ops => use_ok s o /\ uses_ok (fst (expected_step s o)) ops end.
Fixpoint expected (s : wspec) (ops : list wrop) : list (bytes * out unit) :=
  match ops with [] => [] | o :: ops => snd (expected_step s o) :: expected (fst (expected_step s o)) ops end.
End Expected.
