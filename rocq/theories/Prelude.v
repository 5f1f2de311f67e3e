(* Shared vocabulary of the models: byte strings, outcomes of OCaml
   computations, sub-ranges of arrays.  No model of cryptokit code here. *)
From Coq Require Export List ZArith Lia Bool.
From Coq Require Export ZifyBool ZifyNat ZifyN.
Export ListNotations.
Global Open Scope Z_scope.

(* ------------------------------------------------------------------ *)
(* Bytes and byte strings                                               *)

Definition byte_ok (b : Z) : Prop := 0 <= b < 256.
Notation bytes := (list Z).
Definition bytes_ok (l : bytes) : Prop := Forall byte_ok l.

Definition zlen {A} (l : list A) : Z := Z.of_nat (length l).

(* [zeros n] : n zero bytes *)
Definition zeros (n : Z) : bytes := repeat 0 (Z.to_nat n).

(* range test of the OCaml standard library:
   [len < 0 || ofs < 0 || ofs > length - len] negated
   (stdlib bytes.ml, functions sub, fill, blit; no overflow since
   0 <= length and len >= 0 when the last test is evaluated). *)
Definition in_range {A} (l : list A) (ofs len : Z) : bool :=
  (0 <=? len) && (0 <=? ofs) && (ofs <=? zlen l - len).

Definition sub {A} (l : list A) (ofs len : Z) : list A :=
  firstn (Z.to_nat len) (skipn (Z.to_nat ofs) l).

(* overwrite [l] in [dst] from offset [ofs] on *)
Definition splice {A} (dst : list A) (ofs : Z) (l : list A) : list A :=
  firstn (Z.to_nat ofs) dst ++ l ++ skipn (Z.to_nat ofs + length l) dst.

Definition nthZ (l : bytes) (i : Z) : Z := nth (Z.to_nat i) l 0.

(* bytewise xor of two strings of the same length *)
Definition xorb (a b : bytes) : bytes :=
  map (fun p => Z.lxor (fst p) (snd p)) (combine a b).

(* ------------------------------------------------------------------ *)
(* Outcomes                                                             *)

(* cryptokit.ml 53-67 *)
Inductive error :=
  | Wrong_key_size | Wrong_IV_size | Wrong_data_length | Bad_padding
  | Output_buffer_overflow | Incompatible_block_size | Number_too_long
  | Seed_too_short | Message_too_long | Bad_encoding | Compression_error
  | No_entropy_source | Entropy_source_closed | Compression_not_supported.

Inductive exn :=
  | Error (e : error)
  | Invalid_argument
  | End_of_file
  | Assert_failure
  | Division_by_zero
  | Not_found
  | Unix_error.

(* [Undef]: the C code reads or writes outside an array (undefined
   behaviour).  [Hang]: the loop fuel of the model ran out. *)
Inductive out (A : Type) :=
  | Ret (a : A) | Raise (e : exn) | Undef | Hang.
Arguments Ret {A} a. Arguments Raise {A} e. Arguments Undef {A}. Arguments Hang {A}.

(* A method call returns the new object state and an outcome; the state
   reached is kept also if an exception is raised. *)
Definition bind {S A B} (r : S * out A) (k : S -> A -> S * out B) : S * out B :=
  match r with
  | (s, Ret a) => k s a
  | (s, Raise e) => (s, Raise e)
  | (s, Undef) => (s, Undef)
  | (s, Hang) => (s, Hang)
  end.
Notation "'let!' ( s , x ) := r 'in' k" :=
  (bind r (fun s x => k)) (at level 200, s name, x name, r at level 100, k at level 200).

Definition obind {A B} (r : out A) (k : A -> out B) : out B :=
  match r with
  | Ret a => k a | Raise e => Raise e | Undef => Undef | Hang => Hang
  end.
Notation "'olet' x := r 'in' k" :=
  (obind r (fun x => k)) (at level 200, x name, r at level 100, k at level 200).

(* run a sub-object's method and store back its state *)
Definition lift {S T A} (put : T -> S) (r : T * out A) : S * out A :=
  (put (fst r), snd r).

(* ------------------------------------------------------------------ *)
(* Standard-library operations on Bytes                                 *)

(* Bytes.blit src so dst d n, for dst distinct from src or not:
   the stdlib uses memmove. *)
Definition blit (src : bytes) (so : Z) (dst : bytes) (d n : Z) : out bytes :=
  if in_range src so n && in_range dst d n
  then Ret (splice dst d (sub src so n))
  else Raise Invalid_argument.

Definition bytes_get (l : bytes) (i : Z) : out Z :=
  if (0 <=? i) && (i <? zlen l) then Ret (nthZ l i) else Raise Invalid_argument.

Definition bytes_set (l : bytes) (i : Z) (c : Z) : out bytes :=
  if (0 <=? i) && (i <? zlen l) then Ret (splice l i [c]) else Raise Invalid_argument.

Definition bytes_fill (l : bytes) (o n c : Z) : out bytes :=
  if in_range l o n then Ret (splice l o (repeat c (Z.to_nat n)))
  else Raise Invalid_argument.

(* Bytes.sub / String.sub *)
Definition bytes_sub (l : bytes) (o n : Z) : out bytes :=
  if in_range l o n then Ret (sub l o n) else Raise Invalid_argument.

(* OCaml native ints have 63 bits *)
Definition wrap63 (x : Z) : Z := (x + 2 ^ 62) mod 2 ^ 63 - 2 ^ 62.
Definition is_int (x : Z) : Prop := - 2 ^ 62 <= x < 2 ^ 62.

(* Sys.max_string_length on a 64-bit machine: 8 * (2^54 - 1) - 1 *)
Definition max_string_length : Z := 2 ^ 57 - 9.
