(* Utilities: cryptokit.ml 18-29 and 2627-2639, stubs-misc.c 19-48. *)
From Verif Require Import Prelude BytesNum.

(* ---- seq_equal, cryptokit.ml 18-26, instrumented ---- *)

(* one element access: which argument (false: s1, true: s2), index *)
Definition access : Type := bool * Z.

(* let rec equal i accu, lines 20-24.  Returns the accesses made and the
   result.  [fuel] bounds the number of iterations. *)
Fixpoint equal_loop (fuel : nat) (l : Z) (s1 s2 : bytes) (i accu : Z) : list access * out bool :=
  match fuel with
  | O => ([], Hang)
  | S f =>
    if i >=? l then ([], Ret (accu =? 0))
    else
      match bytes_get s1 i, bytes_get s2 i with
      | Ret c1, Ret c2 =>
          let r := equal_loop f l s1 s2 (i + 1) (Z.lor accu (Z.lxor c1 c2)) in
          ((false, i) :: (true, i) :: fst r, snd r)
      | _, _ => ([(false, i); (true, i)], Raise Invalid_argument)
      end
  end.
(* line 26; string_equal and bytes_equal (28-29) are this function at two
   types *)
Definition seq_equal (s1 s2 : bytes) : list access * out bool :=
  let l := zlen s1 in
  if l =? zlen s2 then equal_loop (S (length s1)) l s1 s2 0 0 else ([], Ret false).

(* ---- caml_xor_string, stubs-misc.c 19-48 ----
   Memory is a map from addresses to bytes, so that the arguments may overlap;
   [s] and [d] are the addresses of the first bytes. *)
Definition mem := Z -> Z.
Definition upd (m : mem) (a v : Z) : mem := fun x => if x =? a then v else m x.

(* *d ^= *s *)
Definition xor_byte (m : mem) (s d : Z) : mem := upd m d (Z.lxor (m d) (m s)).
(* *((uintnat * ) d) ^= *((uintnat * ) s), 64-bit little-endian words *)
Definition load8 (m : mem) (a : Z) : Z := le (map (fun i => m (a + i)) [0; 1; 2; 3; 4; 5; 6; 7]).
Fixpoint store (m : mem) (a : Z) (l : bytes) : mem :=
  match l with [] => m | c :: r => store (upd m a c) (a + 1) r end.
Definition xor_word (m : mem) (s d : Z) : mem := store m d (to_le 8 (Z.lxor (load8 m d) (load8 m s))).

(* the three while loops, lines 27-32, 33-38, 40-45; state (memory, s, d, l) *)
Fixpoint align_loop (fuel : nat) (m : mem) (s d l : Z) : option (mem * Z * Z * Z) :=
  match fuel with
  | O => None
  | S f => if negb (s mod 8 =? 0) && (l >? 0) then align_loop f (xor_byte m s d) (s + 1) (d + 1) (l - 1)
           else Some (m, s, d, l)
  end.
Fixpoint word_loop (fuel : nat) (m : mem) (s d l : Z) : option (mem * Z * Z * Z) :=
  match fuel with
  | O => None
  | S f => if l >=? 8 then word_loop f (xor_word m s d) (s + 8) (d + 8) (l - 8) else Some (m, s, d, l)
  end.
Fixpoint byte_loop (fuel : nat) (m : mem) (s d l : Z) : option mem :=
  match fuel with
  | O => None
  | S f => if l >? 0 then byte_loop f (xor_byte m s d) (s + 1) (d + 1) (l - 1) else Some m
  end.
Definition caml_xor_string (m : mem) (s d l : Z) : option mem :=
  let fuel := S (Z.to_nat l) in
  if (l >=? 64) && (s mod 8 =? d mod 8) then
    match align_loop fuel m s d l with
    | Some (m, s, d, l) =>
        match word_loop fuel m s d l with
        | Some (m, s, d, l) => byte_loop fuel m s d l
        | None => None
        end
    | None => None
    end
  else byte_loop fuel m s d l.

(* exported xor_bytes and xor_string, cryptokit.ml 2627-2639.  An argument is
   the address and the length of a string. *)
Definition api_xor (m : mem) (src slen so dst dlen d len : Z) : mem * out unit :=
  if (len <? 0) || (so <? 0) || (so >? slen - len) || (d <? 0) || (d >? dlen - len)
  then (m, Raise Invalid_argument)
  else match caml_xor_string m (src + so) (dst + d) len with
       | Some m' => (m', Ret tt)
       | None => (m, Hang)
       end.
