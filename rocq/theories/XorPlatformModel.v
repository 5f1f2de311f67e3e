(* Model: caml_xor_string, stubs-misc.c 19-48, and the exported xor_bytes and xor_string, cryptokit.ml 2627-2639, on every machine with
   64-bit pointers: words in the order of the machine, length converted to a long of 32 or 64 bits (line 25). *)
From Verif Require Import Prelude BytesNum SpecPlatform PlatformModel MiscModel.

Section Machine.
Variable p : platform.
Definition load8_on (m : mem) (a : Z) : Z := host_read (p_order p) (map (fun i => m (a + i)) [0; 1; 2; 3; 4; 5; 6; 7]).
(* line 34 *)
Definition xor_word_on (m : mem) (s d : Z) : mem := store m d (host_write (p_order p) 8 (Z.lxor (load8_on m d) (load8_on m s))).
(* lines 33-38 *)
Fixpoint word_loop_on (fuel : nat) (m : mem) (s d l : Z) : option (mem * Z * Z * Z) :=
  match fuel with
  | O => None
  | S f => if l >=? 8 then word_loop_on f (xor_word_on m s d) (s + 8) (d + 8) (l - 8) else Some (m, s, d, l)
  end.
Definition caml_xor_string_on (m : mem) (s d len : Z) : option mem :=
  let l := to_long p len in
  let fuel := S (Z.to_nat l) in
  if (l >=? 64) && (s mod 8 =? d mod 8) then
    match align_loop fuel m s d l with
    | Some (m, s, d, l) =>
        match word_loop_on fuel m s d l with
        | Some (m, s, d, l) => byte_loop fuel m s d l
        | None => None
        end
    | None => None
    end
  else byte_loop fuel m s d l.
Definition api_xor_on (m : mem) (src slen so dst dlen d len : Z) : mem * out unit :=
  if (len <? 0) || (so <? 0) || (so >? slen - len) || (d <? 0) || (d >? dlen - len)
  then (m, Raise Invalid_argument)
  else match caml_xor_string_on m (src + so) (dst + d) len with
       | Some m' => (m', Ret tt)
       | None => (m, Hang)
       end.
End Machine.
