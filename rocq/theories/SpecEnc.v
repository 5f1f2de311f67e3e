(* Specification of the encodings: RFC 4648 base 64, hexadecimal, and of
   byte-wise stream transformations.  Independent of the cryptokit model. *)
From Verif Require Import Prelude SpecTransducer.

(* ---- base 64, RFC 4648 section 4 ---- *)

(* the alphabet, table 1 of the RFC *)
Definition b64_char (n : Z) : Z :=
  if n <? 26 then 65 + n             (* A-Z *)
  else if n <? 52 then 97 + (n - 26) (* a-z *)
  else if n <? 62 then 48 + (n - 52) (* 0-9 *)
  else if n =? 62 then 43            (* + *)
  else 47.                           (* / *)

(* a 24-bit group as four 6-bit digits *)
Definition digits4 (v : Z) : list Z :=
  [v / 262144; (v / 4096) mod 64; (v / 64) mod 64; v mod 64].
Definition group24 (a b c : Z) : Z := a * 65536 + b * 256 + c.

(* 6-bit digits of a message; a final group of one (two) bytes is completed
   with zero bits and gives two (three) digits *)
Fixpoint b64_digits (l : bytes) : list Z :=
  match l with
  | a :: b :: c :: r => digits4 (group24 a b c) ++ b64_digits r
  | [a; b] => firstn 3 (digits4 (group24 a b 0))
  | [a] => firstn 2 (digits4 (group24 a 0 0))
  | [] => []
  end.

(* number of padding characters *)
Definition b64_npad (l : bytes) : nat := Z.to_nat ((3 - zlen l mod 3) mod 3).

Definition b64_text (pad : bool) (l : bytes) : bytes :=
  map b64_char (b64_digits l) ++ (if pad then repeat 61 (b64_npad l) else []).

(* What encode_multiline produces: the padded text, a newline after every 72
   characters, and a final newline if the last line holds at least one
   complete group of four characters made of three message bytes. *)
Fixpoint lines72 (fuel : nat) (l : bytes) : bytes :=
  match fuel with
  | O => []
  | S f =>
      if zlen l >=? 54
      then b64_text true (firstn 54 l) ++ [10] ++ lines72 f (skipn 54 l)
      else b64_text true l ++ (if zlen l >=? 3 then [10] else [])
  end.
Definition b64_multiline (l : bytes) : bytes := lines72 (S (length l)) l.

(* decoding *)
Definition b64_value (c : Z) : option Z :=
  if (65 <=? c) && (c <=? 90) then Some (c - 65)
  else if (97 <=? c) && (c <=? 122) then Some (c - 97 + 26)
  else if (48 <=? c) && (c <=? 57) then Some (c - 48 + 52)
  else if c =? 43 then Some 62
  else if c =? 47 then Some 63
  else None.
Definition blank (c : Z) : bool := (c =? 32) || (c =? 9) || (c =? 10) || (c =? 13).

(* three bytes of a 24-bit number *)
Definition bytes3 (v : Z) : bytes := [v / 65536; (v / 256) mod 256; v mod 256].
Definition group64 (a b c d : Z) : Z := ((a * 64 + b) * 64 + c) * 64 + d.
(* bytes of a sequence of digits; None if a lone digit is left; the bits
   left over in a final group of two or three digits are ignored *)
Fixpoint b64_bytes (l : list Z) : option bytes :=
  match l with
  | a :: b :: c :: d :: r =>
      match b64_bytes r with Some x => Some (bytes3 (group64 a b c d) ++ x) | None => None end
  | [a; b; c] => Some (firstn 2 (bytes3 (group64 a b c 0)))
  | [a; b] => Some (firstn 1 (bytes3 (group64 a b 0 0)))
  | [_] => None
  | [] => Some []
  end.

(* ---- hexadecimal ---- *)
Definition hex_char (n : Z) : Z := if n <? 10 then 48 + n else 97 + (n - 10).
Definition hex_text (l : bytes) : bytes := flat_map (fun b => [hex_char (b / 16); hex_char (b mod 16)]) l.
Definition hex_value (c : Z) : option Z :=
  if (48 <=? c) && (c <=? 57) then Some (c - 48)
  else if (65 <=? c) && (c <=? 70) then Some (c - 65 + 10)
  else if (97 <=? c) && (c <=? 102) then Some (c - 97 + 10)
  else None.
Fixpoint hex_bytes (l : list Z) : option bytes :=
  match l with
  | a :: b :: r => match hex_bytes r with Some x => Some (a * 16 + b :: x) | None => None end
  | [_] => None
  | [] => Some []
  end.

(* values of the characters of a text that are not blank; None if there is
   another character *)
Fixpoint text_values (value : Z -> option Z) (l : bytes) : option (list Z) :=
  match l with
  | [] => Some []
  | c :: r =>
      if blank c then text_values value r
      else match value c, text_values value r with
           | Some v, Some vs => Some (v :: vs)
           | _, _ => None
           end
  end.

(* What Base64.decode accepts: up to the first '=', base 64 digits and blanks,
   then only blanks and '=' characters. *)
Fixpoint before_eq (t : bytes) : bytes :=
  match t with [] => [] | c :: r => if c =? 61 then [] else c :: before_eq r end.
Fixpoint from_eq (t : bytes) : bytes :=
  match t with [] => [] | c :: r => if c =? 61 then t else from_eq r end.
Definition b64_decoded (t : bytes) : option bytes :=
  if forallb (fun c => blank c || (c =? 61)) (from_eq t) then
    match text_values b64_value (before_eq t) with
    | Some vs => b64_bytes vs
    | None => None
    end
  else None.
Definition hex_decoded (t : bytes) : option bytes :=
  match text_values hex_value t with Some vs => hex_bytes vs | None => None end.

(* ---- transducers ---- *)
Definition b64e_group (pend : bytes) : bytes := map b64_char (b64_digits pend).

Definition b64e_mealy (multiline padding : bool) : mealy := {|
  m_st := bytes * Z;   (* at most two pending bytes; column *)
  m_byte := fun s c =>
    let '(pend, col) := s in
    if zlen pend =? 2 then
      if multiline && (col + 4 >=? 72)
      then (([], 0), b64e_group (pend ++ [c]) ++ [10], None)
      else (([], col + 4), b64e_group (pend ++ [c]), None)
    else ((pend ++ [c], col), [], None);
  m_flush := fun s => (s, [], Some (Error Wrong_data_length));
  m_finish := fun s =>
    let '(pend, col) := s in
    ((pend, 0), b64e_group pend ++
       (if multiline || padding then repeat 61 (b64_npad pend) else []) ++
       (if multiline && (col >? 0) then [10] else []), None) |}.

Definition b64d_mealy : mealy := {|
  m_st := list Z * bool;   (* at most three pending digits; '=' or finish seen *)
  m_byte := fun s c =>
    let '(pend, fin) := s in
    if c =? 61 then ((pend, true), [], None)
    else if blank c then (s, [], None)
    else match b64_value c with
         | None => (s, [], Some (Error Bad_encoding))
         | Some v =>
             if fin then (s, [], Some (Error Bad_encoding))
             else match pend with
                  | [a; b; d] => (([], fin), bytes3 (group64 a b d v), None)
                  | _ => ((pend ++ [v], fin), [], None)
                  end
         end;
  m_flush := fun s => (s, [], Some (Error Wrong_data_length));
  m_finish := fun s =>
    let '(pend, fin) := s in
    match b64_bytes pend with
    | None => ((pend, true), [], Some (Error Bad_encoding))
    | Some x => ((pend, true), x, None)
    end |}.

Definition hexe_mealy : mealy := {|
  m_st := unit;
  m_byte := fun s c => (s, [hex_char (c / 16); hex_char (c mod 16)], None);
  m_flush := fun s => (s, [], None);
  m_finish := fun s => (s, [], None) |}.

Definition hexd_mealy : mealy := {|
  m_st := list Z;    (* at most one pending digit *)
  m_byte := fun pend c =>
    if blank c then (pend, [], None)
    else match hex_value c with
         | None => (pend, [], Some (Error Bad_encoding))
         | Some v => match pend with
                     | [] => ([v], [], None)
                     | a :: _ => ([], [a * 16 + v], None)
                     end
         end;
  m_flush := fun pend => match pend with [] => (pend, [], None) | _ => (pend, [], Some (Error Wrong_data_length)) end;
  m_finish := fun pend => match pend with [] => (pend, [], None) | _ => (pend, [], Some (Error Bad_encoding)) end |}.

(* a stateful byte-to-byte function *)
Record streamfn := SF { sf_st : Type; sf_step : sf_st -> Z -> sf_st * Z }.
Fixpoint sf_run (f : streamfn) (s : sf_st f) (l : bytes) : sf_st f * bytes :=
  match l with
  | [] => (s, [])
  | c :: r => let '(s1, x) := sf_step f s c in let '(s2, y) := sf_run f s1 r in (s2, x :: y)
  end.
Definition stream_mealy (f : streamfn) : mealy := {|
  m_st := sf_st f;
  m_byte := fun s c => let '(s1, x) := sf_step f s c in (s1, [x], None);
  m_flush := fun s => (s, [], None);
  m_finish := fun s => (s, [], None) |}.
