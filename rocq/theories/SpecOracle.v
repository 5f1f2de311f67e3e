(* Vocabulary for C112: what an observer computes who is only told whether a padding is right. *)
From Verif Require Import Prelude SpecBlock TransformModel BlockModel CipherModel CipherSpec SpecPadding.

(* n bytes: zeros, the last one being a *)
Definition front (n : nat) (a : Z) : bytes := match n with O => [] | S n => repeat 0 n ++ [a] end.
(* the bytes 0 to 255 *)
Definition all_bytes : list Z := map Z.of_nat (seq 0 256).

(* the padding of k bytes: its first byte and the others *)
Definition pad_first (p : padding) (k : Z) : Z := match p with PLength => k | P8000 => 128 end.
Definition pad_rest (p : padding) (k : Z) : Z := match p with PLength => k | P8000 => 0 end.
Definition padded (p : padding) : bytes -> bytes -> Prop := match p with PLength => length_padded | P8000 => zeros_padded end.

(* [oracle v]: a secret block of B bytes, xored with v, is padded correctly.  The last bytes of the
   secret block being known, the byte before them: choose v such that the known bytes become a
   padding without its first byte and try all values for the byte before, with two values of the
   byte in front of that. *)
Definition next_byte (p : padding) (oracle : bytes -> bool) (B : nat) (known : bytes) : Z :=
  let k := Z.of_nat (S (length known)) in
  let v a x := front (B - S (length known)) a ++ [x] ++ map (fun y => Z.lxor y (pad_rest p k)) known in
  match find (fun x => oracle (v 0 x) && oracle (v 1 x)) all_bytes with
  | Some x => Z.lxor x (pad_first p k)
  | None => 0
  end.
Fixpoint more_bytes (p : padding) (oracle : bytes -> bool) (B n : nat) (known : bytes) : bytes :=
  match n with O => known | S n => more_bytes p oracle B n (next_byte p oracle B known :: known) end.
Definition secret_block (p : padding) (oracle : bytes -> bool) (B : nat) : bytes := more_bytes p oracle B B [].

(* the text of a CBC ciphertext; prev: the block before.  [oracle v c]: block c, decrypted with IV v,
   is padded correctly *)
Fixpoint all_text (p : padding) (oracle : bytes -> bytes -> bool) (B : nat) (prev : bytes) (C : list bytes) : bytes :=
  match C with
  | [] => []
  | c :: C => xorb (secret_block p (fun v => oracle v c) B) prev ++ all_text p oracle B c C
  end.

(* what the observer is told: whether decryption (CBC, padding p) of c with IV v raises
   Error Bad_padding *)
Definition padding_oracle (fresh : Z -> bytes) (nb : dir -> bytes -> out bobj) (key : bytes) (p : padding) (v c : bytes) : bool :=
  match make_cipher fresh nb (Some CBC) (Some (scheme_of p)) (Some v) key Decrypt with
  | Ret o => match run_string o c with Raise (Error Bad_padding) => false | _ => true end
  | _ => false
  end.
