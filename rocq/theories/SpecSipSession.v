(* SipHash objects that are given more data after result, over the functions of
   the paper. *)
From Verif Require Import Prelude BytesNum SpecBlock SpecHash SpecMac SpecSipAgain.

(* the data not yet in the state, filled up to a word with the count of all the data given *)
Definition sip_fill (t : bytes) (n : Z) : bytes := t ++ zeros ((- (zlen t + 1)) mod 8) ++ [n mod 256].
(* v is the state, t the data after its last whole word, n the count *)
Fixpoint sip_session (long : bool) (v : sip_state) (t : bytes) (n : Z) (l : list bytes) : list bytes :=
  match l with
  | [] => []
  | x :: l =>
      let d := t ++ x in
      let r := sip_end long (fold_left sip_compress (le_words 8 (sip_fill d (n + zlen x))) v) in
      snd r :: sip_session long (fst r) (skipn (Z.to_nat (zlen d / 8 * 8)) d) (n + zlen x) l
  end.
Definition siphash_session (long : bool) (key : bytes) (l : list bytes) : list bytes :=
  let '(a, b, c, d) := sip_init key in sip_session long (a, if long then Z.lxor b 0xee else b, c, d) [] 0 l.
