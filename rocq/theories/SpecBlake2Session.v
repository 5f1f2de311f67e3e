(* BLAKE2 objects that are given more data after result, over the functions of
   RFC 7693. *)
From Verif Require Import Prelude BytesNum SpecBlock SpecHash SpecBlake2.

(* h is the chain value, t the count, d the data after them.  A result
   compresses the blocks of d, the last one as a last block; this block stays,
   to be compressed once more, with its bytes counted once more. *)
Fixpoint b2_session (P : blake2) (nn : Z) (h : list Z) (t : Z) (d : bytes) (l : list bytes) : list bytes :=
  match l with
  | [] => []
  | x :: l =>
      let d := d ++ x in
      let blks := match d with [] => [[]] | _ => chunks (b_bb P) d end in
      let h := b_F P (b_blocks P h t (removelast blks)) (b_pad P (last blks [])) (t + zlen d) true in
      firstn (Z.to_nat nn) (concat (map (to_le (Z.to_nat (b_n P))) h)) :: b2_session P nn h (t + zlen d) (last blks []) l
  end.
Definition blake2_session (P : blake2) (nn : Z) (key : bytes) (l : list bytes) : list bytes :=
  let h0 := match b_IV P with
            | h :: l => Z.lxor (Z.lxor (Z.lxor h 0x01010000) (Z.shiftl (zlen key) 8)) nn :: l
            | [] => [] end in
  b2_session P nn h0 0 (b_data P key []) l.
