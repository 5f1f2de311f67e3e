(* Results of a BLAKE2 object called again, over the functions of RFC 7693. *)
From Verif Require Import Prelude BytesNum SpecBlock SpecHash SpecBlake2.

(* each call compresses the last block once more as a last block, and counts
   its bytes once more *)
Definition blake2_results (P : blake2) (nn : Z) (key msg : bytes) (k : nat) : bytes :=
  let d := b_data P key msg in
  let blks := match d with [] => [[]] | _ => chunks (b_bb P) d end in
  let h0 := match b_IV P with
            | h :: l => Z.lxor (Z.lxor (Z.lxor h 0x01010000) (Z.shiftl (zlen key) 8)) nn :: l
            | [] => [] end in
  let lastb := last blks [] in
  let h := fold_left (fun h j => b_F P h (b_pad P lastb) (zlen d + Z.of_nat j * zlen lastb) true) (seq 0 (S k)) (b_blocks P h0 0 (removelast blks)) in
  firstn (Z.to_nat nn) (concat (map (to_le (Z.to_nat (b_n P))) h)).
