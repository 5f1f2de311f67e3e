(* The stream ciphers on memory: arcfour.c, chacha20.c and the transform methods of module Stream, when the source and the
   destination may overlap.  Memory is a map from addresses to bytes, as in MiscModel.v. *)
From Verif Require Import Prelude StreamModel KeccakModel MiscModel SpecAlias.

(* arcfour_encrypt, arcfour.c 38-55, n iterations; s and d: the pointers src and dst *)
Fixpoint arc_mem (n : nat) (st : list Z) (x y : Z) (m : mem) (s d : Z) : list Z * Z * Z * mem :=
  match n with
  | O => (st, x, y, m)
  | S n =>
      let x := Z.land (x + 1) 0xFF in
      let kx := kget st (Z.to_nat x) in
      let y := Z.land (kx + y) 0xFF in
      let ky := kget st (Z.to_nat y) in
      let st := kput st (Z.to_nat x) ky in
      let st := kput st (Z.to_nat y) kx in
      arc_mem n st x y (upd m d (Z.lxor (m s) (kget st (Z.to_nat (Z.land (kx + ky) 0xFF))))) (s + 1) (d + 1)
  end.
(* chacha20_transform, chacha20.c 112-121 *)
Fixpoint chacha_mem (n : nat) (c : chacha) (m : mem) (s d : Z) : chacha * mem :=
  match n with
  | O => (c, m)
  | S n => let (k, c) := cc_byte c in chacha_mem n c (upd m d (Z.lxor (m s) k)) (s + 1) (d + 1)
  end.

(* the test of the two transform methods, cryptokit.ml 1001-1004, 1025-1028; src and dst: the addresses of the two arrays, slen and dlen
   their lengths *)
Definition bad_ranges (slen so dlen d len : Z) : bool :=
  (len <? 0) || (so <? 0) || (so >? slen - len) || (d <? 0) || (d >? dlen - len).
(* arcfour#transform src so dst d len *)
Definition arc_transform_mem (k : arc) (m : mem) (src slen so dst dlen d len : Z) : arc * mem * out unit :=
  if bad_ranges slen so dlen d len then (k, m, Raise Invalid_argument) else
  let '(st, x, y, m) := arc_mem (Z.to_nat len) (arc_state k) (arc_x k) (arc_y k) m (src + so) (dst + d) in (Arc st x y, m, Ret tt).
(* chacha20#transform src so dst d len *)
Definition chacha_transform_mem (c : chacha) (m : mem) (src slen so dst dlen d len : Z) : chacha * mem * out unit :=
  if bad_ranges slen so dlen d len then (c, m, Raise Invalid_argument) else
  let (c, m) := chacha_mem (Z.to_nat len) c m (src + so) (dst + d) in (c, m, Ret tt).

(* sequences of calls *)
Section Calls.
Variable K : Type.
Variable tr : K -> mem -> Z -> Z -> Z -> Z -> Z -> Z -> Z -> K * mem * out unit.
Fixpoint mem_calls (k : K) (m : mem) (cs : list mcall) : list (out unit) * mem :=
  match cs with
  | [] => ([], m)
  | c :: cs =>
      let '(k, m, r) := tr k m (mc_src c) (mc_slen c) (mc_sofs c) (mc_dst c) (mc_dlen c) (mc_dofs c) (mc_len c) in
      let t := mem_calls k m cs in (r :: fst t, snd t)
  end.
End Calls.
Definition arc_calls := mem_calls arc arc_transform_mem.
Definition chacha_calls := mem_calls chacha chacha_transform_mem.
