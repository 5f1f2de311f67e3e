(* C63, C64, C65: comparison and xor. *)
From Verif Require Import Prelude MiscModel Misc.

Theorem C63_string_equal : forall s1 s2, exists b, snd (seq_equal s1 s2) = Ret b /\ (b = true <-> s1 = s2).
Proof. exact seq_equal_ok. Qed.
Print Assumptions C63_string_equal.
Example C63_case : snd (seq_equal [1; 2; 3] [1; 2; 3]) = Ret true /\ snd (seq_equal [1; 2; 3] [1; 2; 7]) = Ret false /\
  snd (seq_equal [1; 2] [1; 2; 7]) = Ret false.
Proof. repeat split; reflexivity. Qed.

(* the accesses, in order, are a function of the two lengths *)
Theorem C64_constant_time : forall s1 s2 t1 t2, zlen s1 = zlen t1 -> zlen s2 = zlen t2 ->
  fst (seq_equal s1 s2) = fst (seq_equal t1 t2).
Proof. exact seq_equal_constant_time. Qed.
Print Assumptions C64_constant_time.
Example C64_case : fst (seq_equal [9; 2] [1; 2]) = [(false, 0); (true, 0); (false, 1); (true, 1)] /\
  fst (seq_equal [1; 2] [1; 2]) = [(false, 0); (true, 0); (false, 1); (true, 1)].
Proof. split; reflexivity. Qed.

(* Two strings at addresses src and dst, disjoint; or the same range of the
   same string. *)
Theorem C65_xor_disjoint : forall m src slen so dst dlen d len, mem_ok m -> 0 <= slen -> 0 <= dlen ->
  0 <= len -> 0 <= so -> so + len <= slen -> 0 <= d -> d + len <= dlen ->
  (src + slen <= dst \/ dst + dlen <= src \/ src + so = dst + d) ->
  exists m', api_xor m src slen so dst dlen d len = (m', Ret tt) /\
    (forall i, 0 <= i < len -> m' (dst + d + i) = Z.lxor (m (dst + d + i)) (m (src + so + i))) /\
    (forall a, ~ (dst + d <= a < dst + d + len) -> m' a = m a).
Proof. exact api_xor_disjoint. Qed.
Print Assumptions C65_xor_disjoint.

(* Any two ranges, overlapping or not: the result is that of the plain
   left-to-right byte loop (so the word-wise code gives the same result), and
   bad ranges are refused. [xored]: each byte of the destination is xored with
   the source byte, as it is after the call if the source starts below the
   destination, as it was before otherwise. *)
Theorem C65_xor_any : forall m src slen so dst dlen d len, mem_ok m -> 0 <= slen -> 0 <= dlen ->
  (0 <= len /\ 0 <= so /\ so + len <= slen /\ 0 <= d /\ d + len <= dlen ->
   exists m', api_xor m src slen so dst dlen d len = (m', Ret tt) /\ xored m m' (src + so) (dst + d) len) /\
  (~ (0 <= len /\ 0 <= so /\ so + len <= slen /\ 0 <= d /\ d + len <= dlen) ->
   api_xor m src slen so dst dlen d len = (m, Raise Invalid_argument)).
Proof. exact api_xor_ok. Qed.
Print Assumptions C65_xor_any.
(* 70 bytes, same alignment: all three loops run; and an overlapping case *)
Example C65_case :
  let m := fun a => a mod 256 in
  let r := api_xor m 1003 100 0 2003 80 8 70 in
  snd r = Ret tt /\ map (fst r) [2010; 2011; 2012; 2080; 2081] = [2010 mod 256; Z.lxor (2011 mod 256) (1003 mod 256); Z.lxor (2012 mod 256) (1004 mod 256);
    Z.lxor (2080 mod 256) (1072 mod 256); 2081 mod 256] /\
  map (fst (api_xor m 1000 100 0 1000 100 8 80)) [1007; 1008; 1016; 1024] =
    [1007 mod 256; 24; 224; 224] /\
  snd (api_xor m 1000 100 0 2000 80 8 73) = Raise Invalid_argument.
Proof. vm_compute. repeat split; reflexivity. Qed.
