(* C80: source and destination of stream ciphers sharing memory. *)
From Verif Require Import Prelude BytesNum CipherModel SpecStream StreamModel StreamObj Rc4 Chacha SpecAlias AliasModel Alias Toy.

(* C80.  Calls of transform on any arrays of one memory, valid or not: the outcomes, and the memory afterwards, are those of a
   cipher that reads the whole source before it writes ([mem_history]), if no destination begins inside its source after its first
   byte; in place, disjoint and backward-overlapping calls are covered *)
Theorem C80_arcfour_partial : forall key cs m, 1 <= zlen key <= 256 -> (forall i, byte_ok (m i)) -> Forall no_forward_overlap cs ->
  fst (arc_calls (arcfour_cook_key key) m cs) = fst (mem_history (rc4 key) 0 m cs) /\
  forall i, snd (arc_calls (arcfour_cook_key key) m cs) i = snd (mem_history (rc4 key) 0 m cs) i.
Proof. exact arc_alias. Qed.
Print Assumptions C80_arcfour_partial.
Theorem C80_chacha20_partial : forall fresh iv ctr key cs m, chacha_args iv ctr key -> (forall i, byte_ok (m i)) -> Forall no_forward_overlap cs ->
  fst (chacha_calls (chacha20_init fresh key (iv_of iv) ctr) m cs) = fst (mem_history (chacha20 key ctr (iv_of iv)) 0 m cs) /\
  forall i, snd (chacha_calls (chacha20_init fresh key (iv_of iv) ctr) m cs) i = snd (mem_history (chacha20 key ctr (iv_of iv)) 0 m cs) i.
Proof. exact chacha_alias. Qed.
Print Assumptions C80_chacha20_partial.
(* with a destination that begins inside the source, ciphertext is encrypted again *)
Theorem C80_arcfour_refuted : exists key m c, 1 <= zlen key <= 256 /\ mcall_valid c = true /\ mc_dst c = mc_src c /\
  exists i, snd (arc_calls (arcfour_cook_key key) m [c]) i <> snd (mem_history (rc4 key) 0 m [c]) i.
Proof. exact arc_forward. Qed.
Print Assumptions C80_arcfour_refuted.
Theorem C80_chacha20_refuted : exists key m c, zlen key = 32 /\ mcall_valid c = true /\ mc_dst c = mc_src c /\
  exists i, snd (chacha_calls (chacha20_init zeros key (zeros 8) 0) m [c]) i <> snd (mem_history (chacha20 key 0 (zeros 8)) 0 m [c]) i.
Proof. exact chacha_forward. Qed.
Print Assumptions C80_chacha20_refuted.
(* "Plaintext" at address 100, key "Key": in place, first 4 bytes, then a call out of range, then 5 bytes moved two places back; RC4
   gives bb f3 16 e8 d9 40 af 0a d3 *)
Example C80_case :
  let m := fun i => if (100 <=? i) && (i <? 109) then nth (Z.to_nat (i - 100)) [0x50; 0x6c; 0x61; 0x69; 0x6e; 0x74; 0x65; 0x78; 0x74] 0 else 0 in
  let cs := [MCall 100 9 0 100 9 0 4; MCall 100 9 5 100 9 0 5; MCall 100 9 4 100 9 2 5] in
  Forall no_forward_overlap cs /\
  fst (arc_calls (arcfour_cook_key [0x4b; 0x65; 0x79]) m cs) = [Ret tt; Raise Invalid_argument; Ret tt] /\
  range (snd (arc_calls (arcfour_cook_key [0x4b; 0x65; 0x79]) m cs)) 100 9 = [0xbb; 0xf3; 0xd9; 0x40; 0xaf; 0x0a; 0xd3; 0x78; 0x74].
Proof. cbn zeta. split; [repeat (apply Forall_cons; [left; cbn; lia|]); apply Forall_nil|]. split; vm_compute; reflexivity. Qed.
