(* The calls of the compression function of BLAKE2 and of BLAKE3; what HMAC hashes. *)
From Verif Require Import Prelude BytesNum SpecBlock SpecHash SpecBlake2 SpecBlake3 SpecMac.

(* BLAKE2: one call takes a block, the number of bytes so far (on two words) and whether this is the last block *)
Definition b2_step (P : blake2) (h : list Z) (c : bytes * Z * bool) : list Z := let '(blk, t, last) := c in b_F P h blk t last.
Fixpoint b2_from (P : blake2) (total t : Z) (blks : list bytes) : list (bytes * Z * bool) :=
  match blks with
  | [] => []
  | [b] => [(b ++ zeros (b_bb P - zlen b), total mod 2 ^ (2 * b_w P), true)]
  | b :: blks => (b, (t + b_bb P) mod 2 ^ (2 * b_w P), false) :: b2_from P total (t + b_bb P) blks
  end.
Definition b2_calls (P : blake2) (key msg : bytes) : list (bytes * Z * bool) :=
  let d := b_data P key msg in
  b2_from P (zlen d) 0 (match d with [] => [[]] | _ => chunks (b_bb P) d end).
(* RFC 7693, section 3.3: the initial state for a digest of nn bytes *)
Definition b2_init (P : blake2) (key : bytes) (nn : Z) : list Z :=
  match b_IV P with
  | h :: l => Z.lxor (Z.lxor (Z.lxor h 0x01010000) (Z.shiftl (zlen key) 8)) nn :: l
  | [] => [] end.

(* BLAKE3: the nodes of the tree over m, root last; every node but the root is compressed to its chaining value *)
Section Tree.
Variable key : list Z.
Variable flags : Z.
Fixpoint b3_block_nodes (t : Z) (cv : list Z) (start : Z) (blks : list bytes) : list node :=
  match blks with
  | [] => []
  | [b] => [Node cv (b3_pad b) (zlen b) t (Z.lor (Z.lor flags start) F_CHUNK_END)]
  | b :: blks => let n := Node cv b 64 t (Z.lor flags start) in n :: b3_block_nodes t (node_words n) 0 blks
  end.
Fixpoint b3_nodes (fuel : nat) (t : Z) (m : bytes) : list node :=
  let chunk := b3_block_nodes t key F_CHUNK_START (match m with [] => [[]] | _ => chunks 64 m end) in
  match fuel with
  | O => chunk
  | S f =>
      if zlen m <=? 1024 then chunk else
      let n := left_bytes (zlen m) in
      b3_nodes f t (firstn (Z.to_nat n) m) ++ b3_nodes f (t + n / 1024) (skipn (Z.to_nat n) m) ++ [tree key flags fuel t m]
  end.
End Tree.
(* the key words and flags for a key, empty for the plain hash *)
Definition b3_key (key : bytes) : list Z := match key with [] => b_IV blake2s_params | _ => le_words 4 key end.
Definition b3_flags (key : bytes) : Z := match key with [] => 0 | _ => F_KEYED_HASH end.
Definition b3_all (key m : bytes) : list node := b3_nodes (b3_key key) (b3_flags key) (length m) 0 m.
(* two different nodes, but roots, with the same chaining value; two different roots with the same len bytes of output *)
Definition b3_collision (l1 l2 : list node) : Prop :=
  exists n1 n2, In n1 (removelast l1) /\ In n2 (removelast l2) /\ n1 <> n2 /\ node_cv n1 = node_cv n2.
Definition b3_root_collision (len : nat) (l1 l2 : list node) : Prop :=
  exists p1 p2 n1 n2, l1 = p1 ++ [n1] /\ l2 = p2 ++ [n2] /\ n1 <> n2 /\ root_output n1 len = root_output n2 len.

(* HMAC: the two strings hashed *)
Definition hmac_inner (d : bytes -> bytes) (B : Z) (key m : bytes) : bytes := xorb (hmac_key d B key) (repeat 0x36 (Z.to_nat B)) ++ m.
Definition hmac_outer (d : bytes -> bytes) (B : Z) (key m : bytes) : bytes := xorb (hmac_key d B key) (repeat 0x5C (Z.to_nat B)) ++ d (hmac_inner d B key m).
