(* Specification of BLAKE3 (the BLAKE3 paper, section 2): the tree over the
   whole input, by recursion on the input.  Independent of the cryptokit
   model. *)
From Verif Require Import Prelude BytesNum SpecBlock Word SpecHash SpecBlake2.

(* domain flags, table 3 *)
Definition F_CHUNK_START := 1.
Definition F_CHUNK_END := 2.
Definition F_PARENT := 4.
Definition F_ROOT := 8.
Definition F_KEYED_HASH := 16.

(* table 2: message word permutation *)
Definition b3_perm : list nat := [2; 6; 3; 10; 7; 0; 4; 13; 1; 11; 12; 5; 9; 14; 15; 8]%nat.
Definition b3_permute (m : list Z) : list Z := map (fun i => nth i m 0) b3_perm.
(* 2.2: seven rounds, each the round of BLAKE2s with the message words in
   order, the words being permuted between rounds *)
Fixpoint b3_rounds (n : nat) (m v : list Z) : list Z :=
  match n with
  | O => v
  | S n => b3_rounds n (b3_permute m) (b_round blake2s_params m v 0)
  end.
Definition b3_iv (i : nat) : Z := nth i (b_IV blake2s_params) 0.
Definition b3_compress (h : list Z) (blk : bytes) (len t flags : Z) : list Z :=
  let v := h ++ [b3_iv 0; b3_iv 1; b3_iv 2; b3_iv 3; t mod 2 ^ 32; (t / 2 ^ 32) mod 2 ^ 32; len; flags] in
  let v := b3_rounds 7 (le_words 4 blk) v in
  map (fun i => Z.lxor (nth i v 0) (nth (i + 8) v 0)) (seq 0 8) ++
  map (fun i => Z.lxor (nth (i + 8) v 0) (nth i h 0)) (seq 0 8).

(* a node: everything its compression takes, but the ROOT flag *)
Record node := Node { nd_cv : list Z; nd_block : bytes; nd_len : Z; nd_t : Z; nd_flags : Z }.
(* its chaining value: words, bytes *)
Definition node_words (n : node) : list Z := firstn 8 (b3_compress (nd_cv n) (nd_block n) (nd_len n) (nd_t n) (nd_flags n)).
Definition node_cv (n : node) : bytes := concat (map (to_le 4) (node_words n)).
(* 2.6: extendable output of the root *)
Definition root_block (n : node) (i : nat) : bytes :=
  concat (map (to_le 4) (b3_compress (nd_cv n) (nd_block n) (nd_len n) (Z.of_nat i) (Z.lor (nd_flags n) F_ROOT))).
Definition root_output (n : node) (len : nat) : bytes :=
  firstn len (concat (map (root_block n) (seq 0 ((len + 63) / 64)))).

Section Tree.
Variable key : list Z.
Variable flags : Z.

(* 2.4: the blocks of chunk t; the last one padded with zeros *)
Definition b3_pad (b : bytes) : bytes := b ++ zeros (64 - zlen b).
Fixpoint b3_blocks (t : Z) (cv : list Z) (start : Z) (blks : list bytes) : node :=
  match blks with
  | [] => Node cv (zeros 64) 0 t 0
  | [b] => Node cv (b3_pad b) (zlen b) t (Z.lor (Z.lor flags start) F_CHUNK_END)
  | b :: blks => b3_blocks t (node_words (Node cv b 64 t (Z.lor flags start))) 0 blks
  end.
Definition chunk_node (t : Z) (c : bytes) : node :=
  b3_blocks t key F_CHUNK_START (match c with [] => [[]] | _ => chunks 64 c end).
(* 2.5 *)
Definition parent_node (l r : node) : node := Node key (node_cv l ++ node_cv r) 64 0 (Z.lor flags F_PARENT).
(* 2.1: the left subtree gets the largest power of two of chunks that leaves
   at least one byte to the right; t: index of the first chunk *)
Definition left_bytes (len : Z) : Z := 2 ^ Z.log2 ((len - 1) / 1024) * 1024.
Fixpoint tree (fuel : nat) (t : Z) (m : bytes) : node :=
  match fuel with
  | O => chunk_node t m
  | S f =>
      if zlen m <=? 1024 then chunk_node t m else
      let n := left_bytes (zlen m) in
      parent_node (tree f t (firstn (Z.to_nat n) m)) (tree f (t + n / 1024) (skipn (Z.to_nat n) m))
  end.
Definition b3_root (m : bytes) : node := tree (length m) 0 m.
End Tree.

(* digests of len bytes; keyed if the key is not empty *)
Definition blake3_spec (key : bytes) (len : Z) (m : bytes) : bytes :=
  let root := match key with
              | [] => b3_root (b_IV blake2s_params) 0 m
              | _ => b3_root (le_words 4 key) F_KEYED_HASH m
              end in
  root_output root (Z.to_nat len).
