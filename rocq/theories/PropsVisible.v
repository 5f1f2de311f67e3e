(* C113: what the ciphertexts of two messages tell about the messages. *)
From Verif Require Import Prelude SpecBlock SpecModes TransformModel BlockModel CipherModel CipherSpec CipherApi Toy Visible.

(* every mode, the same key and IV (an omitted IV is zero): the ciphertexts agree exactly as far as the
   messages do *)
Theorem C113_prefix : forall fresh, (forall n, 0 <= n -> zlen (fresh n) = n) ->
  forall nb key bs E D m iv X1 X2, block_family nb key bs E D -> mode_ok bs (dmode m) -> iv_ok bs (dmode m) iv ->
  let b := mode_bs bs (dmode m) in blocks_ok b X1 -> blocks_ok b X2 ->
  zlen (concat X1) + 3 * b <= max_string_length -> zlen (concat X2) + 3 * b <= max_string_length ->
  within_limit bs (dmode m) (zlen X1) -> within_limit bs (dmode m) (zlen X2) ->
  exists o Y1 Y2, make_cipher fresh nb m None iv key Encrypt = Ret o /\
    run_string o (concat X1) = Ret (concat Y1) /\ run_string o (concat X2) = Ret (concat Y2) /\ blocks_ok b Y1 /\ blocks_ok b Y2 /\
    forall j, firstn j Y1 = firstn j Y2 <-> firstn j X1 = firstn j X2.
Proof. exact common_prefix. Qed.
Print Assumptions C113_prefix.
(* ECB: blocks of the ciphertexts are equal exactly if the blocks of the messages are *)
Theorem C113_ecb : forall fresh, (forall n, 0 <= n -> zlen (fresh n) = n) ->
  forall nb key bs E D X1 X2, block_family nb key bs E D -> blocks_ok bs X1 -> blocks_ok bs X2 ->
  zlen (concat X1) + 3 * bs <= max_string_length -> zlen (concat X2) + 3 * bs <= max_string_length ->
  exists o Y1 Y2, make_cipher fresh nb (Some ECB) None None key Encrypt = Ret o /\
    run_string o (concat X1) = Ret (concat Y1) /\ run_string o (concat X2) = Ret (concat Y2) /\ blocks_ok bs Y1 /\ blocks_ok bs Y2 /\
    forall i j, (i < length X1)%nat -> (j < length X2)%nat -> (blk Y1 i = blk Y2 j <-> blk X1 i = blk X2 j).
Proof. exact ecb_blocks. Qed.
Print Assumptions C113_ecb.
(* CBC, any two IVs: two equal blocks of ciphertext reveal the xor of two blocks of the messages, and
   appear exactly if the xor is that of the ciphertext blocks before them *)
Theorem C113_cbc : forall fresh, (forall n, 0 <= n -> zlen (fresh n) = n) ->
  forall nb key bs E D iv1 iv2 X1 X2, block_family nb key bs E D ->
  zlen iv1 = bs -> bytes_ok iv1 -> zlen iv2 = bs -> bytes_ok iv2 -> blocks_ok bs X1 -> blocks_ok bs X2 ->
  zlen (concat X1) + 3 * bs <= max_string_length -> zlen (concat X2) + 3 * bs <= max_string_length ->
  exists o1 o2 Y1 Y2, make_cipher fresh nb (Some CBC) None (Some iv1) key Encrypt = Ret o1 /\
    make_cipher fresh nb (Some CBC) None (Some iv2) key Encrypt = Ret o2 /\
    run_string o1 (concat X1) = Ret (concat Y1) /\ run_string o2 (concat X2) = Ret (concat Y2) /\ blocks_ok bs Y1 /\ blocks_ok bs Y2 /\
    forall i j, (i < length X1)%nat -> (j < length X2)%nat ->
      (blk Y1 i = blk Y2 j <-> xorb (blk X1 i) (blk X2 j) = xorb (blk (iv1 :: Y1) i) (blk (iv2 :: Y2) j)).
Proof. exact cbc_blocks. Qed.
Print Assumptions C113_cbc.

(* the default mode and IV: messages that agree in one block of two; and CBC with two IVs where the
   second block of one ciphertext is the first of the other *)
Example C113_case : block_family toy_block [17; 34; 51; 68] 4 (toy_E [17; 34; 51; 68]) (toy_D [17; 34; 51; 68]) /\ exists o o2,
  make_cipher toy_fresh toy_block None None None [17; 34; 51; 68] Encrypt = Ret o /\
  run_string o [1; 2; 3; 4; 5; 6; 7; 8] = Ret [21; 33; 49; 69; 92; 20; 20; 84] /\
  run_string o [1; 2; 3; 4; 5; 6; 7; 9] = Ret [21; 33; 49; 69; 93; 20; 20; 84] /\
  make_cipher toy_fresh toy_block (Some CBC) None (Some [20; 33; 49; 69]) [17; 34; 51; 68] Encrypt = Ret o2 /\
  run_string o2 [4; 6; 7; 8] = Ret [92; 20; 20; 84].
Proof.
  split; [apply toy_family; [reflexivity|repeat constructor; unfold byte_ok; lia]|].
  eexists _, _. split; [reflexivity|]. do 2 (split; [vm_compute; reflexivity|]). split; [reflexivity|]. vm_compute. reflexivity.
Qed.
