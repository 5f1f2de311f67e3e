(* How far a change of the ciphertext spreads in the decrypted text: C103. *)
From Verif Require Import Prelude SpecTransducer SpecBlock SpecModes TransformModel CipherModel CipherSpec CipherApi EncModel EncApi SpecSpread Spread Toy.

(* C103.  Block j of the decrypted text depends only on block j of the ciphertext and the
   [reach] blocks before it (and on the IV). *)
Theorem C103_local : forall fresh, (forall n, 0 <= n -> zlen (fresh n) = n) ->
  forall nb key bs E D m iv o c c' r r' j, block_family nb key bs E D -> mode_ok bs m -> iv_ok bs m iv ->
  make_cipher fresh nb (Some m) None iv key Decrypt = Ret o -> let n := mode_bs bs m in
  bytes_ok c -> bytes_ok c' -> zlen c = zlen c' -> zlen c + 3 * n <= max_string_length -> zlen c mod n = 0 -> run_string o c = Ret r -> run_string o c' = Ret r' ->
  0 <= j -> n * (j + 1) <= zlen c -> (forall i, Z.max 0 (j - reach bs m) <= i <= j -> block_at n c i = block_at n c' i) ->
  block_at n r j = block_at n r' j.
Proof. exact decrypt_local. Qed.
Print Assumptions C103_local.
(* ECB, CBC, CFB: after [reach] whole blocks the decrypted text is right again, whatever came
   before (other IV, blocks changed, lost or inserted) *)
Theorem C103_resync : forall fresh, (forall n, 0 <= n -> zlen (fresh n) = n) ->
  forall nb key bs E D m iv iv' o o' a a' t r r' j, block_family nb key bs E D -> forgets m -> mode_ok bs m -> iv_ok bs m iv -> iv_ok bs m iv' ->
  make_cipher fresh nb (Some m) None iv key Decrypt = Ret o -> make_cipher fresh nb (Some m) None iv' key Decrypt = Ret o' -> let n := mode_bs bs m in
  bytes_ok a -> bytes_ok a' -> bytes_ok t -> zlen (a ++ t) + 3 * n <= max_string_length -> zlen (a' ++ t) + 3 * n <= max_string_length ->
  zlen a mod n = 0 -> zlen a' mod n = 0 -> zlen t mod n = 0 -> run_string o (a ++ t) = Ret r -> run_string o' (a' ++ t) = Ret r' ->
  reach bs m <= j -> n * (j + 1) <= zlen t -> block_at n r (zlen a / n + j) = block_at n r' (zlen a' / n + j).
Proof. exact decrypt_resync. Qed.
Print Assumptions C103_resync.
(* CBC: bits changed in one block of ciphertext are changed in the next block of text *)
Theorem C103_cbc_flip : forall fresh, (forall n, 0 <= n -> zlen (fresh n) = n) ->
  forall nb key bs E D iv o c c' r r' j, block_family nb key bs E D -> iv_ok bs CBC iv ->
  make_cipher fresh nb (Some CBC) None iv key Decrypt = Ret o ->
  bytes_ok c -> bytes_ok c' -> zlen c = zlen c' -> zlen c + 3 * bs <= max_string_length -> zlen c mod bs = 0 -> run_string o c = Ret r -> run_string o c' = Ret r' ->
  1 <= j -> bs * (j + 1) <= zlen c -> block_at bs c j = block_at bs c' j ->
  xorb (block_at bs r j) (block_at bs r' j) = xorb (block_at bs c (j - 1)) (block_at bs c' (j - 1)).
Proof. exact cbc_flip. Qed.
Print Assumptions C103_cbc_flip.
(* CBC: bits changed in the IV are changed in the first block of text, and nowhere else *)
Theorem C103_cbc_flip_iv : forall fresh, (forall n, 0 <= n -> zlen (fresh n) = n) ->
  forall nb key bs E D v v' o o' c r r', block_family nb key bs E D -> zlen v = bs -> zlen v' = bs -> bytes_ok v -> bytes_ok v' ->
  make_cipher fresh nb (Some CBC) None (Some v) key Decrypt = Ret o -> make_cipher fresh nb (Some CBC) None (Some v') key Decrypt = Ret o' ->
  bytes_ok c -> zlen c + 3 * bs <= max_string_length -> zlen c mod bs = 0 -> run_string o c = Ret r -> run_string o' c = Ret r' -> bs <= zlen c ->
  xorb (block_at bs r 0) (block_at bs r' 0) = xorb v v' /\ forall j, 1 <= j -> bs * (j + 1) <= zlen c -> block_at bs r j = block_at bs r' j.
Proof. exact cbc_flip_iv. Qed.
Print Assumptions C103_cbc_flip_iv.
(* CFB: bits changed in one block of ciphertext, the earlier ones being the same, are changed
   in that block of text *)
Theorem C103_cfb_flip : forall fresh, (forall n, 0 <= n -> zlen (fresh n) = n) ->
  forall nb key bs E D n iv o c c' r r' j, block_family nb key bs E D -> 0 < n <= bs -> iv_ok bs (CFB n) iv ->
  make_cipher fresh nb (Some (CFB n)) None iv key Decrypt = Ret o ->
  bytes_ok c -> bytes_ok c' -> zlen c = zlen c' -> zlen c + 3 * n <= max_string_length -> zlen c mod n = 0 -> run_string o c = Ret r -> run_string o c' = Ret r' ->
  0 <= j -> n * (j + 1) <= zlen c -> (forall i, 0 <= i < j -> block_at n c i = block_at n c' i) ->
  xorb (block_at n r j) (block_at n r' j) = xorb (block_at n c j) (block_at n c' j).
Proof. exact cfb_flip. Qed.
Print Assumptions C103_cfb_flip.
(* a cipher of 4-byte blocks.  CBC: the first byte of block 0 changed by 255: block 0 and one
   byte of block 1 change, block 2 does not.  CFB with 3-byte chunks (reach 2): chunk 0
   changes by the same bits, chunk 1 also changes, chunk 3 cannot. *)
Example C103_case :
  match make_cipher toy_fresh toy_block (Some CBC) None (Some [9; 8; 7; 6]) [17; 34; 51; 68] Decrypt with
  | Ret o => match run_string o [1; 2; 3; 4; 5; 6; 7; 8; 10; 11; 12; 13], run_string o [254; 2; 3; 4; 5; 6; 7; 8; 10; 11; 12; 13] with
             | Ret r, Ret r' => xorb r r' = [0; 0; 0; 255; 255; 0; 0; 0; 0; 0; 0; 0]
             | _, _ => False
             end
  | _ => False
  end /\ reach 4 (CFB 3) = 2 /\
  match make_cipher toy_fresh toy_block (Some (CFB 3)) None (Some [9; 8; 7; 6]) [17; 34; 51; 68] Decrypt with
  | Ret o => match run_string o [1; 2; 3; 4; 5; 6; 7; 8; 9; 10; 11; 12], run_string o [1; 2; 252; 4; 5; 6; 7; 8; 9; 10; 11; 12] with
             | Ret r, Ret r' => xorb r r' = [0; 0; 255; 255; 0; 0; 0; 0; 0; 0; 0; 0]
             | _, _ => False
             end
  | _ => False
  end.
Proof. vm_compute. auto. Qed.
