(* Properties of the two arithmetic primitives of authenticated encryption:
   Poly1305 (C40) and GHASH (C41, C42). *)
From Verif Require Import Prelude BytesNum Word SpecBlock SpecPoly PolyModel Poly SpecGhash GhashModel AesField Ghash Pclmul.

(* C40.  [w n x] is what the machine gives for a sum or product x of the code in an
   unsigned type of n bits.  The code computes the tag for every w that is right on the
   results that fit, whatever it does on the others: no such result overflows.  The
   pieces are (buffer, offset, length). *)
Theorem C40_poly1305_64 : forall w, (forall n x, 0 <= x < 2 ^ n -> w n x = x) ->
  forall (fresh : Z -> bytes) key ps,
  32 <= zlen key -> bytes_ok key -> zlen (fresh 16) = 16 -> Forall piece_ok ps ->
  poly_run (poly64 w) fresh key ps = Ret (poly1305 key (concat (map piece_data ps))).
Proof. exact poly64_run_ok. Qed.
Print Assumptions C40_poly1305_64.
Theorem C40_poly1305_32 : forall w, (forall n x, 0 <= x < 2 ^ n -> w n x = x) ->
  forall (fresh : Z -> bytes) key ps,
  32 <= zlen key -> bytes_ok key -> zlen (fresh 16) = 16 -> Forall piece_ok ps ->
  poly_run (poly32 w) fresh key ps = Ret (poly1305 key (concat (map piece_data ps))).
Proof. exact poly32_run_ok. Qed.
Print Assumptions C40_poly1305_32.
(* wrapping machine arithmetic is such a w *)
Theorem C40_machine : forall n x, 0 <= x < 2 ^ n -> mach n x = x.
Proof. exact mach_fits. Qed.
Print Assumptions C40_machine.

(* key of RFC 8439 2.5.2, 34 bytes in three pieces *)
Definition c40_key : bytes :=
  [0x85;0xd6;0xbe;0x78;0x57;0x55;0x6d;0x33;0x7f;0x44;0x52;0xfe;0x42;0xd5;0x06;0xa8;
   0x01;0x03;0x80;0x8a;0xfb;0x0d;0xb2;0xfd;0x4a;0xbf;0xf6;0xaf;0x41;0x49;0xf5;0x1b].
Definition c40_msg : bytes := (* Cryptographic Forum Research Group *)
  [0x43;0x72;0x79;0x70;0x74;0x6f;0x67;0x72;0x61;0x70;0x68;0x69;0x63;0x20;0x46;0x6f;
   0x72;0x75;0x6d;0x20;0x52;0x65;0x73;0x65;0x61;0x72;0x63;0x68;0x20;0x47;0x72;0x6f;0x75;0x70].
Definition c40_pieces : list piece := [(c40_msg, 0, 5); (c40_msg, 5, 0); (c40_msg, 5, 20); (7 :: c40_msg, 26, 9)].
Definition c40_tag : bytes := [0xa8;0x06;0x1d;0xc1;0x30;0x51;0x36;0xc6;0xc2;0x2b;0x8b;0xaf;0x0c;0x01;0x27;0xa9].
Example C40_case :
  (poly_run (poly64 mach) (fun n => map (fun _ => 77) (zeros n)) c40_key c40_pieces,
   poly_run (poly32 mach) (fun n => map (fun _ => 77) (zeros n)) c40_key c40_pieces,
   concat (map piece_data c40_pieces), poly1305 c40_key c40_msg)
  = (Ret c40_tag, Ret c40_tag, c40_msg, c40_tag).
Proof. vm_compute. reflexivity. Qed.
Example C40_case_hyps : 32 <= zlen c40_key /\ bytes_ok c40_key /\ Forall piece_ok c40_pieces.
Proof.
  unfold bytes_ok, byte_ok. repeat split; repeat constructor; cbn; try lia; unfold byte_ok; lia.
Qed.

(* C41.  The portable multiplication *)
Theorem C41_table_is_algorithm_1 : forall h x, zlen h = 16 /\ bytes_ok h -> zlen x = 16 /\ bytes_ok x ->
  tab_mult (tab_init h) x = block_mult x h.
Proof. exact tab_mult_ok. Qed.
Print Assumptions C41_table_is_algorithm_1.
(* Algorithm 1 of SP 800-38D is multiplication of polynomials over GF(2) modulo
   x^128 + x^7 + x^2 + x + 1, the leftmost bit of a block being its constant coefficient *)
Theorem C41_algorithm_1_is_field : forall X Y, 0 <= X < 2 ^ 128 -> 0 <= Y < 2 ^ 128 -> exists q,
  pmul (poly_of_block Y) (poly_of_block X) = Z.lxor (poly_of_block (gf_mult X Y)) (pmul gcm_poly q).
Proof. exact gf_mult_field. Qed.
Print Assumptions C41_algorithm_1_is_field.

(* C42.  The accelerated multiplication, and the stubs whatever the processor *)
Theorem C42_pclmul : forall h x, zlen h = 16 /\ bytes_ok h -> zlen x = 16 /\ bytes_ok x ->
  pclmul_mult h x = tab_mult (tab_init h) x.
Proof. exact pclmul_is_table. Qed.
Print Assumptions C42_pclmul.
Theorem C42_stubs : forall (accel : bool) h, zlen h = 16 /\ bytes_ok h ->
  exists c, ghash_init accel h = Ret c /\
  forall x, zlen x = 16 /\ bytes_ok x -> ghash_mult c x = Ret (block_mult x h).
Proof. exact ghash_stub_ok. Qed.
Print Assumptions C42_stubs.
(* first product of test case 2 of the GCM specification *)
Definition c41_h : bytes := [0x66;0xe9;0x4b;0xd4;0xef;0x8a;0x2c;0x3b;0x88;0x4c;0xfa;0x59;0xca;0x34;0x2b;0x2e].
Definition c41_x : bytes := [0x03;0x88;0xda;0xce;0x60;0xb6;0xa3;0x92;0xf3;0x28;0xc2;0xb9;0x71;0xb2;0xfe;0x78].
Definition c41_r : bytes := [0x5e;0x2e;0xc7;0x46;0x91;0x70;0x62;0x88;0x2c;0x85;0xb0;0x68;0x53;0x53;0xde;0xb7].
Example C41_case : (tab_mult (tab_init c41_h) c41_x, pclmul_mult c41_h c41_x, block_mult c41_x c41_h) = (c41_r, c41_r, c41_r).
Proof. vm_compute. reflexivity. Qed.
