(* chacha20.c computes ChaCha20. *)
From Verif Require Import Prelude PreludeFacts BytesNum SpecBlock BlockTotal Word WordIO SpecTransducer TransformModel Transform SpecEnc EncModel EncLawful EncApi KeccakModel Keccak Sha SpecHash CipherModel LibTransform SpecStream StreamModel StreamObj.
From Verif Require DesBits AesField.

Ltac wok32 := match goal with
  | |- word_ok 32 (Z.lxor _ _) => apply word_ok_lxor; [lia|wok32|wok32]
  | |- word_ok 32 (c_add _ _ _) => apply word_ok_add; lia
  | |- word_ok 32 (cc_add _ _) => apply word_ok_mod; lia
  | |- word_ok 32 (c_rol _ _ _) => apply word_ok_rol; [lia|lia|wok32]
  | |- word_ok 32 (rotl _ _ _) => apply word_ok_rotl; [wok32|lia]
  | |- _ => assumption
  end.
Lemma c_quarter_ok a b c d : word_ok 32 a -> word_ok 32 b -> word_ok 32 c -> word_ok 32 d ->
  c_quarter a b c d = quarter_round (a, b, c, d) /\
  (let '(a', b', c', d') := quarter_round (a, b, c, d) in word_ok 32 a' /\ word_ok 32 b' /\ word_ok 32 c' /\ word_ok 32 d').
Proof.
  intros Ha Hb Hc Hd. unfold c_quarter, quarter_round.
  set (a1 := c_add 32 a b). change (cc_add a b) with a1. assert (W1 : word_ok 32 a1) by (unfold a1; wok32). clearbody a1.
  rewrite (c_rol_rotl 32 (Z.lxor d a1)) by (lia || wok32). set (d1 := rotl 32 16 (Z.lxor d a1)). assert (W2 : word_ok 32 d1) by (unfold d1; wok32). clearbody d1.
  set (c1 := c_add 32 c d1). change (cc_add c d1) with c1. assert (W3 : word_ok 32 c1) by (unfold c1; wok32). clearbody c1.
  rewrite (c_rol_rotl 32 (Z.lxor b c1)) by (lia || wok32). set (b1 := rotl 32 12 (Z.lxor b c1)). assert (W4 : word_ok 32 b1) by (unfold b1; wok32). clearbody b1.
  set (a2 := c_add 32 a1 b1). change (cc_add a1 b1) with a2. assert (W5 : word_ok 32 a2) by (unfold a2; wok32). clearbody a2.
  rewrite (c_rol_rotl 32 (Z.lxor d1 a2)) by (lia || wok32). set (d2 := rotl 32 8 (Z.lxor d1 a2)). assert (W6 : word_ok 32 d2) by (unfold d2; wok32). clearbody d2.
  set (c2 := c_add 32 c1 d2). change (cc_add c1 d2) with c2. assert (W7 : word_ok 32 c2) by (unfold c2; wok32). clearbody c2.
  rewrite (c_rol_rotl 32 (Z.lxor b1 c2)) by (lia || wok32). set (b2 := rotl 32 7 (Z.lxor b1 c2)). assert (W8 : word_ok 32 b2) by (unfold b2; wok32). clearbody b2.
  split; [reflexivity|]. splits; assumption.
Qed.
Opaque quarter_round c_quarter.
Lemma column_list x0 x1 x2 x3 x4 x5 x6 x7 x8 x9 x10 x11 x12 x13 x14 x15 : column_round [x0; x1; x2; x3; x4; x5; x6; x7; x8; x9; x10; x11; x12; x13; x14; x15] =
      let '(x0, x4, x8, x12) := quarter_round (x0, x4, x8, x12) in
      let '(x1, x5, x9, x13) := quarter_round (x1, x5, x9, x13) in
      let '(x2, x6, x10, x14) := quarter_round (x2, x6, x10, x14) in
      let '(x3, x7, x11, x15) := quarter_round (x3, x7, x11, x15) in
      [x0; x1; x2; x3; x4; x5; x6; x7; x8; x9; x10; x11; x12; x13; x14; x15].
Proof.
  unfold diagonal_round, column_round. cbn [seq map].
  match goal with |- context [cc_column ?x 0] => change (cc_column x 0) with (x0, x4, x8, x12) end. destruct (quarter_round (x0, x4, x8, x12)) as (((?, ?), ?), ?).
  match goal with |- context [cc_column ?x 1] => change (cc_column x 1) with (x1, x5, x9, x13) end. destruct (quarter_round (x1, x5, x9, x13)) as (((?, ?), ?), ?).
  match goal with |- context [cc_column ?x 2] => change (cc_column x 2) with (x2, x6, x10, x14) end. destruct (quarter_round (x2, x6, x10, x14)) as (((?, ?), ?), ?).
  match goal with |- context [cc_column ?x 3] => change (cc_column x 3) with (x3, x7, x11, x15) end. destruct (quarter_round (x3, x7, x11, x15)) as (((?, ?), ?), ?).
  reflexivity.
Qed.
Lemma diagonal_list x0 x1 x2 x3 x4 x5 x6 x7 x8 x9 x10 x11 x12 x13 x14 x15 : diagonal_round [x0; x1; x2; x3; x4; x5; x6; x7; x8; x9; x10; x11; x12; x13; x14; x15] =
      let '(x0, x5, x10, x15) := quarter_round (x0, x5, x10, x15) in
      let '(x1, x6, x11, x12) := quarter_round (x1, x6, x11, x12) in
      let '(x2, x7, x8, x13) := quarter_round (x2, x7, x8, x13) in
      let '(x3, x4, x9, x14) := quarter_round (x3, x4, x9, x14) in
      [x0; x1; x2; x3; x4; x5; x6; x7; x8; x9; x10; x11; x12; x13; x14; x15].
Proof.
  unfold diagonal_round, column_round. cbn [seq map].
  match goal with |- context [cc_column ?x 0] => change (cc_column x 0) with (x0, x5, x10, x15) end. destruct (quarter_round (x0, x5, x10, x15)) as (((?, ?), ?), ?).
  match goal with |- context [cc_column ?x 1] => change (cc_column x 1) with (x1, x6, x11, x12) end. destruct (quarter_round (x1, x6, x11, x12)) as (((?, ?), ?), ?).
  match goal with |- context [cc_column ?x 2] => change (cc_column x 2) with (x2, x7, x8, x13) end. destruct (quarter_round (x2, x7, x8, x13)) as (((?, ?), ?), ?).
  match goal with |- context [cc_column ?x 3] => change (cc_column x 3) with (x3, x4, x9, x14) end. destruct (quarter_round (x3, x4, x9, x14)) as (((?, ?), ?), ?).
  reflexivity.
Qed.
Ltac quarter_step a b c d := 
  let E := fresh "E" in let W := fresh "W" in
  destruct (c_quarter_ok a b c d) as (E & W); [assumption..|];
  rewrite E; clear E; destruct (quarter_round (a, b, c, d)) as (((?q, ?q), ?q), ?q); destruct W as (? & ? & ? & ?).
Definition state_words (x : list Z) : Prop := length x = 16%nat /\ Forall (word_ok 32) x.
Lemma double_ok x : state_words x -> c_double_round x = diagonal_round (column_round x) /\ state_words (c_double_round x).
Proof.
  intros (L & F). DesBits.explode x L. repeat match goal with H : Forall _ (_ :: _) |- _ => apply Forall_cons_iff in H; destruct H as (? & H) end.
  rewrite column_list. cbn [c_double_round].
  match goal with |- context [c_quarter ?a ?b ?c ?d] => quarter_step a b c d end.
  match goal with |- context [c_quarter ?a ?b ?c ?d] => quarter_step a b c d end.
  match goal with |- context [c_quarter ?a ?b ?c ?d] => quarter_step a b c d end.
  match goal with |- context [c_quarter ?a ?b ?c ?d] => quarter_step a b c d end.
  rewrite diagonal_list.
  match goal with |- context [c_quarter ?a ?b ?c ?d] => quarter_step a b c d end.
  match goal with |- context [c_quarter ?a ?b ?c ?d] => quarter_step a b c d end.
  match goal with |- context [c_quarter ?a ?b ?c ?d] => quarter_step a b c d end.
  match goal with |- context [c_quarter ?a ?b ?c ?d] => quarter_step a b c d end.
  split; [reflexivity|]. split; [reflexivity|]. repeat (constructor; [assumption|]). constructor.
Qed.
Lemma rounds_ok x : state_words x -> fold_left (fun x _ => c_double_round x) (seq 0 10) x = chacha_rounds x /\ state_words (chacha_rounds x).
Proof.
  intros H. unfold chacha_rounds. 
  assert (G : forall n, fold_left (fun x _ => c_double_round x) (seq 0 n) x = Nat.iter n (fun x => diagonal_round (column_round x)) x /\ state_words (Nat.iter n (fun x => diagonal_round (column_round x)) x)).
  { induction n as [|n (I1 & I2)]; [split; [reflexivity|exact H]|]. rewrite (seq_S n 0), fold_left_app, I1. cbn [fold_left Nat.iter nat_rect].
    change (nat_rect (fun _ => list Z) x (fun _ => fun x => diagonal_round (column_round x)) n) with (Nat.iter n (fun x => diagonal_round (column_round x)) x).
    destruct (double_ok _ I2) as (D1 & D2). rewrite D1 in *. split; [reflexivity|exact D2]. }
  apply (G 10%nat).
Qed.
(* ---- words of the matrix ---- *)
Lemma le_words4_cons a b c d l : le_words 4 (a :: b :: c :: d :: l) = le [a; b; c; d] :: le_words 4 l.
Proof. unfold le_words. change (a :: b :: c :: d :: l) with ([a; b; c; d] ++ l). rewrite chunks_cons by (lia || reflexivity). reflexivity. Qed.
Lemma le_words4_app n : forall a b, length a = (4 * n)%nat -> le_words 4 (a ++ b) = le_words 4 a ++ le_words 4 b.
Proof.
  induction n as [|n IH]; intros a b L; [destruct a; [reflexivity|cbn [length] in L; lia]|].
  do 4 (destruct a as [|? a]; [cbn [length] in L; lia|]). cbn [app]. rewrite !le_words4_cons, IH by (cbn [length] in L; lia). reflexivity.
Qed.
Lemma cc_load_ok l i : bytes_ok l -> cc_load l i = le [nth i l 0; nth (i + 1) l 0; nth (i + 2) l 0; nth (i + 3) l 0].
Proof.
  intros B. unfold cc_load. assert (N : forall k, byte_ok (nth k l 0)) by (intros; apply byte_nth; exact B).
  assert (N0 := N i). assert (N1 := N (i + 1)%nat). assert (N2 := N (i + 2)%nat). assert (N3 := N (i + 3)%nat).
  revert N0 N1 N2 N3. generalize (nth i l 0) (nth (i + 1) l 0) (nth (i + 2) l 0) (nth (i + 3) l 0). clear. intros a b c d Ha Hb Hc Hd. unfold byte_ok in *.
  unfold c_add, c_shl. rewrite !Z.shiftl_mul_pow2 by lia. change (2 ^ 8) with 256. change (2 ^ 16) with 65536. change (2 ^ 24) with 16777216. change (2 ^ 32) with 4294967296.
  rewrite (Z.mod_small (b * 256)), (Z.mod_small (c * 65536)), (Z.mod_small (d * 16777216)) by lia.
  rewrite (Z.mod_small (a + b * 256)), (Z.mod_small (a + b * 256 + c * 65536)), Z.mod_small by lia. cbn [le]. lia.
Qed.
Lemma cc_store_ok v : word_ok 32 v -> cc_store v = to_le 4 v.
Proof.
  intros H. unfold cc_store, c_shr. rewrite !Z.shiftr_div_pow2 by lia. cbn [to_le]. rewrite !Z.div_div by lia. reflexivity.
Qed.
Definition key_part (key : bytes) : bytes := cc_constant (length key) ++ (if Nat.eqb (length key) 32 then key else key ++ key).
Definition cc_key (key : bytes) : Prop := (length key = 16%nat \/ length key = 32%nat) /\ bytes_ok key.
Definition cc_iv (iv : bytes) : Prop := (length iv = 8%nat \/ length iv = 12%nat) /\ bytes_ok iv.
Lemma key_part_length key : cc_key key -> length (key_part key) = 48%nat.
Proof. intros ([H|H] & _); unfold key_part; rewrite H; cbn [Nat.eqb cc_constant]; rewrite !app_length, H; reflexivity. Qed.
Lemma key_part_ok key : cc_key key -> bytes_ok (key_part key).
Proof.
  intros (H & B). unfold key_part. apply bytes_ok_app. split; [unfold cc_constant; destruct (_ =? _)%nat; repeat constructor; unfold byte_ok; lia|].
  destruct (_ =? _)%nat; [exact B|apply bytes_ok_app; split; exact B].
Qed.
Definition hi_words (iv : bytes) (ctr : Z) : list Z := if Nat.eqb (length iv) 8 then [ctr / 2 ^ 32 mod 2 ^ 32] else [].
Lemma words_to_le x : le_words 4 (to_le 4 x) = [x mod 2 ^ 32].
Proof. unfold le_words. rewrite chunks_short by (unfold zlen; rewrite length_to_le; lia). cbn [map]. rewrite le_to_le. reflexivity. Qed.
Lemma to_le_split x : to_le 8 x = to_le 4 x ++ to_le 4 (x / 2 ^ 32).
Proof. change (2 ^ 32) with (256 * (256 * (256 * 256))). cbn [to_le app]. rewrite !Z.div_div by lia. rewrite !Z.mul_assoc. reflexivity. Qed.
Lemma matrix_split key ctr iv : cc_key key -> cc_iv iv ->
  chacha_matrix key ctr iv = le_words 4 (key_part key) ++ [ctr mod 2 ^ 32] ++ hi_words iv ctr ++ le_words 4 iv.
Proof.
  intros K (I & B). unfold chacha_matrix. rewrite (app_assoc (cc_constant _)). fold (key_part key).
  rewrite (le_words4_app 12) by apply (key_part_length key K). f_equal. unfold hi_words. destruct I as [I|I]; rewrite I; cbn [Nat.sub Nat.eqb].
  - rewrite (le_words4_app 2) by apply length_to_le. rewrite to_le_split, (le_words4_app 1) by apply length_to_le. rewrite !words_to_le. reflexivity.
  - rewrite (le_words4_app 1) by apply length_to_le. rewrite words_to_le. reflexivity.
Qed.
Lemma le_words4_ok n b : length b = (4 * n)%nat -> bytes_ok b -> length (le_words 4 b) = n /\ Forall (word_ok 32) (le_words 4 b).
Proof. intros L B. apply (le_words_ok 4 n b); [lia|lia|exact B]. Qed.
Lemma matrix_words key ctr iv : cc_key key -> cc_iv iv -> state_words (chacha_matrix key ctr iv).
Proof.
  intros K I. rewrite matrix_split by assumption. destruct (le_words4_ok 12 (key_part key)) as (L1 & F1); [rewrite key_part_length by exact K; reflexivity|apply key_part_ok, K|].
  destruct I as (I & B). assert (W : forall x, word_ok 32 (x mod 2 ^ 32)) by (intros; apply word_ok_mod; lia). unfold hi_words.
  destruct I as [I|I]; rewrite I; cbn [Nat.eqb]; [destruct (le_words4_ok 2 iv I B) as (L2 & F2)|destruct (le_words4_ok 3 iv I B) as (L2 & F2)];
    (split; [rewrite !app_length, L1, L2; reflexivity|]); apply Forall_app; (split; [exact F1|]); cbn [app]; repeat (constructor; [apply W|]); exact F2.
Qed.
Lemma init_input fresh key iv ctr : cc_key key -> cc_iv iv ->
  cc_input (chacha20_init fresh key iv ctr) = chacha_matrix key ctr iv.
Proof.
  intros K I. rewrite matrix_split by assumption. destruct K as (K & BK), I as (I & BI). unfold chacha20_init. cbn [cc_input].
  assert (Bc : forall k, bytes_ok (cc_constant k)) by (intros k; unfold cc_constant; destruct (_ =? _)%nat; repeat constructor; unfold byte_ok; lia).
  assert (M1 : (ctr mod 2 ^ 64) mod 2 ^ 32 = ctr mod 2 ^ 32).
  { change (2 ^ 64) with (2 ^ 32 * 2 ^ 32). rewrite Z.rem_mul_r by lia. rewrite (Z.mul_comm (2 ^ 32)), Z_mod_plus_full, Z.mod_mod by lia. reflexivity. }
  assert (M2 : c_shr (ctr mod 2 ^ 64) 32 mod 2 ^ 32 = ctr / 2 ^ 32 mod 2 ^ 32).
  { unfold c_shr. rewrite Z.shiftr_div_pow2 by lia. change (2 ^ 64) with (2 ^ 32 * 2 ^ 32). rewrite Z.rem_mul_r by lia.
    rewrite (Z.mul_comm (2 ^ 32)), Z.div_add by lia. rewrite (Z.div_small (ctr mod 2 ^ 32)) by (apply Z.mod_pos_bound; lia). rewrite Z.add_0_l, Z.mod_mod by lia. reflexivity. }
  rewrite M1, M2. clear M1 M2.
  assert (Lk : zlen key = Z.of_nat (length key)) by reflexivity. assert (Li : zlen iv = Z.of_nat (length iv)) by reflexivity.
  unfold hi_words, key_part.
  assert (C : (if zlen key =? 32 then [101;120;112;97;110;100;32;51;50;45;98;121;116;101;32;107] else [101;120;112;97;110;100;32;49;54;45;98;121;116;101;32;107]) = cc_constant (length key)).
  { unfold cc_constant. destruct K as [K|K]; rewrite Lk, K; reflexivity. }
  rewrite C. clear C. rewrite Lk, Li. clear Lk Li.
  assert (B1 := Bc (length key)). assert (Lc : length (cc_constant (length key)) = 16%nat) by (unfold cc_constant; destruct (_ =? _)%nat; reflexivity).
  set (cst := cc_constant (length key)) in *. clearbody cst. rewrite !cc_load_ok by assumption.
  DesBits.explode cst Lc. destruct K as [K|K], I as [I|I]; rewrite K, I; cbn [Z.of_nat Pos.of_succ_nat Pos.succ Z.eqb Pos.eqb Nat.eqb];
    DesBits.explode key K; DesBits.explode iv I; cbn [app]; rewrite !le_words4_cons; cbn [nth Nat.add app]; reflexivity.
Qed.
Lemma carry ctr : (ctr mod 2 ^ 32 + 1) mod 2 ^ 32 = (ctr + 1) mod 2 ^ 32 /\
  ((ctr + 1) / 2 ^ 32 = ctr / 2 ^ 32 + (if (ctr + 1) mod 2 ^ 32 =? 0 then 1 else 0)).
Proof.
  split; [apply Z.add_mod_idemp_l; lia|]. change (2 ^ 32) with 4294967296. destruct (Z.eqb_spec ((ctr + 1) mod 4294967296) 0); lia.
Qed.
Lemma sum_words a b : length a = 16%nat -> length b = 16%nat -> map (fun i => c_add 32 (kget a i) (kget b i)) (seq 0 16) = map (fun p => cc_add (fst p) (snd p)) (combine a b).
Proof. intros La Lb. DesBits.explode a La. DesBits.explode b Lb. reflexivity. Qed.
Lemma map_store l : Forall (word_ok 32) l -> flat_map cc_store l = flat_map (to_le 4) l.
Proof. induction 1 as [|x l Hx _ IH]; [reflexivity|]. cbn [flat_map]. rewrite IH, cc_store_ok by exact Hx. reflexivity. Qed.
Lemma block_step key iv ctr c : cc_key key -> cc_iv iv -> cc_input c = chacha_matrix key ctr iv -> cc_ivlen c = zlen iv ->
  chacha20_block c = Chacha (chacha_matrix key (ctr + 1) iv) (chacha_block key ctr iv) (cc_next c) (zlen iv).
Proof.
  intros K I E V. assert (W := matrix_words key ctr iv K I). unfold chacha20_block. cbn zeta. rewrite E, V. f_equal.
  - rewrite !matrix_split by assumption. destruct (le_words4_ok 12 (key_part key)) as (L & _); [rewrite key_part_length by exact K; reflexivity|apply key_part_ok, K|].
    set (P := le_words 4 (key_part key)) in *. clearbody P. set (Q := le_words 4 iv). clearbody Q. clear W E.
    destruct (carry ctr) as (C1 & C2). unfold hi_words. rewrite C2. destruct I as (I & _).
    assert (T : forall x, kput (P ++ [ctr mod 2 ^ 32] ++ x) 12 ((ctr + 1) mod 2 ^ 32) = P ++ [(ctr + 1) mod 2 ^ 32] ++ x).
    { intros x. DesBits.explode P L. reflexivity. }
    assert (G : forall x, kget (P ++ [ctr mod 2 ^ 32] ++ x) 12 = ctr mod 2 ^ 32) by (intros x; DesBits.explode P L; reflexivity).
    rewrite !G. assert (A : c_add 32 (ctr mod 2 ^ 32) 1 = (ctr + 1) mod 2 ^ 32) by exact C1. rewrite !A, !T. destruct I as [I|I]; unfold zlen; rewrite I; cbn [Nat.eqb Z.of_nat Pos.of_succ_nat Pos.succ Z.eqb Pos.eqb app].
    + destruct ((ctr + 1) mod 2 ^ 32 =? 0).
      * rewrite <- (Z.add_mod_idemp_l (ctr / 2 ^ 32)) by lia. DesBits.explode P L. reflexivity.
      * rewrite Z.add_0_r. reflexivity.
    + destruct ((ctr + 1) mod 2 ^ 32 =? 0); reflexivity.
  - destruct (rounds_ok _ W) as (R1 & R2 & R3). rewrite R1, sum_words by (apply R2 || apply W). unfold chacha_block. cbn zeta. apply map_store.
    apply Forall_forall. intros x Hx. apply in_map_iff in Hx. destruct Hx as (p & <- & _). apply word_ok_mod. lia.
Qed.
Lemma block_length key ctr iv : cc_key key -> cc_iv iv -> length (chacha_block key ctr iv) = 64%nat /\ bytes_ok (chacha_block key ctr iv).
Proof.
  intros K I. assert (W := matrix_words key ctr iv K I). destruct (rounds_ok _ W) as (_ & R2 & _). unfold chacha_block. cbn zeta. destruct W as (W & _).
  set (l := map _ _). assert (L : length l = 16%nat) by (unfold l; rewrite map_length, combine_length, R2, W; reflexivity). clearbody l. clear - L. split.
  - DesBits.explode l L. reflexivity.
  - clear L. induction l as [|x l IH]; [constructor|]. cbn [flat_map]. apply bytes_ok_app. split; [apply bytes_ok_to_le|exact IH].
Qed.
(* the context after n bytes of keystream *)
Definition cc_rel (key : bytes) (ctr : Z) (iv : bytes) (c : chacha) (n : nat) : Prop :=
  exists B : Z, cc_input c = chacha_matrix key (ctr + B) iv /\ cc_ivlen c = zlen iv /\ 0 <= B /\ 0 <= cc_next c <= 64 /\
    Z.of_nat n = 64 * B + cc_next c - 64 /\ (cc_next c < 64 -> cc_output c = chacha_block key (ctr + B - 1) iv).
Lemma byte_step key ctr iv c n : cc_key key -> cc_iv iv -> cc_rel key ctr iv c n ->
  fst (cc_byte c) = chacha20 key ctr iv n /\ cc_rel key ctr iv (snd (cc_byte c)) (S n).
Proof.
  intros K I (B & H1 & H2 & H3 & H4 & H5 & H6). unfold cc_byte, chacha20. destruct (Z.geb_spec (cc_next c) 64) as [G|G].
  - rewrite (block_step key iv (ctr + B) c K I H1 H2). cbn [cc_next cc_input cc_output cc_ivlen fst snd]. assert (N : Z.of_nat n = 64 * B) by lia.
    replace (n mod 64)%nat with 0%nat by lia. replace (Z.of_nat (n / 64)) with B by lia. split; [reflexivity|].
    exists (B + 1). cbn [cc_next cc_input cc_output cc_ivlen]. splits; [f_equal; lia|reflexivity|lia|lia|lia|lia|]. intros _. f_equal. lia.
  - cbn [fst snd]. rewrite H6 by lia. replace (n mod 64)%nat with (Z.to_nat (cc_next c)) by lia. replace (ctr + Z.of_nat (n / 64)) with (ctr + B - 1) by lia. split; [reflexivity|].
    exists B. cbn [cc_next cc_input cc_output cc_ivlen]. splits; [exact H1|exact H2|lia|lia|lia|lia|]. intros _. reflexivity.
Qed.
Lemma chacha_byte key ctr iv n : cc_key key -> cc_iv iv -> byte_ok (chacha20 key ctr iv n).
Proof. intros K I. unfold chacha20. apply byte_nth. apply block_length; assumption. Qed.
Lemma transform_ok key ctr iv l : cc_key key -> cc_iv iv -> forall c n, cc_rel key ctr iv c n ->
  exists c', chacha20_transform c l = (c', ks_xor (chacha20 key ctr iv) n l) /\ cc_rel key ctr iv c' (n + length l).
Proof.
  intros K I. induction l as [|b l IH]; intros c n R.
  - exists c. cbn [length]. rewrite Nat.add_0_r. split; [reflexivity|exact R].
  - cbn [chacha20_transform length]. destruct (byte_step key ctr iv c n K I R) as (S1 & S2). destruct (cc_byte c) as (k, c1). cbn [fst snd] in *. subst k.
    destruct (IH c1 (S n) S2) as (c' & E & R'). rewrite E, ks_xor_cons. exists c'. split; [reflexivity|]. replace (n + S (length l))%nat with (S n + length l)%nat by lia. exact R'.
Qed.
Lemma extract_ok key ctr iv m : cc_key key -> cc_iv iv -> forall c n, cc_rel key ctr iv c n ->
  exists c', chacha20_extract c m = (c', ks_bytes (chacha20 key ctr iv) n m) /\ cc_rel key ctr iv c' (n + m).
Proof.
  intros K I. induction m as [|m IH]; intros c n R.
  - exists c. rewrite Nat.add_0_r. split; [reflexivity|exact R].
  - cbn [chacha20_extract]. destruct (byte_step key ctr iv c n K I R) as (S1 & S2). destruct (cc_byte c) as (k, c1). cbn [fst snd] in *. subst k.
    destruct (IH c1 (S n) S2) as (c' & E & R'). rewrite E. exists c'. split; [reflexivity|]. replace (n + S m)%nat with (S n + m)%nat by lia. exact R'.
Qed.
Lemma init_rel fresh key ctr iv : cc_key key -> cc_iv iv -> cc_rel key ctr iv (chacha20_init fresh key iv ctr) 0.
Proof.
  intros K I. exists 0. rewrite Z.add_0_r. splits; [apply init_input; assumption|reflexivity|lia|cbn [cc_next chacha20_init]; lia|cbn [cc_next chacha20_init]; lia|reflexivity|]. cbn [cc_next chacha20_init]. lia.
Qed.

(* ---- class chacha20 and Cipher.chacha20 ---- *)
Definition iv_of (iv : option bytes) : bytes := match iv with None => zeros 8 | Some s => s end.
(* the IVs and counters that are accepted *)
Definition chacha_iv (iv : option bytes) (ctr : Z) : Prop :=
  match iv with None => True | Some s => zlen s = 8 \/ (zlen s = 12 /\ ctr < 2 ^ 24) end.
Definition chacha_args (iv : option bytes) (ctr : Z) (key : bytes) : Prop :=
  (zlen key = 16 \/ zlen key = 32) /\ chacha_iv iv ctr /\ bytes_ok key /\ bytes_ok (iv_of iv).
Lemma args_key iv ctr key : chacha_args iv ctr key -> cc_key key /\ cc_iv (iv_of iv).
Proof.
  intros (H1 & H2 & H3 & H4). unfold zlen in *. split; [split; [lia|exact H3]|]. split; [|exact H4]. destruct iv as [s|]; [|left; reflexivity]. cbn [chacha_iv iv_of] in *. unfold zlen in H2. lia.
Qed.
Lemma new_chacha20_ok fresh iv ctr key : chacha_args iv ctr key -> new_chacha20 fresh iv ctr key = Ret (SObj chacha20_class (chacha20_init fresh key (iv_of iv) ctr)).
Proof.
  intros (H1 & H2 & _). unfold new_chacha20. replace (negb ((zlen key =? 16) || (zlen key =? 32))) with false by lia.
  destruct iv as [s|]; [|reflexivity]. cbn [chacha_iv] in H2. change (2 ^ 24) with 0x1000000 in H2.
  replace ((zlen s =? 8) || ((zlen s =? 12) && (ctr <? 0x1000000))) with true by lia. reflexivity.
Qed.
Section Api.
Variables (fresh : Z -> bytes) (iv : option bytes) (ctr : Z) (key : bytes).
Hypothesis Ha : chacha_args iv ctr key.
Lemma cc_P : forall c n l, cc_rel key ctr (iv_of iv) c n -> bytes_ok l ->
  exists c', (let (c, r) := chacha20_transform c l in (c, Ret r)) = (c', Ret (ks_xor (chacha20 key ctr (iv_of iv)) n l)) /\ cc_rel key ctr (iv_of iv) c' (n + length l).
Proof.
  destruct (args_key _ _ _ Ha) as (K & I). intros c n l R _. destruct (transform_ok key ctr (iv_of iv) l K I c n R) as (c' & E & R'). exists c'. rewrite E. split; [reflexivity|exact R'].
Qed.
Lemma cc_Q : forall n, byte_ok (chacha20 key ctr (iv_of iv) n).
Proof. destruct (args_key _ _ _ Ha) as (K & I). intros n. apply chacha_byte; assumption. Qed.
Lemma cc_rel_0 : cc_rel key ctr (iv_of iv) (chacha20_init fresh key (iv_of iv) ctr) 0.
Proof. destruct (args_key _ _ _ Ha) as (K & I). apply init_rel; assumption. Qed.
Lemma chacha20_computes : exists o, new_chacha20 fresh iv ctr key = Ret o /\ stream_computes o (chacha20 key ctr (iv_of iv)).
Proof.
  eexists. split; [apply new_chacha20_ok; exact Ha|]. apply (prim_computes chacha _ chacha_wipe _ (cc_rel key ctr (iv_of iv)) cc_Q cc_P). exact cc_rel_0.
Qed.
Lemma Cipher_chacha20_whole d msg : (forall n, 0 <= n -> zlen (fresh n) = n) -> bytes_ok msg -> zlen msg <= max_string_length ->
  exists o, Cipher_chacha20 fresh iv ctr key d = Ret o /\ whole o msg (Ret (ks_xor (chacha20 key ctr (iv_of iv)) 0 msg)) /\ lib_transform fresh o 1 0.
Proof.
  intros Hf B L. unfold Cipher_chacha20. rewrite new_chacha20_ok by exact Ha. cbn [obind]. eexists. split; [reflexivity|]. split.
  - apply (prim_whole chacha _ chacha_wipe _ (cc_rel key ctr (iv_of iv)) cc_Q cc_P); try assumption. exact cc_rel_0.
  - apply (prim_lib chacha _ chacha_wipe _ (cc_rel key ctr (iv_of iv)) cc_Q cc_P); try assumption. exact cc_rel_0.
Qed.
End Api.
Lemma chacha20_sizes fresh iv ctr key :
  (~ (zlen key = 16 \/ zlen key = 32) -> new_chacha20 fresh iv ctr key = Raise (Error Wrong_key_size)) /\
  (zlen key = 16 \/ zlen key = 32 -> ~ chacha_iv iv ctr -> new_chacha20 fresh iv ctr key = Raise (Error Wrong_IV_size)) /\
  (zlen key = 16 \/ zlen key = 32 -> chacha_iv iv ctr -> exists o, new_chacha20 fresh iv ctr key = Ret o).
Proof.
  unfold new_chacha20. splits.
  - intros H. replace (negb ((zlen key =? 16) || (zlen key =? 32))) with true by lia. reflexivity.
  - intros H N. replace (negb ((zlen key =? 16) || (zlen key =? 32))) with false by lia. destruct iv as [s|]; [|exfalso; apply N; exact I]. cbn [chacha_iv] in N. change (2 ^ 24) with 0x1000000 in N.
    replace ((zlen s =? 8) || ((zlen s =? 12) && (ctr <? 0x1000000))) with false by lia. reflexivity.
  - intros H N. replace (negb ((zlen key =? 16) || (zlen key =? 32))) with false by lia. destruct iv as [s|]; [|eexists; reflexivity]. cbn [chacha_iv] in N. change (2 ^ 24) with 0x1000000 in N.
    replace ((zlen s =? 8) || ((zlen s =? 12) && (ctr <? 0x1000000))) with true by lia. eexists; reflexivity.
Qed.
