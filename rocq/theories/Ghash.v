(* The table-driven and the PCLMULQDQ multiplications are the one of SP 800-38D. *)
From Verif Require Import Prelude PreludeFacts BytesNum Word SpecGhash GhashModel LinBits AesField MdHash.
Ltac Zify.zify_post_hook ::= Z.div_mod_to_equations.

(* ---- multiplication by x ---- *)
Lemma gf_x_xor v : gf_x v = Z.lxor (Z.shiftr v 1) (if Z.testbit v 0 then gf_R else 0).
Proof. unfold gf_x. rewrite Z.bit0_odd, Z.div2_spec. destruct (Z.odd v); [reflexivity|]. rewrite Z.lxor_0_r. reflexivity. Qed.
Lemma gf_x_lin : lin gf_x.
Proof. intros x y. rewrite !gf_x_xor. exact (lin_xor _ _ (lin_shr 1) (lin_bit 0 gf_R) x y). Qed.
Lemma gf_x_ok v : word_ok 128 v -> word_ok 128 (gf_x v).
Proof.
  intros H. rewrite gf_x_xor. apply word_ok_lxor; [lia|apply word_ok_shr; [lia|assumption]|].
  destruct (Z.testbit v 0); unfold word_ok, gf_R; lia.
Qed.
Lemma iter_x_ok i v : word_ok 128 v -> word_ok 128 (Nat.iter i gf_x v).
Proof. intros H. induction i as [|i IH]; [exact H|]. exact (gf_x_ok _ IH). Qed.
Lemma iter_S {A} (f : A -> A) n x : Nat.iter (S n) f x = f (Nat.iter n f x).
Proof. reflexivity. Qed.
Lemma iter_add {A} (f : A -> A) n m x : Nat.iter (n + m) f x = Nat.iter n f (Nat.iter m f x).
Proof. induction n as [|n IH]; [reflexivity|]. cbn [Nat.add]. rewrite !iter_S, IH. reflexivity. Qed.
Lemma gf_x_shl v n : 0 <= n -> gf_x (Z.shiftl v (n + 1)) = Z.shiftl v n.
Proof.
  intros Hn. rewrite gf_x_xor. rewrite Z.shiftl_spec_low by lia. rewrite Z.lxor_0_r. rewrite Z.shiftr_shiftl_l by lia. f_equal. lia.
Qed.

(* ---- Algorithm 1 as a sum ---- *)
Definition gsum (n : nat) (X H : Z) : Z :=
  xsum (fun i => if Z.testbit X (Z.of_nat n - 1 - Z.of_nat i) then Nat.iter i gf_x H else 0) n.
Lemma gf_fold X n : forall s z v,
  fold_left (fun '(z, v) i => (if Z.testbit X (127 - Z.of_nat i) then Z.lxor z v else z, gf_x v)) (seq s n) (z, v) =
  (Z.lxor z (xsum (fun i => if Z.testbit X (127 - Z.of_nat (s + i)) then Nat.iter i gf_x v else 0) n), Nat.iter n gf_x v).
Proof.
  induction n as [|n IH]; intros s z v; [cbn; rewrite Z.lxor_0_r; reflexivity|].
  cbn [seq fold_left]. rewrite IH. rewrite xsum_head. change (Nat.iter 0 gf_x v) with v. f_equal.
  - rewrite Nat.add_0_r. rewrite (xsum_ext _ (fun i => if Z.testbit X (127 - Z.of_nat (s + S i)) then Nat.iter (S i) gf_x v else 0)).
    2:{ intros i Hi. replace (S s + i)%nat with (s + S i)%nat by lia. destruct (Z.testbit X _); [|reflexivity]. rewrite iter_S. clear. induction i as [|i IH]; [reflexivity|]. rewrite !iter_S. rewrite IH. reflexivity. }
    destruct (Z.testbit X (127 - Z.of_nat s)); [xor_ac|]. rewrite Z.lxor_0_l. reflexivity.
  - clear. change (Nat.iter n gf_x (gf_x v) = gf_x (Nat.iter n gf_x v)). induction n as [|n IH]; [reflexivity|]. rewrite !iter_S, IH. reflexivity.
Qed.
Lemma gf_mult_sum X H : gf_mult X H = gsum 128 X H.
Proof.
  unfold gf_mult. rewrite gf_fold. cbn [fst]. rewrite Z.lxor_0_l. apply xsum_ext. intros i Hi.
  replace (Z.of_nat 128 - 1 - Z.of_nat i) with (127 - Z.of_nat (0 + i)) by lia. reflexivity.
Qed.
Lemma gsum_ok n X H : word_ok 128 H -> word_ok 128 (gsum n X H).
Proof. intros K. apply xsum_bound; [lia|]. intros i Hi. destruct (Z.testbit X _); [apply iter_x_ok; assumption|lia]. Qed.
Lemma gf_mult_ok X H : word_ok 128 H -> word_ok 128 (gf_mult X H).
Proof. rewrite gf_mult_sum. apply gsum_ok. Qed.
Lemma gsum_lin_r n X : lin (gsum n X).
Proof. apply (lin_xsum (fun H i => if Z.testbit X (Z.of_nat n - 1 - Z.of_nat i) then Nat.iter i gf_x H else 0)). intros i. apply lin_if. apply lin_iter, gf_x_lin. Qed.
Lemma gsum_lin_l n H : lin (fun X => gsum n X H).
Proof. apply (lin_xsum (fun X i => if Z.testbit X (Z.of_nat n - 1 - Z.of_nat i) then Nat.iter i gf_x H else 0)). intros i. apply lin_bit. Qed.
Lemma gsum_split n m x y H : 0 <= y < 2 ^ Z.of_nat m ->
  gsum (n + m) (x * 2 ^ Z.of_nat m + y) H = Z.lxor (gsum n x H) (Nat.iter n gf_x (gsum m y H)).
Proof.
  intros Hy. unfold gsum at 1. rewrite xsum_split. f_equal.
  - apply xsum_ext. intros i Hi. replace (Z.testbit (x * 2 ^ Z.of_nat m + y) _) with (Z.testbit x (Z.of_nat n - 1 - Z.of_nat i)); [reflexivity|].
    rewrite Z.add_comm, <- lor_shift_add by lia. rewrite Z.lor_spec, (testbit_high (Z.of_nat m) y) by (unfold word_ok; lia). rewrite Z.mul_pow2_bits by lia. cbn [orb]. f_equal. lia.
  - unfold gsum. rewrite <- xsum_lin by (apply lin_iter, gf_x_lin). apply xsum_ext. intros i Hi.
    replace (Z.testbit (x * 2 ^ Z.of_nat m + y) _) with (Z.testbit y (Z.of_nat m - 1 - Z.of_nat i)).
    2:{ rewrite Z.add_comm, <- lor_shift_add by lia. rewrite Z.lor_spec, Z.mul_pow2_bits_low, Bool.orb_false_r by lia. f_equal. lia. }
    destruct (Z.testbit y _); [rewrite iter_add; reflexivity|]. symmetry. apply lin_0. apply lin_iter, gf_x_lin.
Qed.

(* ---- two words as one number ---- *)
Definition join (h l : Z) : Z := h * 2 ^ 64 + l.
Lemma join_bits h l i : word_ok 64 l -> 0 <= i -> Z.testbit (join h l) i = if i <? 64 then Z.testbit l i else Z.testbit h (i - 64).
Proof.
  intros H Hi. unfold join. rewrite Z.add_comm, <- lor_shift_add by (assumption || lia). rewrite Z.lor_spec. destruct (Z.ltb_spec i 64).
  - rewrite Z.mul_pow2_bits_low, Bool.orb_false_r by lia. reflexivity.
  - rewrite (testbit_high 64 l i) by assumption. rewrite Z.mul_pow2_bits by lia. reflexivity.
Qed.
Lemma join_xor a b c d : word_ok 64 c -> word_ok 64 d -> join (Z.lxor a b) (Z.lxor c d) = Z.lxor (join a c) (join b d).
Proof.
  intros Hc Hd. apply Z.bits_inj'. intros i Hi. rewrite Z.lxor_spec, !join_bits by (try assumption; apply word_ok_lxor; (assumption || lia)).
  rewrite !Z.lxor_spec. destruct (i <? 64); reflexivity.
Qed.
Lemma join_ok h l : word_ok 64 h -> word_ok 64 l -> word_ok 128 (join h l).
Proof. unfold word_ok, join. lia. Qed.
Lemma shift_join n h l : 0 <= n <= 64 -> word_ok 64 h -> word_ok 64 l ->
  join (c_shr h n) (Z.lor (c_shl 64 h (64 - n)) (c_shr l n)) = Z.shiftr (join h l) n /\ word_ok 64 (Z.lor (c_shl 64 h (64 - n)) (c_shr l n)).
Proof.
  intros Hn Hh Hl.
  assert (W : word_ok 64 (Z.lor (c_shl 64 h (64 - n)) (c_shr l n))) by (apply word_ok_lor; [lia|apply word_ok_shl; lia|apply word_ok_shr; [lia|assumption]]).
  split; [|assumption]. apply Z.bits_inj'. intros i Hi. rewrite join_bits by assumption. rewrite (Z.shiftr_spec (join h l)), join_bits by (assumption || lia).
  unfold c_shr, c_shl. rewrite Z.lor_spec, testbit_mod by lia. rewrite (Z.shiftr_spec l) by lia.
  destruct (Z.ltb_spec i 64); cbn [andb]; destruct (Z.ltb_spec (i + n) 64); try lia.
  - rewrite Z.shiftl_spec_low by lia. reflexivity.
  - rewrite Z.shiftl_spec by lia. rewrite (testbit_high 64 l (i + n)) by (assumption || lia). rewrite Bool.orb_false_r. f_equal. lia.
  - rewrite Z.shiftr_spec by lia. f_equal. lia.
Qed.

(* ---- bytes and words ---- *)
Lemma lor_shift_add' a b n : 0 <= n -> 0 <= a < 2 ^ n -> Z.lor (b * 2 ^ n) a = b * 2 ^ n + a.
Proof. intros. rewrite Z.lor_comm, lor_shift_add by assumption. lia. Qed.
Lemma get_be_8 a b c d e f g h : bytes_ok [a; b; c; d; e; f; g; h] -> forall l, get_uint64_be (a :: b :: c :: d :: e :: f :: g :: h :: l) 0 = be [a; b; c; d; e; f; g; h].
Proof.
  intros B l. unfold bytes_ok in B. repeat match goal with H : Forall _ (_ :: _) |- _ => inversion_clear H end. unfold byte_ok in *.
  unfold get_uint64_be. cbn [nth Nat.add]. unfold c_shl. rewrite !Z.shiftl_mul_pow2 by lia. rewrite !Z.mod_small by lia. rewrite <- !Z.lor_assoc.
  rewrite (lor_shift_add' h g 8), (lor_shift_add' _ f 16), (lor_shift_add' _ e 24), (lor_shift_add' _ d 32), (lor_shift_add' _ c 40), (lor_shift_add' _ b 48), (lor_shift_add' _ a 56) by lia.
  unfold be. cbn [rev app le]. lia.
Qed.
Lemma get_be_skip a b c d e f g h l : get_uint64_be (a :: b :: c :: d :: e :: f :: g :: h :: l) 8 = get_uint64_be l 0.
Proof. unfold get_uint64_be. cbn [Nat.add nth]. reflexivity. Qed.
Lemma get_block h : blk h -> word_ok 64 (get_uint64_be h 0) /\ word_ok 64 (get_uint64_be h 8) /\ join (get_uint64_be h 0) (get_uint64_be h 8) = be h.
Proof.
  revert h. apply blk_elim. intros x0 x1 x2 x3 x4 x5 x6 x7 x8 x9 x10 x11 x12 x13 x14 x15 B.
  rewrite get_be_skip.
  assert (B1 : bytes_ok [x0; x1; x2; x3; x4; x5; x6; x7] /\ bytes_ok [x8; x9; x10; x11; x12; x13; x14; x15]) by (apply bytes_ok_app; exact B). destruct B1 as (B1 & B2).
  rewrite (get_be_8 _ _ _ _ _ _ _ _ B1), (get_be_8 _ _ _ _ _ _ _ _ B2).
  split; [apply word_ok_be; [assumption|reflexivity]|]. split; [apply word_ok_be; [assumption|reflexivity]|]. 
  exact (eq_sym (be_app [x0; x1; x2; x3; x4; x5; x6; x7] [x8; x9; x10; x11; x12; x13; x14; x15])).
Qed.
Lemma put_be n : put_uint64_be n = to_be 8 n.
Proof.
  unfold put_uint64_be, c_shr. cbn [map]. rewrite !to_be_S. cbn [to_be to_le rev app]. rewrite !Z.shiftr_div_pow2 by lia. rewrite !Z.div_div by lia. rewrite Z.div_1_r. reflexivity.
Qed.
Lemma put_block h l : word_ok 64 h -> word_ok 64 l -> put_uint64_be h ++ put_uint64_be l = to_be 16 (join h l).
Proof.
  intros Hh Hl. rewrite !put_be. apply be_inj; [rewrite app_length, !length_to_be; reflexivity|apply bytes_ok_app; split; apply bytes_ok_to_be|apply bytes_ok_to_be|].
  rewrite be_app, !be_to_be, zlen_to_be. change (256 ^ Z.of_nat 8) with (2 ^ 64). change (256 ^ Z.of_nat 16) with (2 ^ 128).
  pose proof (join_ok h l Hh Hl). unfold word_ok in *. rewrite !Z.mod_small by lia. reflexivity.
Qed.

(* ---- the table ---- *)
Definition tab_ok (c : gctx) (H : Z) : Prop := forall n, (n < 16)%nat ->
  word_ok 64 (nth n (g_HH c) 0) /\ word_ok 64 (nth n (g_HL c) 0) /\ join (nth n (g_HH c) 0) (nth n (g_HL c) 0) = gsum 4 (Z.of_nat n) H.

Lemma gsum4 n H : gsum 4 n H = Z.lxor (Z.lxor (Z.lxor (Z.lxor 0 (if Z.testbit n 3 then H else 0)) (if Z.testbit n 2 then gf_x H else 0))
  (if Z.testbit n 1 then gf_x (gf_x H) else 0)) (if Z.testbit n 0 then gf_x (gf_x (gf_x H)) else 0).
Proof. reflexivity. Qed.
Lemma gi_shift_ok c vh vl i : word_ok 64 vh -> word_ok 64 vl -> exists vh' vl',
  gi_shift (c, (vh, vl)) i = (GC (upd (g_HH c) i vh') (upd (g_HL c) i vl'), (vh', vl')) /\
  word_ok 64 vh' /\ word_ok 64 vl' /\ join vh' vl' = gf_x (join vh vl).
Proof.
  intros Hh Hl. unfold gi_shift. eexists. eexists. split; [reflexivity|].
  destruct (shift_join 1 vh vl ltac:(lia) Hh Hl) as (E & W). change (64 - 1) with 63 in *.
  split; [apply word_ok_lxor; [lia|apply word_ok_shr; [lia|assumption]|apply word_ok_shl; lia]|]. split; [assumption|].
  set (l' := Z.lor _ _) in *. replace (join (Z.lxor _ _) l') with (join (Z.lxor (c_shr vh 1) (c_shl 64 (Z.land vl 1 * 0xe1000000) 32)) (Z.lxor l' 0)) by (rewrite Z.lxor_0_r; reflexivity).
  rewrite join_xor, E by (assumption || (unfold word_ok; lia)). rewrite gf_x_xor. f_equal.
  rewrite join_bits by (assumption || lia). cbn [Z.ltb Z.compare]. rewrite Z.bit0_odd. replace (Z.land vl 1) with (vl mod 2) by (symmetry; exact (Z.land_ones vl 1 ltac:(lia))). rewrite Zmod_odd.
  destruct (Z.odd vl); reflexivity.
Qed.

Lemma tab_init_ok h : blk h -> tab_ok (tab_init h) (be h).
Proof.
  intros Hb. destruct (get_block h Hb) as (W8h & W8l & E8). unfold tab_init. set (v8h := get_uint64_be h 0) in *. set (v8l := get_uint64_be h 8) in *.
  cbn [g_HH g_HL]. cbn [fold_left]. clearbody v8h v8l.
  match goal with |- context [gi_shift (?c, (v8h, v8l)) 4] => destruct (gi_shift_ok c v8h v8l 4 W8h W8l) as (v4h & v4l & -> & W4h & W4l & E4) end.
  match goal with |- context [gi_shift (?c, (v4h, v4l)) 2] => destruct (gi_shift_ok c v4h v4l 2 W4h W4l) as (v2h & v2l & -> & W2h & W2l & E2) end.
  match goal with |- context [gi_shift (?c, (v2h, v2l)) 1] => destruct (gi_shift_ok c v2h v2l 1 W2h W2l) as (v1h & v1l & -> & W1h & W1l & E1) end.
  rewrite E8 in E4. rewrite E4 in E2. rewrite E2 in E1.
  match goal with |- tab_ok ?t _ => let t' := eval cbv beta iota zeta delta [fold_left gi_fill g_HH g_HL upd firstn skipn repeat app nth seq Nat.sub Nat.add] in t in change t with t' end.
  assert (W0 : word_ok 64 0) by (unfold word_ok; lia). assert (E0 : join 0 0 = 0) by reflexivity.
  assert (X : forall a b, word_ok 64 a -> word_ok 64 b -> word_ok 64 (Z.lxor a b)) by (intros; apply word_ok_lxor; (assumption || lia)).
  intros n Hn. assert (K : In n (seq 0 16)) by (apply in_seq; lia). cbn [seq In] in K.
  repeat (destruct K as [<-|K]; [cbn [nth g_HH g_HL]; split; [repeat (apply X || assumption)|split; [repeat (apply X || assumption)|]];
    rewrite ?join_xor by (repeat (apply X || assumption)); rewrite ?E8, ?E4, ?E2, ?E1, ?E0; rewrite gsum4;
    repeat match goal with |- context [Z.testbit (Z.of_nat ?a) ?b] => let v := eval vm_compute in (Z.testbit (Z.of_nat a) b) in change (Z.testbit (Z.of_nat a) b) with v end;
    cbv iota; rewrite ?Z.lxor_0_l, ?Z.lxor_0_r; first [reflexivity|xor_ac]|]).
  contradiction.
Qed.

(* ---- the multiplication ---- *)
Lemma x4 v : 0 <= v -> Nat.iter 4 gf_x v = Z.lxor (Z.shiftr v 4) (nth (Z.to_nat (v mod 16)) last4 0 * 2 ^ 112).
Proof.
  intros Hv. assert (E : v = Z.lxor (Z.shiftl (Z.shiftr v 4) 4) (v mod 2 ^ 4)).
  { rewrite <- Z.ldiff_ones_r by lia. rewrite <- Z.land_ones by lia. apply Z.bits_inj'. intros i Hi. rewrite Z.lxor_spec, Z.ldiff_spec, Z.land_spec. destruct (Z.testbit v i), (Z.testbit (Z.ones 4) i); reflexivity. }
  rewrite E at 1. rewrite (lin_iter gf_x 4 gf_x_lin). f_equal.
  - set (q := Z.shiftr v 4). cbn [Nat.iter nat_rect]. 
    pose proof (gf_x_shl q 3 ltac:(lia)) as A3. pose proof (gf_x_shl q 2 ltac:(lia)) as A2. pose proof (gf_x_shl q 1 ltac:(lia)) as A1. pose proof (gf_x_shl q 0 ltac:(lia)) as A0.
    cbn [Z.add Pos.add Pos.succ] in *. rewrite A3, A2, A1, A0. apply Z.shiftl_0_r.
  - change (2 ^ 4) with 16. pose proof (Z.mod_pos_bound v 16 ltac:(lia)) as B. set (r := v mod 16) in *. clearbody r.
    assert (C : forallb (fun n => Nat.iter 4 gf_x (Z.of_nat n) =? nth n last4 0 * 2 ^ 112) (seq 0 16) = true) by (vm_compute; reflexivity).
    rewrite forallb_forall in C. specialize (C (Z.to_nat r) ltac:(apply in_seq; lia)). rewrite Z2Nat.id in C by lia. apply Z.eqb_eq. exact C.
Qed.

Definition rep (z : Z * Z) (v : Z) : Prop := word_ok 64 (fst z) /\ word_ok 64 (snd z) /\ join (fst z) (snd z) = v.
Lemma gh_step_ok c H z m y nib : tab_ok c H -> word_ok 128 H -> rep z (gsum m y H) -> 0 <= y < 2 ^ Z.of_nat m -> 0 <= nib < 16 ->
  rep (gh_step c z nib) (gsum (4 + m) (nib * 2 ^ Z.of_nat m + y) H).
Proof.
  intros HT HH (Wh & Wl & E) Hy Hnib. destruct z as [zh zl]. cbn [fst snd] in *. unfold gh_step, rep. cbn [fst snd].
  destruct (HT (Z.to_nat nib) ltac:(lia)) as (Th & Tl & TE). rewrite Z2Nat.id in TE by lia.
  destruct (shift_join 4 zh zl ltac:(lia) Wh Wl) as (S1 & S2). change (64 - 4) with 60 in *.
  assert (W1 : word_ok 64 (Z.lxor (c_shr zh 4) (c_shl 64 (nth (Z.to_nat (Z.land zl 0x0f)) last4 0) 48))) by (apply word_ok_lxor; [lia|apply word_ok_shr; [lia|assumption]|apply word_ok_shl; lia]).
  split; [apply word_ok_lxor; (assumption || lia)|]. split; [apply word_ok_lxor; (assumption || lia)|].
  rewrite join_xor by assumption. rewrite TE. rewrite gsum_split by assumption. rewrite Z.lxor_comm. f_equal. rewrite <- E.
  rewrite x4 by (apply (join_ok zh zl); assumption).
  set (l' := Z.lor _ _) in *. replace l' with (Z.lxor l' 0) by apply Z.lxor_0_r. rewrite join_xor by (assumption || (unfold word_ok; lia)). rewrite S1. f_equal.
  replace (Z.land zl 0x0f) with (zl mod 16) by (symmetry; exact (Z.land_ones zl 4 ltac:(lia))).
  replace (join zh zl mod 16) with (zl mod 16) by (unfold join; clear; lia).
  pose proof (Z.mod_pos_bound zl 16 ltac:(lia)) as B. set (r := zl mod 16) in *. clearbody r.
  assert (C : forallb (fun n => join (c_shl 64 (nth n last4 0) 48) 0 =? nth n last4 0 * 2 ^ 112) (seq 0 16) = true) by (vm_compute; reflexivity).
  rewrite forallb_forall in C. specialize (C (Z.to_nat r) ltac:(apply in_seq; lia)). apply Z.eqb_eq. exact C.
Qed.

Lemma nibbles b : byte_ok b -> b = c_shr b 4 * 16 + Z.land b 0x0f /\ 0 <= c_shr b 4 < 16 /\ 0 <= Z.land b 0x0f < 16.
Proof. unfold byte_ok, c_shr. intros B. rewrite Z.shiftr_div_pow2 by lia. replace (Z.land b 0x0f) with (b mod 16) by (symmetry; exact (Z.land_ones b 4 ltac:(lia))). change (2 ^ 4) with 16. lia. Qed.

Lemma gh_byte_ok c H input z m y i : tab_ok c H -> word_ok 128 H -> rep z (gsum m y H) -> 0 <= y < 2 ^ Z.of_nat m -> byte_ok (nth i input 0) -> (i <> 15)%nat ->
  rep (gh_byte c input z i) (gsum (8 + m) (nth i input 0 * 2 ^ Z.of_nat m + y) H).
Proof.
  intros HT HH R Hy B Hi. unfold gh_byte. destruct (Nat.eqb_spec i 15); [contradiction|].
  destruct (nibbles _ B) as (E & E1 & E2). set (b := nth i input 0) in *. set (hi := c_shr b 4) in *. set (lo := Z.land b 0x0f) in *. clearbody hi lo. cbv zeta.
  pose proof (gh_step_ok c H z m y lo HT HH R Hy E2) as R1.
  assert (Hy1 : 0 <= lo * 2 ^ Z.of_nat m + y < 2 ^ Z.of_nat (4 + m)) by (replace (Z.of_nat (4 + m)) with (4 + Z.of_nat m) by lia; rewrite Z.pow_add_r by lia; nia).
  pose proof (gh_step_ok c H _ (4 + m) _ hi HT HH R1 Hy1 E1) as R2.
  replace (b * 2 ^ Z.of_nat m + y) with (hi * 2 ^ Z.of_nat (4 + m) + (lo * 2 ^ Z.of_nat m + y)); [exact R2|].
  replace (Z.of_nat (4 + m)) with (4 + Z.of_nat m) by lia. rewrite Z.pow_add_r by lia. rewrite E. ring.
Qed.

Lemma skipn_nth i (l : bytes) : (i < length l)%nat -> skipn i l = nth i l 0 :: skipn (S i) l.
Proof. revert l. induction i as [|i IH]; intros [|x l] H; cbn [length] in H; try lia; [reflexivity|]. cbn [skipn nth]. apply IH. lia. Qed.

Lemma tab_fold_ok c H input : tab_ok c H -> word_ok 128 H -> blk input ->
  let lo := Z.to_nat (Z.land (nth 15 input 0) 0x0f) in
  forall n, (n <= 15)%nat ->
  rep (fold_left (gh_byte c input) (rev (seq (15 - n) (S n))) (nth lo (g_HH c) 0, nth lo (g_HL c) 0)) (gsum (8 * S n) (be (skipn (15 - n) input)) H).
Proof.
  intros HT HH (Hl & Hb) lo. assert (LL : length input = 16%nat) by (unfold zlen in Hl; lia).
  assert (Bn : forall i, (i < 16)%nat -> byte_ok (nth i input 0)) by (intros i Hi; apply (proj1 (Forall_forall byte_ok input) Hb), nth_In; lia).
  induction n as [|n IH]; intros Hn.
  - change (15 - 0)%nat with 15%nat. cbn [seq rev app fold_left]. rewrite skipn_nth by lia. rewrite (skipn_all2 (n := 16)) by lia.
    destruct (nibbles _ (Bn 15%nat ltac:(lia))) as (E & E1 & E2). unfold gh_byte. cbv zeta. cbn [Nat.eqb].
    destruct (HT lo ltac:(unfold lo; lia)) as (Th & Tl & TE). unfold lo in TE at 3. rewrite Z2Nat.id in TE by lia.
    pose proof (gh_step_ok c H (nth lo (g_HH c) 0, nth lo (g_HL c) 0) 4 (Z.land (nth 15 input 0) 0x0f) (c_shr (nth 15 input 0) 4) HT HH) as R.
    change (8 * 1)%nat with (4 + 4)%nat. replace (be [nth 15 input 0]) with (c_shr (nth 15 input 0) 4 * 2 ^ Z.of_nat 4 + Z.land (nth 15 input 0) 15).
    + apply R; [split; [|split]; assumption|exact E2|exact E1].
    + unfold be. cbn [rev app le]. change (2 ^ Z.of_nat 4) with 16. lia.
  - replace (seq (15 - S n) (S (S n))) with ((15 - S n)%nat :: seq (15 - n) (S n)) by (cbn [seq]; replace (S (15 - S n)) with (15 - n)%nat by lia; reflexivity).
    cbn [rev]. rewrite fold_left_app. cbn [fold_left]. rewrite (skipn_nth (15 - S n)) by lia. replace (S (15 - S n)) with (15 - n)%nat by lia.
    set (z := fold_left _ _ _) in *. specialize (IH ltac:(lia)). rewrite be_cons. assert (LS : zlen (skipn (15 - n) input) = Z.of_nat (S n)) by (unfold zlen; rewrite skipn_length; lia).
    pose proof (be_bound (skipn (15 - n) input) (Forall_skipn _ _ _ Hb)) as BB. rewrite LS in *.
    replace (256 ^ Z.of_nat (S n)) with (2 ^ Z.of_nat (8 * S n)) in * by (change 256 with (2 ^ 8); rewrite <- Z.pow_mul_r by lia; f_equal; lia).
    replace (8 * S (S n))%nat with (8 + 8 * S n)%nat by lia. apply gh_byte_ok; try assumption; [apply Bn; lia|lia].
Qed.

Lemma word_be_block h : blk h -> word_ok 128 (be h).
Proof. intros (L & B). apply word_ok_be; [assumption|lia]. Qed.
Theorem tab_mult_ok h x : blk h -> blk x -> tab_mult (tab_init h) x = block_mult x h.
Proof.
  intros Hh Hx. pose proof (tab_fold_ok (tab_init h) (be h) x (tab_init_ok h Hh) (word_be_block h Hh) Hx 15 ltac:(lia)) as R. cbv zeta in R.
  unfold tab_mult. cbv zeta. change (seq (15 - 15) 16) with (seq 0 16) in R. destruct (fold_left _ _ _) as [zh zl]. destruct R as (Wh & Wl & E). cbn [fst snd] in *.
  rewrite put_block by assumption. unfold block_mult. f_equal. rewrite E, gf_mult_sum. reflexivity.
Qed.
