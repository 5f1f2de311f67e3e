(* Keccak-f is injective. *)
From Coq Require Import Btauto.
From Verif Require Import Prelude PreludeFacts BytesNum SpecBlock BlockTotal Word HashModel HashSpec HashFacts MdModel ShaModel KeccakModel SpecHash SpecKeccak MdHash Sha Keccak.

Lemma rotl_bit n x i : word_ok 64 x -> 0 <= n <= 64 -> 0 <= i < 64 -> Z.testbit (rotl 64 n x) i = Z.testbit x ((i - n) mod 64).
Proof.
  intros Hx Hn Hi. rewrite <- c_rol_rotl by assumption. unfold c_rol, c_shl, c_shr. rewrite Z.lor_spec, Z.mod_pow2_bits_low, Z.shiftr_spec by lia.
  destruct (Z.lt_ge_cases i n) as [L|L].
  - rewrite Z.shiftl_spec_low by lia. cbn [orb]. f_equal. replace (i - n) with (i + (64 - n) + (-1) * 64) by lia. rewrite Z.mod_add by lia. rewrite Z.mod_small by lia. lia.
  - rewrite Z.shiftl_spec by lia. rewrite (testbit_high 64 x (i + (64 - n))) by (assumption || lia). rewrite Bool.orb_false_r. f_equal. rewrite Z.mod_small by lia. reflexivity.
Qed.
Lemma word_ext x y : word_ok 64 x -> word_ok 64 y -> (forall i, 0 <= i < 64 -> Z.testbit x i = Z.testbit y i) -> x = y.
Proof.
  intros Hx Hy H. apply Z.bits_inj'. intros i Hi. destruct (Z.lt_ge_cases i 64) as [L|L]; [apply H; lia|].
  now rewrite !(testbit_high 64) by assumption.
Qed.
Lemma rotl_inj n x y : word_ok 64 x -> word_ok 64 y -> 0 <= n <= 64 -> rotl 64 n x = rotl 64 n y -> x = y.
Proof.
  intros Hx Hy Hn E. apply word_ext; try assumption. intros i Hi.
  assert (B := f_equal (fun w => Z.testbit w ((i + n) mod 64)) E). cbn beta in B.
  rewrite !rotl_bit in B by (try assumption; apply Z.mod_pos_bound; lia).
  replace (((i + n) mod 64 - n) mod 64) with i in B; [exact B|]. rewrite Zminus_mod_idemp_l. replace (i + n - n) with i by lia. symmetry. apply Z.mod_small. lia.
Qed.
Lemma lxor_cancel x y r : Z.lxor x r = Z.lxor y r -> x = y.
Proof. intros E. apply (f_equal (fun z => Z.lxor z r)) in E. now rewrite !Z.lxor_assoc, Z.lxor_nilpotent, !Z.lxor_0_r in E. Qed.

(* ---- theta ---- *)
(* columns f of five words, as bits; x counts modulo 5, i modulo 64 *)
Section Columns.
Variable f : nat -> Z -> bool.
Hypotheses (f5 : forall x i, f (x + 5)%nat i = f x i) (f64 : forall x i, f x (i - 64) = f x i).
Lemma f5k k : forall x i, f (x + 5 * k)%nat i = f x i.
Proof. induction k as [|k IH]; intros x i; [f_equal; lia|]. replace (x + 5 * S k)%nat with ((x + 5 * k) + 5)%nat by lia. rewrite f5. apply IH. Qed.
Definition fixed (k : nat) (r : Z) : Prop := forall x i, f x i = Datatypes.xorb (f (x + 4 * k)%nat i) (f (x + k)%nat (i - r)).
Lemma fixed_double k r : fixed k r -> fixed (2 * k) (2 * r).
Proof.
  intros H x i. rewrite (H x i), (H (x + 4 * k)%nat i), (H (x + k)%nat (i - r)).
  replace (x + 4 * k + 4 * k)%nat with (x + 4 * (2 * k))%nat by lia. replace (x + k + k)%nat with (x + 2 * k)%nat by lia. replace (i - r - r) with (i - 2 * r) by lia.
  replace (x + 4 * k + k)%nat with (x + 5 * k)%nat by lia. replace (x + k + 4 * k)%nat with (x + 5 * k)%nat by lia.
  destruct (f (x + 5 * k)%nat (i - r)), (f (x + 4 * (2 * k))%nat i), (f (x + 2 * k)%nat (i - 2 * r)); reflexivity.
Qed.
Lemma fixed_zero : fixed 1 1 -> forall x i, f x i = false.
Proof.
  intros H. do 6 apply fixed_double in H.
  assert (G : forall x i, f x i = Datatypes.xorb (f (x + 1)%nat i) (f (x + 4)%nat i)).
  { intros x i. rewrite (H x i). f_equal.
    - match goal with |- f (x + ?k)%nat i = _ => change (f (x + 256)%nat i = f (x + 1)%nat i) end. replace (x + 256)%nat with (x + 1 + 5 * 51)%nat by lia. apply f5k.
    - match goal with |- f ?a ?b = _ => change (f (x + 64)%nat (i - 64) = f (x + 4)%nat i) end. rewrite f64. replace (x + 64)%nat with (x + 4 + 5 * 12)%nat by lia. apply f5k. }
  assert (Z0 : forall x i, f (x mod 5)%nat i = false).
  { intros x i. assert (L := Nat.mod_upper_bound x 5 ltac:(lia)). revert L. generalize (x mod 5)%nat. intros r L. assert (G0 := G 0%nat i). assert (G1 := G 1%nat i). assert (G2 := G 2%nat i). assert (G3 := G 3%nat i). assert (G4 := G 4%nat i). cbn [Nat.add] in *.
    assert (F0 := f5 0%nat i). assert (F1 := f5 1%nat i). assert (F2 := f5 2%nat i). assert (F3 := f5 3%nat i). cbn [Nat.add] in F0, F1, F2, F3. rewrite F0 in *. rewrite F1 in *. rewrite F2 in *. rewrite F3 in *. clear F0 F1 F2 F3.
    destruct (f 0%nat i) eqn:E0, (f 1%nat i) eqn:E1, (f 2%nat i) eqn:E2, (f 3%nat i) eqn:E3, (f 4%nat i) eqn:E4; try discriminate.
    destruct r as [|[|[|[|[|n]]]]]; try assumption. lia. }
  intros x i. assert (Ex : x = (x mod 5 + 5 * (x / 5))%nat) by (rewrite Nat.add_comm; apply Nat.div_mod; discriminate). rewrite Ex, f5k. apply Z0.
Qed.
End Columns.

Lemma columns_zero c0 c1 c2 c3 c4 : Forall (word_ok 64) [c0; c1; c2; c3; c4] ->
  c0 = Z.lxor c4 (rotl 64 1 c1) -> c1 = Z.lxor c0 (rotl 64 1 c2) -> c2 = Z.lxor c1 (rotl 64 1 c3) -> c3 = Z.lxor c2 (rotl 64 1 c4) -> c4 = Z.lxor c3 (rotl 64 1 c0) ->
  c0 = 0 /\ c1 = 0 /\ c2 = 0 /\ c3 = 0 /\ c4 = 0.
Proof.
  intros Hw E0 E1 E2 E3 E4. set (c := fun x : nat => nth (x mod 5) [c0; c1; c2; c3; c4] 0). set (f := fun x i => Z.testbit (c x) (i mod 64)).
  assert (Wc : forall x, word_ok 64 (c x)).
  { intros x. rewrite Forall_forall in Hw. apply Hw. apply nth_In. apply Nat.mod_upper_bound. discriminate. }
  assert (Ec : forall x, c x = Z.lxor (c (x + 4)%nat) (rotl 64 1 (c (x + 1)%nat))).
  { intros x. unfold c. rewrite <- (Nat.add_mod_idemp_l x 4), <- (Nat.add_mod_idemp_l x 1) by lia.
    assert (L := Nat.mod_upper_bound x 5 ltac:(lia)). destruct (x mod 5)%nat as [|[|[|[|[|n]]]]]; try assumption. lia. }
  assert (F : forall x i, f x i = false).
  { apply fixed_zero.
    - intros x i. unfold f, c. replace (x + 5)%nat with (x + 1 * 5)%nat by lia. now rewrite Nat.mod_add by lia.
    - intros x i. unfold f. replace (i - 64) with (i + (-1) * 64) by lia. now rewrite Z.mod_add by lia.
    - intros x i. unfold f. rewrite (Ec x) at 1. rewrite Z.lxor_spec, rotl_bit by (try apply Wc; try apply Z.mod_pos_bound; lia).
      replace (x + 4 * 1)%nat with (x + 4)%nat by lia. f_equal. rewrite Zminus_mod_idemp_l. reflexivity. }
  assert (Z0 : forall x, c x = 0).
  { intros x. apply word_ext; [apply Wc|unfold word_ok; lia|]. intros i Hi. assert (Fi := F x i). unfold f in Fi. rewrite Z.mod_small in Fi by lia. now rewrite Fi, Z.bits_0. }
  repeat split; [exact (Z0 0%nat)|exact (Z0 1%nat)|exact (Z0 2%nat)|exact (Z0 3%nat)|exact (Z0 4%nat)].
Qed.

Lemma lxor_move a b d e : Z.lxor a d = Z.lxor b e -> Z.lxor a b = Z.lxor d e.
Proof.
  intros E. apply Z.bits_inj. intros i. apply (f_equal (fun z => Z.testbit z i)) in E. rewrite !Z.lxor_spec in *.
  destruct (Z.testbit a i), (Z.testbit b i), (Z.testbit d i), (Z.testbit e i); cbn in *; congruence.
Qed.
Lemma rotl_lxor n x y : word_ok 64 x -> word_ok 64 y -> 0 <= n <= 64 -> rotl 64 n (Z.lxor x y) = Z.lxor (rotl 64 n x) (rotl 64 n y).
Proof.
  intros Hx Hy Hn. apply word_ext; [wok|wok|]. intros i Hi. rewrite Z.lxor_spec, !rotl_bit, Z.lxor_spec by (try assumption; try lia; wok). reflexivity.
Qed.
Lemma lane_at A x y : (x < 5)%nat -> (y < 5)%nat -> lane A x y = nth (x + 5 * y) A 0.
Proof. intros Hx Hy. unfold lane. now rewrite !Nat.mod_small by lia. Qed.
Lemma lanes_at f x y : (x < 5)%nat -> (y < 5)%nat -> lane (lanes f) x y = f x y.
Proof.
  intros Hx Hy. rewrite lane_at by assumption. unfold lanes. rewrite (nth_map_seq (fun i => f (i mod 5)%nat (i / 5)%nat)) by lia.
  replace (x + 5 * y)%nat with (x + y * 5)%nat by lia. rewrite Nat.mod_add, Nat.div_add by lia. rewrite Nat.mod_small, Nat.div_small by lia. reflexivity.
Qed.
Lemma lane_ext A B : length A = 25%nat -> length B = 25%nat -> (forall x y, (x < 5)%nat -> (y < 5)%nat -> lane A x y = lane B x y) -> A = B.
Proof.
  intros HA HB H. apply (nth_ext A B 0 0); [lia|]. intros i Hi. rewrite HA in Hi.
  assert (Hm := Nat.mod_upper_bound i 5 ltac:(lia)). assert (Hd : (i / 5 < 5)%nat) by (apply Nat.div_lt_upper_bound; lia).
  assert (G := H (i mod 5)%nat (i / 5)%nat Hm Hd). rewrite !lane_at in G by assumption. assert (Ei : i = (i mod 5 + 5 * (i / 5))%nat) by (rewrite Nat.add_comm; apply Nat.div_mod; discriminate). rewrite Ei. exact G.
Qed.
Lemma lane_word A x y : ok25 A -> word_ok 64 (lane A x y).
Proof.
  intros [HA WA]. unfold lane. rewrite Forall_forall in WA. apply WA. apply nth_In. rewrite HA. assert (Hx := Nat.mod_upper_bound x 5 ltac:(lia)). assert (Hy := Nat.mod_upper_bound y 5 ltac:(lia)). lia.
Qed.

Definition col (A : list Z) (x : nat) : Z := Z.lxor (Z.lxor (Z.lxor (Z.lxor (lane A x 0) (lane A x 1)) (lane A x 2)) (lane A x 3)) (lane A x 4).
Lemma col_word A x : ok25 A -> word_ok 64 (col A x).
Proof. intros H. unfold col. repeat apply word_ok_lxor; try lia; now apply lane_word. Qed.
Lemma theta_inj A B : ok25 A -> ok25 B -> theta A = theta B -> A = B.
Proof.
  intros HA HB E. set (c x := Z.lxor (col A x) (col B x)).
  assert (Wc : forall x, word_ok 64 (c x)) by (intros x; apply word_ok_lxor; [lia|now apply col_word|now apply col_word]).
  assert (H : forall x y, (x < 5)%nat -> (y < 5)%nat -> Z.lxor (lane A x y) (lane B x y) = Z.lxor (c (x + 4)%nat) (rotl 64 1 (c (x + 1)%nat))).
  { intros x y Hx Hy. assert (G := f_equal (fun L => lane L x y) E). cbn beta in G. unfold theta in G. rewrite !lanes_at in G by assumption.
    apply lxor_move in G. rewrite G. unfold c. rewrite (rotl_lxor 1 (col A (x + 1)) (col B (x + 1))) by (try (now apply col_word); lia). unfold col.
    repeat match goal with |- context [rotl 64 1 ?t] => generalize (rotl 64 1 t); intro end.
    apply Z.bits_inj. intros i. rewrite !Z.lxor_spec. btauto. }
  assert (K : forall x, (x < 5)%nat -> c x = Z.lxor (c (x + 4)%nat) (rotl 64 1 (c (x + 1)%nat))).
  { intros x Hx. rewrite <- (H x 0%nat Hx ltac:(lia)) at 1. assert (H0 := H x 0%nat Hx ltac:(lia)). assert (H1 := H x 1%nat Hx ltac:(lia)). assert (H2 := H x 2%nat Hx ltac:(lia)). assert (H3 := H x 3%nat Hx ltac:(lia)). assert (H4 := H x 4%nat Hx ltac:(lia)).
    rewrite <- H0 in H1, H2, H3, H4. unfold c, col. apply Z.bits_inj. intros i.
    apply (f_equal (fun z => Z.testbit z i)) in H1, H2, H3, H4. rewrite !Z.lxor_spec in *.
    destruct (Z.testbit (lane A x 0) i), (Z.testbit (lane B x 0) i), (Z.testbit (lane A x 1) i), (Z.testbit (lane B x 1) i), (Z.testbit (lane A x 2) i), (Z.testbit (lane B x 2) i); try discriminate;
      destruct (Z.testbit (lane A x 3) i), (Z.testbit (lane B x 3) i), (Z.testbit (lane A x 4) i), (Z.testbit (lane B x 4) i); try discriminate; reflexivity. }
  destruct (columns_zero (c 0%nat) (c 1%nat) (c 2%nat) (c 3%nat) (c 4%nat)) as (Z0 & Z1 & Z2 & Z3 & Z4).
  { repeat (apply Forall_cons; [apply Wc|]). apply Forall_nil. }
  1: exact (K 0%nat ltac:(lia)). 1: exact (K 1%nat ltac:(lia)). 1: exact (K 2%nat ltac:(lia)). 1: exact (K 3%nat ltac:(lia)). 1: exact (K 4%nat ltac:(lia)).
  apply lane_ext; [apply HA|apply HB|]. intros x y Hx Hy. assert (C0 : c x = 0) by (destruct x as [|[|[|[|[|x]]]]]; try assumption; lia).
  rewrite (K x Hx), <- (H x y Hx Hy) in C0. now apply Z.lxor_eq.
Qed.

Lemma rhopi_inj A B : ok25 A -> ok25 B -> pi (rho A) = pi (rho B) -> A = B.
Proof.
  intros HA HB E. apply lane_ext; [apply HA|apply HB|]. intros x y Hx Hy.
  (* lane (x, y) goes to (y, x') with y + 3 x' = x *)
  set (x' := ((2 * x + 3 * y) mod 5)%nat). assert (Hx' : (x' < 5)%nat) by (apply Nat.mod_upper_bound; lia).
  assert (G := f_equal (fun L => lane L y x') E). cbn beta in G. unfold pi in G. rewrite !lanes_at in G by assumption.
  assert (M : forall L, lane L (y + 3 * x') y = lane L x y).
  { intros L. unfold lane. replace ((y + 3 * x') mod 5)%nat with (x mod 5)%nat; [reflexivity|]. unfold x'.
    rewrite <- Nat.add_mod_idemp_r, Nat.mul_mod_idemp_r, Nat.add_mod_idemp_r by lia. replace (y + 3 * (2 * x + 3 * y))%nat with (x + (x + 2 * y) * 5)%nat by lia. now rewrite Nat.mod_add by lia. }
  rewrite !M in G. unfold rho in G. rewrite !lanes_at in G by assumption.
  assert (Ho : 0 <= rho_offset x y <= 64).
  { unfold rho_offset. destruct (find _ _) as [t|]; [|lia]. assert (B0 := Z.mod_pos_bound ((Z.of_nat t + 1) * (Z.of_nat t + 2) / 2) 64 ltac:(lia)). lia. }
  apply (rotl_inj (rho_offset x y)); try assumption; now apply lane_word.
Qed.

Lemma chi_row a0 a1 a2 a3 a4 b0 b1 b2 b3 b4 :
  Datatypes.xorb a0 (negb a1 && a2) = Datatypes.xorb b0 (negb b1 && b2) -> Datatypes.xorb a1 (negb a2 && a3) = Datatypes.xorb b1 (negb b2 && b3) ->
  Datatypes.xorb a2 (negb a3 && a4) = Datatypes.xorb b2 (negb b3 && b4) -> Datatypes.xorb a3 (negb a4 && a0) = Datatypes.xorb b3 (negb b4 && b0) ->
  Datatypes.xorb a4 (negb a0 && a1) = Datatypes.xorb b4 (negb b0 && b1) -> a0 = b0 /\ a1 = b1 /\ a2 = b2 /\ a3 = b3 /\ a4 = b4.
Proof. destruct a0, a1, a2, a3, a4, b0, b1, b2, b3, b4; cbn; intros; try discriminate; repeat split. Qed.
Lemma chi_inj A B : ok25 A -> ok25 B -> chi A = chi B -> A = B.
Proof.
  intros HA HB E. apply lane_ext; [apply HA|apply HB|]. intros x y Hx Hy. apply word_ext; [now apply lane_word|now apply lane_word|]. intros i Hi.
  assert (K : forall x, (x < 5)%nat -> Datatypes.xorb (Z.testbit (lane A x y) i) (negb (Z.testbit (lane A (x + 1) y) i) && Z.testbit (lane A (x + 2) y) i) =
    Datatypes.xorb (Z.testbit (lane B x y) i) (negb (Z.testbit (lane B (x + 1) y) i) && Z.testbit (lane B (x + 2) y) i)).
  { clear x Hx. intros x Hx. assert (G := f_equal (fun L => Z.testbit (lane L x y) i) E). cbn beta in G. unfold chi in G. rewrite !lanes_at in G by assumption.
    change (2 ^ 64 - 1 - lane A (x + 1) y) with (c_not 64 (lane A (x + 1) y)) in G. change (2 ^ 64 - 1 - lane B (x + 1) y) with (c_not 64 (lane B (x + 1) y)) in G.
    rewrite !Z.lxor_spec, !Z.land_spec, !c_not_testbit in G by (try (now apply lane_word); lia). replace (i <? 64) with true in G by (symmetry; apply Z.ltb_lt; lia). exact G. }
  destruct (chi_row _ _ _ _ _ _ _ _ _ _ (K 0%nat ltac:(lia)) (K 1%nat ltac:(lia)) (K 2%nat ltac:(lia)) (K 3%nat ltac:(lia)) (K 4%nat ltac:(lia))) as (E0 & E1 & E2 & E3 & E4).
  destruct x as [|[|[|[|[|x]]]]]; try assumption. lia.
Qed.
Lemma iota_inj ir A B : ok25 A -> ok25 B -> iota ir A = iota ir B -> A = B.
Proof.
  intros HA HB E. apply lane_ext; [apply HA|apply HB|]. intros x y Hx Hy.
  assert (G := f_equal (fun L => lane L x y) E). cbn beta in G. unfold iota in G. rewrite !lanes_at in G by assumption.
  destruct ((x =? 0)%nat && (y =? 0)%nat); [now apply lxor_cancel in G|exact G].
Qed.
Lemma round_ok ir A : ok25 A -> (ir < 24)%nat -> ok25 (keccak_round A ir).
Proof. intros HA Hi. unfold keccak_round. apply iota_ok; [|exact Hi]. apply chi_ok, rhopi_ok, theta_ok, HA. Qed.
Lemma round_inj ir A B : ok25 A -> ok25 B -> (ir < 24)%nat -> keccak_round A ir = keccak_round B ir -> A = B.
Proof.
  intros HA HB Hi E. unfold keccak_round in E.
  apply iota_inj in E; [|apply chi_ok, rhopi_ok, theta_ok, HA|apply chi_ok, rhopi_ok, theta_ok, HB].
  apply chi_inj in E; [|apply rhopi_ok, theta_ok, HA|apply rhopi_ok, theta_ok, HB].
  apply rhopi_inj in E; [|apply theta_ok, HA|apply theta_ok, HB].
  now apply theta_inj.
Qed.
Theorem keccak_f_inj A B : ok25 A -> ok25 B -> keccak_f A = keccak_f B -> A = B.
Proof.
  assert (H : forall l A B, Forall (fun i => (i < 24)%nat) l -> ok25 A -> ok25 B -> fold_left keccak_round l A = fold_left keccak_round l B -> A = B).
  { clear. intros l. induction l as [|i l IH]; intros A B Hl HA HB E; [exact E|]. inversion Hl as [|? ? Hi Hl']; subst.
    cbn [fold_left] in E. apply IH in E; [|assumption|now apply round_ok|now apply round_ok]. now apply round_inj in E. }
  unfold keccak_f. apply H. apply Forall_forall. intros i Hi. apply in_seq in Hi. lia.
Qed.
