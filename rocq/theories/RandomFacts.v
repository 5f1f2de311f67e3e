(* The numbers returned by Bn.random. *)
From Verif Require Import Prelude PreludeFacts BytesNum SpecTransducer TransformModel BlockModel CipherModel StreamModel RngModel BnModel SpecPk Bn SpecRandom.

Lemma lor_1 z : Z.lor z 1 = 2 * (z / 2) + 1.
Proof.
  destruct (Z.odd z) eqn:O.
  - assert (E : z mod 2 = 1) by (rewrite Zmod_odd, O; reflexivity). pose proof (Z.div_mod z 2 ltac:(lia)) as D. rewrite E in D. rewrite <- D.
    apply Z.bits_inj'. intros i Hi. rewrite Z.lor_spec. destruct (Z.eq_dec i 0) as [->|Ni]; [rewrite Z.bit0_odd, O; reflexivity|].
    rewrite (Z.bits_above_log2 1 i) by (cbn; lia). apply orb_false_r.
  - assert (E : z mod 2 = 0) by (rewrite Zmod_odd, O; reflexivity). pose proof (Z.div_mod z 2 ltac:(lia)) as D. rewrite E, Z.add_0_r in D. rewrite <- D.
    assert (L0 : Z.land z 1 = 0); [|rewrite <- (Z.lxor_lor z 1 L0); symmetry; apply Z.add_nocarry_lxor; exact L0]. apply Z.bits_inj'. intros i Hi. rewrite Z.land_spec, Z.bits_0. destruct (Z.eq_dec i 0) as [->|Ni]; [rewrite Z.bit0_odd, O; reflexivity|].
    rewrite (Z.bits_above_log2 1 i) by (cbn; lia). apply andb_false_r.
Qed.
Lemma top_value_check : forallb (fun k => forallb (fun b => Z.lor (Z.land b (Z.shiftl 1 k - 1)) (Z.shiftl 1 k) =? 2 ^ k + b mod 2 ^ k) (map Z.of_nat (seq 0 256))) [0; 1; 2; 3; 4; 5; 6; 7] = true.
Proof. vm_compute. reflexivity. Qed.
Lemma byte_in b : byte_ok b -> In b (map Z.of_nat (seq 0 256)).
Proof. intros B. apply in_map_iff. exists (Z.to_nat b). unfold byte_ok in B. split; [lia|apply in_seq; lia]. Qed.
Lemma top_value k b : 0 <= k < 8 -> byte_ok b -> Z.lor (Z.land b (Z.shiftl 1 k - 1)) (Z.shiftl 1 k) = 2 ^ k + b mod 2 ^ k.
Proof.
  intros K B. pose proof top_value_check as C. rewrite forallb_forall in C. specialize (C k ltac:(cbn; lia)). cbv beta in C. rewrite forallb_forall in C. specialize (C b (byte_in b B)). cbv beta in C. lia.
Qed.
Lemma change_byte_shape s i f s' : change_byte s i f = Ret s' -> exists a x d, s = a ++ x :: d /\ i = zlen a /\ s' = a ++ f x :: d.
Proof.
  intros E. unfold change_byte in E. destruct (bytes_get s i) as [b| | |] eqn:G; try discriminate E. cbn [obind] in E. destruct ((0 <=? f b) && (f b <? 256)) eqn:B; [|discriminate E].
  unfold bytes_get in G. destruct ((0 <=? i) && (i <? zlen s)) eqn:L; [|discriminate G]. injection G as <-.
  assert (Hi : (Z.to_nat i < length s)%nat) by (unfold zlen in L; lia). destruct (nth_split s 0 Hi) as (a & d & Es & La). exists a, (nthZ s i), d. unfold nthZ in *.
  assert (Ei : i = zlen a) by (unfold zlen; lia). split; [exact Es|]. split; [exact Ei|].
  assert (byte_ok (f (nth (Z.to_nat i) s 0))) by (unfold byte_ok; lia).
  pose proof (change_byte_mid a (nth (Z.to_nat i) s 0) d i f Ei H) as M. rewrite <- Es in M. unfold change_byte, bytes_get in M. rewrite L in M. cbn [obind] in M. unfold nthZ in M. rewrite B in M. congruence.
Qed.
Lemma bn_random_value fresh R s odd nb s' n : fresh_ok fresh -> rng_bytes R -> bn_random fresh R s odd nb = (s', Ret n) ->
  exists r, rng_string fresh R s ((nb + 7) / 8) = (s', Ret r) /\ (zlen r = (nb + 7) / 8 -> n = draw odd nb r).
Proof.
  intros F B E. destruct (bn_random_inv _ _ _ _ _ _ _ F B E) as (NB & _). unfold bn_random in E. rewrite quot8 in E by lia. set (L := (nb + 7) / 8) in *.
  destruct (rng_string fresh R s L) as (s1 & r1) eqn:E1. destruct r1 as [b1| | |]; cbn [bind] in E; try discriminate E.
  pose proof (rng_string_inv _ _ _ _ _ _ F B E1) as B1.
  destruct (if odd then change_byte b1 0 (fun b => Z.lor b 1) else Ret b1) as [b2| | |] eqn:E2; cbn [bind] in E; try discriminate E.
  assert (B2 : bytes_ok b2 /\ zlen b2 = zlen b1) by (destruct odd; [apply change_byte_inv in E2; [tauto|exact B1]|injection E2 as <-; auto]). destruct B2 as (B2 & L2).
  set (k := Z.land (nb - 1) 7) in *. assert (K : k = (nb - 1) mod 8) by (unfold k; change 7 with (Z.ones 3); rewrite Z.land_ones by lia; reflexivity). pose proof (Z.mod_pos_bound (nb - 1) 8 ltac:(lia)) as Kb. rewrite <- K in Kb.
  destruct (change_byte b2 (L - 1) _) as [b3| | |] eqn:E3; cbn [bind] in E; try discriminate E.
  destruct (negb _); [discriminate E|]. destruct (odd && _); [discriminate E|]. injection E as <- <-.
  exists b1. split; [reflexivity|]. intros Lr. apply change_byte_shape in E3 as (a & x & d & Eb2 & Ea & Eb3).
  assert (d = []). { apply zlen_0. rewrite Eb2, zlen_app, zlen_cons in L2. lia. } subst d.
  assert (Bx : byte_ok x). { rewrite Eb2 in B2. apply bytes_ok_app in B2 as (_ & B2). apply Forall_inv in B2. exact B2. }
  assert (Ba : bytes_ok a) by (rewrite Eb2 in B2; apply bytes_ok_app in B2; tauto).
  rewrite top_value in Eb3 by assumption.
  assert (W : (if odd then 2 * (le b1 / 2) + 1 else le b1) = le b2).
  { destruct odd; [|injection E2 as <-; reflexivity]. apply change_byte_shape in E2 as (a' & c & d & -> & Ea' & ->). assert (a' = []) by (apply zlen_0; lia). subst a'. cbn [app le]. rewrite lor_1.
    replace (c + 256 * le d) with (c + (128 * le d) * 2) by lia. rewrite Z.div_add by lia. lia. }
  unfold draw. rewrite W, Eb2, Eb3, !le_app. cbn [le]. rewrite !Z.mul_0_r, !Z.add_0_r.
  assert (NK : nb - 1 = 8 * (L - 1) + k).
  { pose proof (Z.div_mod (nb - 1) 8 ltac:(lia)). enough ((nb - 1) / 8 = L - 1) by lia. unfold L. replace (nb + 7) with (nb - 1 + 1 * 8) by ring. rewrite Z.div_add by lia. lia. }
  pose proof (le_bound a Ba) as La. rewrite <- Ea in La |- *. assert (0 <= L - 1) by (rewrite Ea; apply zlen_nonneg).
  rewrite NK, Z.pow_add_r by lia. replace (2 ^ (8 * (L - 1))) with (256 ^ (L - 1)) in * by (change 256 with (2 ^ 8); rewrite <- Z.pow_mul_r by lia; reflexivity).
  set (p := 256 ^ (L - 1)) in *. assert (0 < p) by (unfold p; apply Z.pow_pos_nonneg; lia). set (q := 2 ^ k) in *. assert (0 < q) by (unfold q; apply Z.pow_pos_nonneg; lia).
  assert (Em : (le a + p * x) mod (p * q) = le a + p * (x mod q)).
  { symmetry. apply (Z.mod_unique (le a + p * x) (p * q) (x / q)).
    - left. pose proof (Z.mod_pos_bound x q ltac:(lia)). split; [nia|]. nia.
    - pose proof (Z.div_mod x q ltac:(lia)). rewrite H2 at 1. ring. }
  rewrite Em. ring.
Qed.

(* ---- counting ---- *)
Definition zcount {A} (P : A -> bool) (l : list A) : Z := zlen (filter P l).
Lemma zcount_app {A} (P : A -> bool) l l' : zcount P (l ++ l') = zcount P l + zcount P l'.
Proof. unfold zcount. rewrite filter_app, zlen_app. reflexivity. Qed.
Lemma zcount_map {A B} (P : B -> bool) (f : A -> B) l : zcount P (map f l) = zcount (fun x => P (f x)) l.
Proof. unfold zcount, zlen. induction l as [|x l IH]; [reflexivity|]. cbn [map filter]. destruct (P (f x)); cbn [length]; lia. Qed.
Lemma zcount_ext {A} (P Q : A -> bool) l : (forall x, In x l -> P x = Q x) -> zcount P l = zcount Q l.
Proof. unfold zcount, zlen. intros H. induction l as [|x l IH]; [reflexivity|]. cbn [filter]. rewrite <- (H x) by (left; reflexivity). destruct (P x); cbn [length]; rewrite ?Nat2Z.inj_succ, IH; try reflexivity; intros; apply H; right; assumption. Qed.
Lemma zcount_all {A} (l : list A) : zcount (fun _ => true) l = zlen l.
Proof. unfold zcount, zlen. f_equal. induction l; cbn; congruence. Qed.
Lemma zcount_none {A} (l : list A) : zcount (fun _ => false) l = 0.
Proof. unfold zcount, zlen. induction l; cbn; auto. Qed.
Lemma zcount_blocks (P : bytes -> bool) (Q : Z -> bool) S c : forall B, (forall b, In b B -> zcount P (map (cons b) S) = if Q b then c else 0) ->
  zcount P (concat (map (fun b => map (cons b) S) B)) = c * zcount Q B.
Proof.
  induction B as [|b B IH]; intros H; [unfold zcount, zlen; cbn; lia|]. cbn [map concat]. rewrite zcount_app, H, IH by (try (left; reflexivity); intros; apply H; right; assumption).
  unfold zcount. cbn [filter]. destruct (Q b); [rewrite zlen_cons|]; lia.
Qed.
Lemma strings_len k : zlen (strings k) = 256 ^ Z.of_nat k.
Proof.
  induction k as [|k IH]; [reflexivity|]. rewrite Nat2Z.inj_succ, Z.pow_succ_r, <- IH by lia. cbn [strings].
  transitivity (zcount (fun _ => true) (concat (map (fun b => map (cons b) (strings k)) (map Z.of_nat (seq 0 256))))); [symmetry; apply zcount_all|].
  rewrite (zcount_blocks _ (fun _ => true) (strings k) (zlen (strings k))); [rewrite zcount_all; change (zlen (map Z.of_nat (seq 0 256))) with 256; lia|].
  intros b _. rewrite zcount_map. apply zcount_all.
Qed.
Lemma byte_count_check : forallb (fun m => forallb (fun v => zcount (fun b => b mod 2 ^ m =? v) (map Z.of_nat (seq 0 256)) =? 2 ^ (8 - m)) (map Z.of_nat (seq 0 (Z.to_nat (2 ^ m))))) [0; 1; 2; 3; 4; 5; 6; 7; 8] = true.
Proof. vm_compute. reflexivity. Qed.
Lemma byte_count m v : 0 <= m <= 8 -> 0 <= v < 2 ^ m -> zcount (fun b => b mod 2 ^ m =? v) (map Z.of_nat (seq 0 256)) = 2 ^ (8 - m).
Proof.
  intros M V. pose proof byte_count_check as C. rewrite forallb_forall in C. specialize (C m ltac:(cbn; lia)). cbv beta in C. rewrite forallb_forall in C.
  specialize (C v). assert (In v (map Z.of_nat (seq 0 (Z.to_nat (2 ^ m))))) as Hin. { apply in_map_iff. exists (Z.to_nat v). split; [lia|apply in_seq; lia]. }
  specialize (C Hin). cbv beta in C. lia.
Qed.
Lemma count_low k : forall m v, 0 <= m <= 8 * Z.of_nat k -> 0 <= v < 2 ^ m -> zcount (fun r => le r mod 2 ^ m =? v) (strings k) = 2 ^ (8 * Z.of_nat k - m).
Proof.
  induction k as [|k IH]; intros m v M V.
  { assert (m = 0) as -> by lia. assert (v = 0) as -> by (change (2 ^ 0) with 1 in V; lia). reflexivity. }
  cbn [strings]. destruct (Z_le_gt_dec m 8) as [M8|M8].
  - rewrite (zcount_blocks _ (fun b => b mod 2 ^ m =? v) (strings k) (256 ^ Z.of_nat k)).
    + rewrite byte_count by lia. change 256 with (2 ^ 8). rewrite <- Z.pow_mul_r, <- Z.pow_add_r by lia. f_equal. lia.
    + intros b _. rewrite zcount_map. rewrite (zcount_ext _ (fun _ => b mod 2 ^ m =? v)).
      * destruct (b mod 2 ^ m =? v); [rewrite zcount_all; apply strings_len|apply zcount_none].
      * intros r _. cbn [le]. f_equal. assert (E8 : 256 = 2 ^ (8 - m) * 2 ^ m) by (rewrite <- Z.pow_add_r by lia; change 256 with (2 ^ 8); f_equal; lia). rewrite E8.
        replace (b + 2 ^ (8 - m) * 2 ^ m * le r) with (b + (2 ^ (8 - m) * le r) * 2 ^ m) by ring. apply Z.mod_add. pose proof (Z.pow_pos_nonneg 2 m). lia.
  - set (m' := m - 8). assert (Em : 2 ^ m = 256 * 2 ^ m') by (change 256 with (2 ^ 8); rewrite <- Z.pow_add_r by lia; f_equal; lia). assert (0 < 2 ^ m') by (apply Z.pow_pos_nonneg; lia).
    pose proof (Z.div_mod v 256 ltac:(lia)) as Dv. pose proof (Z.mod_pos_bound v 256 ltac:(lia)) as Mv.
    assert (Vd : 0 <= v / 256 < 2 ^ m') by (split; [apply Z.div_pos; lia|apply Z.div_lt_upper_bound; lia]).
    rewrite (zcount_blocks _ (fun b => b mod 2 ^ 8 =? v mod 256) (strings k) (2 ^ (8 * Z.of_nat k - m'))).
    + rewrite byte_count by (change (2 ^ 8) with 256; lia). change (2 ^ (8 - 8)) with 1. rewrite Z.mul_1_r. f_equal. lia.
    + intros b Hb. assert (Hb' : 0 <= b < 256) by (apply in_map_iff in Hb as (j & <- & Hj); apply in_seq in Hj; lia). rewrite zcount_map. change (2 ^ 8) with 256. rewrite (Z.mod_small b) by lia.
      assert (Hx : forall r, (b + 256 * le r) mod 2 ^ m = b + 256 * (le r mod 2 ^ m')).
      { intros r. rewrite Em. symmetry. apply (Z.mod_unique _ _ (le r / 2 ^ m')).
        - left. pose proof (Z.mod_pos_bound (le r) (2 ^ m') ltac:(lia)). lia.
        - pose proof (Z.div_mod (le r) (2 ^ m') ltac:(lia)) as D. rewrite D at 1. ring. }
      destruct (b =? v mod 256) eqn:Eb.
      * rewrite <- (IH m' (v / 256)) by lia. apply zcount_ext. intros r _. cbn [le]. rewrite Hx. lia.
      * rewrite <- (zcount_none (strings k)). apply zcount_ext. intros r _. cbn [le]. rewrite Hx. lia.
Qed.
Lemma zcount_or {A} (P Q : A -> bool) l : (forall x, In x l -> P x = true -> Q x = false) -> zcount (fun x => P x || Q x) l = zcount P l + zcount Q l.
Proof.
  unfold zcount, zlen. intros H. induction l as [|x l IH]; [reflexivity|]. cbn [filter]. specialize (IH ltac:(intros; apply H; [right|]; assumption)).
  pose proof (H x ltac:(left; reflexivity)) as Hx. destruct (P x); [rewrite Hx by reflexivity|destruct (Q x)]; cbn [orb length]; lia.
Qed.
Lemma draw_uniform nb n : 1 <= nb -> 2 ^ (nb - 1) <= n < 2 ^ nb ->
  zlen (filter (fun r => draw false nb r =? n) (strings (Z.to_nat ((nb + 7) / 8)))) = 2 ^ (8 * ((nb + 7) / 8) - (nb - 1)).
Proof.
  intros NB N. destruct (bytes_for nb ltac:(lia)) as (L1 & L2). set (L := (nb + 7) / 8) in *. replace nb with (nb - 1 + 1) in N at 2 by lia. rewrite Z.pow_add_r in N by lia. change (2 ^ 1) with 2 in N.
  change (zlen (filter ?f ?l)) with (zcount f l). rewrite (zcount_ext _ (fun r => le r mod 2 ^ (nb - 1) =? n - 2 ^ (nb - 1))).
  - rewrite count_low by lia. f_equal. lia.
  - intros r _. unfold draw. lia.
Qed.
Lemma draw_uniform_odd nb n : 2 <= nb -> 2 ^ (nb - 1) <= n < 2 ^ nb -> Z.odd n = true ->
  zlen (filter (fun r => draw true nb r =? n) (strings (Z.to_nat ((nb + 7) / 8)))) = 2 ^ (8 * ((nb + 7) / 8) - (nb - 2)).
Proof.
  intros NB N O. destruct (bytes_for nb ltac:(lia)) as (L1 & L2). set (L := (nb + 7) / 8) in *. replace nb with (nb - 1 + 1) in N at 2 by lia. rewrite Z.pow_add_r in N by lia. change (2 ^ 1) with 2 in N.
  assert (E2 : 2 ^ (nb - 1) = 2 * 2 ^ (nb - 2)) by (rewrite <- Z.pow_succ_r by lia; f_equal; lia). set (q := 2 ^ (nb - 2)) in *. assert (0 < q) by (apply Z.pow_pos_nonneg; lia).
  set (v := n - 2 ^ (nb - 1)). assert (Ov : v mod 2 = 1). { unfold v. rewrite E2. rewrite <- Zminus_mod_idemp_r, (Z.mul_comm 2), Z.mod_mul, Z.sub_0_r by lia. rewrite Zmod_odd, O. reflexivity. }
  change (zlen (filter ?f ?l)) with (zcount f l). rewrite (zcount_ext _ (fun r => (le r mod 2 ^ (nb - 1) =? v) || (le r mod 2 ^ (nb - 1) =? v - 1))).
  - rewrite zcount_or by (intros; lia). assert (0 < v) by (destruct (Z.eq_dec v 0) as [E|]; [rewrite E in Ov; discriminate Ov|lia]). rewrite !count_low by lia. rewrite Z2Nat.id by lia.
    replace (8 * L - (nb - 2)) with (Z.succ (8 * L - (nb - 1))) by lia. rewrite Z.pow_succ_r by lia. lia.
  - intros r _. unfold draw. rewrite E2. fold v. assert (D : forall z, (2 * z + 1) mod (2 * q) = 2 * (z mod q) + 1).
    { intros z. symmetry. apply (Z.mod_unique _ _ (z / q)); [left; pose proof (Z.mod_pos_bound z q ltac:(lia)); lia|]. pose proof (Z.div_mod z q ltac:(lia)) as Dz. rewrite Dz at 1. ring. }
    rewrite D. pose proof (Z.div_mod (le r) 2 ltac:(lia)) as D2. pose proof (Z.mod_pos_bound (le r) 2 ltac:(lia)).
    assert (D3 : le r mod (2 * q) = 2 * ((le r / 2) mod q) + le r mod 2).
    { symmetry. apply (Z.mod_unique _ _ (le r / 2 / q)); [left; pose proof (Z.mod_pos_bound (le r / 2) q ltac:(lia)); lia|]. pose proof (Z.div_mod (le r / 2) q ltac:(lia)). lia. }
    rewrite D3. pose proof (Z.div_mod v 2 ltac:(lia)). unfold v in *. rewrite E2 in *. lia.
Qed.
Lemma bn_random_draw fresh R s odd nb : fresh_ok fresh -> rng_bytes R -> rng_total R -> 1 <= nb -> (nb + 7) / 8 <= max_string_length ->
  exists s' r, rng_string fresh R s ((nb + 7) / 8) = (s', Ret r) /\ zlen r = (nb + 7) / 8 /\ bn_random fresh R s odd nb = (s', Ret (draw odd nb r)).
Proof.
  intros F B T NB M. destruct (bn_random_ok fresh R s odd nb F B T NB M) as (s' & n & E). destruct (bn_random_value _ _ _ _ _ _ _ F B E) as (r & E1 & E2). exists s', r.
  assert (L : zlen r = (nb + 7) / 8).
  { unfold rng_string in E1. destruct (bytes_for nb ltac:(lia)) as (L1 & L2). set (L := (nb + 7) / 8) in *. replace ((L <? 0) || (L >? max_string_length)) with false in E1 by lia.
    destruct (T s (fresh L) L ltac:(lia) (proj1 (F L ltac:(lia)))) as (T1 & T2). destruct (r_bytes R s (fresh L) 0 L) as ((s1 & b) & x). cbn [fst snd] in *. subst x. cbn [obind] in E1. injection E1 as _ <-. exact T2. }
  split; [exact E1|]. split; [exact L|]. rewrite E, (E2 L). reflexivity.
Qed.
