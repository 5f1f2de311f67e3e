(* keccak.c computes the Keccak sponge of FIPS 202. *)
From Verif Require Import Prelude PreludeFacts BytesNum SpecBlock BlockTotal Word HashModel HashSpec HashFacts MdModel ShaModel KeccakModel SpecHash SpecKeccak MdHash Sha.

Definition ok25 (st : list Z) : Prop := length st = 25%nat /\ Forall (word_ok 64) st.

Ltac lanes25 st := do 25 (let a := fresh "a" in destruct st as [|a st]; [discriminate|]); destruct st; [|discriminate].
Ltac words := repeat match goal with H : Forall _ (_ :: _) |- _ => apply Forall_cons_iff in H as (? & H) end.
Ltac wok := repeat first [assumption | lia | apply word_ok_lxor | apply word_ok_rotl | apply word_ok_land | apply (word_ok_not 64)].

Lemma theta_ok st : ok25 st -> k_theta st = theta st /\ ok25 (theta st).
Proof.
  intros (Hl & Hw). lanes25 st. words. assert (H64 : 0 <= 64) by lia.
  assert (E : forall x y, word_ok 64 x -> word_ok 64 y -> c_rol 64 (Z.lxor x y) 1 = rotl 64 1 (Z.lxor x y)) by (intros; apply c_rol_rotl; [apply word_ok_lxor; assumption|lia]).
  split.
  - cbv [k_theta theta map fold_left THETA1 THETA2 kput kget lanes lane seq Nat.modulo Nat.div Nat.divmod Nat.add Nat.mul Nat.sub fst snd nth firstn skipn app].
    rewrite !E by wok. reflexivity.
  - split; [reflexivity|].
    cbv [theta map lanes lane seq Nat.modulo Nat.div Nat.divmod Nat.add Nat.mul Nat.sub fst snd nth].
    repeat first [apply Forall_nil | apply Forall_cons]; wok.
Qed.

Lemma rhopi_ok st : ok25 st -> k_rhopi st = pi (rho st) /\ ok25 (pi (rho st)).
Proof.
  intros (Hl & Hw). lanes25 st. words.
  assert (E : pi (rho [a; a0; a1; a2; a3; a4; a5; a6; a7; a8; a9; a10; a11; a12; a13; a14; a15; a16; a17; a18; a19; a20; a21; a22; a23]) =
    map (fun p => rotl 64 (fst p) (nth (snd p) [a; a0; a1; a2; a3; a4; a5; a6; a7; a8; a9; a10; a11; a12; a13; a14; a15; a16; a17; a18; a19; a20; a21; a22; a23] 0))
      (map (fun i => let x := (i mod 5)%nat in let y := (i / 5)%nat in let x' := ((x + 3 * y) mod 5)%nat in (rho_offset x' x, (x' + 5 * x)%nat)) (seq 0 25))).
  { reflexivity. }
  rewrite E. clear E. set (P := map _ (seq 0 25)). vm_compute in P. subst P. split.
  - cbv [k_rhopi rhopi fold_left RHOPI kput kget nth firstn skipn app fst snd map].
    rewrite !c_rol_rotl by (assumption || lia).
    assert (Z0 : forall x, word_ok 64 x -> rotl 64 0 x = x).
    { intros x (G0 & G1). unfold rotl. rewrite Z.mul_1_r, Z.mod_small, Z.sub_0_r, Z.div_small by lia. lia. }
    rewrite Z0 by assumption. reflexivity.
  - split; [reflexivity|]. cbv [map fst snd nth]. repeat first [apply Forall_nil | apply Forall_cons]; apply word_ok_rotl; (assumption || lia).
Qed.

Lemma chi_ok st : ok25 st -> k_chi st = chi st /\ ok25 (chi st).
Proof.
  intros (Hl & Hw). lanes25 st. words. assert (H64 : 0 <= 64) by lia. split.
  - cbv [k_chi chi map fold_left CHI2 kput kget lanes lane seq Nat.modulo Nat.div Nat.divmod Nat.add Nat.mul Nat.sub fst snd nth firstn skipn app].
    reflexivity.
  - split; [reflexivity|].
    cbv [chi map lanes lane seq Nat.modulo Nat.div Nat.divmod Nat.add Nat.mul Nat.sub fst snd nth].
    repeat first [apply Forall_nil | apply Forall_cons]; wok.
Qed.

Lemma RC_ok : map RC (seq 0 24) = keccakf_rndc.
Proof. vm_compute. reflexivity. Qed.
Lemma RC_nth i : (i < 24)%nat -> nth i keccakf_rndc 0 = RC i /\ word_ok 64 (RC i).
Proof.
  intros Hi. rewrite <- RC_ok. rewrite (nth_indep _ 0 (RC 0)) by (rewrite map_length, seq_length; assumption). rewrite map_nth, seq_nth by assumption. split; [reflexivity|].
  assert (H : forallb (fun i => (0 <=? RC i) && (RC i <? 2 ^ 64)) (seq 0 24) = true) by (vm_compute; reflexivity).
  rewrite forallb_forall in H. specialize (H i). rewrite in_seq in H. specialize (H ltac:(lia)). unfold word_ok. lia.
Qed.

Lemma iota_ok st i : ok25 st -> (i < 24)%nat -> kput st 0 (Z.lxor (kget st 0) (nth i keccakf_rndc 0)) = iota i st /\ ok25 (iota i st).
Proof.
  intros (Hl & Hw) Hi. destruct (RC_nth i Hi) as (-> & Hr). lanes25 st. words.
  assert (E : forall r, lanes (fun x y => if (x =? 0)%nat && (y =? 0)%nat then Z.lxor (lane [a; a0; a1; a2; a3; a4; a5; a6; a7; a8; a9; a10; a11; a12; a13; a14; a15; a16; a17; a18; a19; a20; a21; a22; a23] x y) r else lane [a; a0; a1; a2; a3; a4; a5; a6; a7; a8; a9; a10; a11; a12; a13; a14; a15; a16; a17; a18; a19; a20; a21; a22; a23] x y) =
   [Z.lxor a r; a0; a1; a2; a3; a4; a5; a6; a7; a8; a9; a10; a11; a12; a13; a14; a15; a16; a17; a18; a19; a20; a21; a22; a23]) by reflexivity.
  unfold iota. rewrite E. split; [reflexivity|]. split; [reflexivity|]. repeat first [apply Forall_nil | apply Forall_cons]; try assumption. apply word_ok_lxor; [lia|assumption|assumption].
Qed.

Lemma permutation_ok st : ok25 st -> KeccakPermutation st = keccak_f st /\ ok25 (keccak_f st).
Proof.
  intros H. unfold KeccakPermutation, keccak_f, for_range.
  apply (fold_ext_inv ok25 k_round keccak_round (seq 0 24) st H). intros s i Hs Hi. apply in_seq in Hi.
  unfold k_round, keccak_round. cbv zeta. destruct (theta_ok s Hs) as (-> & H1). destruct (rhopi_ok _ H1) as (-> & H2). destruct (chi_ok _ H2) as (-> & H3).
  apply iota_ok; [assumption|lia].
Qed.

(* ---- absorbing a block ---- *)
Lemma load_le8 b0 b1 b2 b3 b4 b5 b6 b7 : bytes_ok [b0; b1; b2; b3; b4; b5; b6; b7] ->
  Z.lor (Z.lor (Z.lor (Z.lor b0 (c_shl 32 b1 8)) (c_shl 32 b2 16)) (c_shl 32 b3 24))
    (c_shl 64 (Z.lor (Z.lor (Z.lor b4 (c_shl 32 b5 8)) (c_shl 32 b6 16)) (c_shl 32 b7 24)) 32) = le [b0; b1; b2; b3; b4; b5; b6; b7].
Proof.
  intros H. unfold bytes_ok in H. words. unfold byte_ok in *.
  unfold c_shl. rewrite !Z.shiftl_mul_pow2 by lia.
  assert (M : forall b k, 0 <= b <= 255 -> 0 <= k <= 24 -> (b * 2 ^ k) mod 2 ^ 32 = b * 2 ^ k).
  { intros b k Hbb Hk. apply Z.mod_small. assert (0 < 2 ^ k <= 2 ^ 24) by (split; [apply Z.pow_pos_nonneg; lia|apply Z.pow_le_mono_r; lia]).
    change (2 ^ 24) with 16777216 in *. change (2 ^ 32) with 4294967296. nia. }
  rewrite !M by lia. clear M.
  assert (L : forall c0 c1 c2 c3, 0 <= c0 < 256 -> 0 <= c1 < 256 -> 0 <= c2 < 256 -> 0 <= c3 < 256 ->
     Z.lor (Z.lor (Z.lor c0 (c1 * 2 ^ 8)) (c2 * 2 ^ 16)) (c3 * 2 ^ 24) = c0 + c1 * 2 ^ 8 + c2 * 2 ^ 16 + c3 * 2 ^ 24).
  { intros. rewrite (lor_shift_add c0 c1 8) by lia. rewrite (lor_shift_add _ c2 16) by lia. apply lor_shift_add; lia. }
  rewrite !L by lia. clear L. rewrite Z.mod_small by lia. rewrite lor_shift_add by lia. cbn [le]. lia.
Qed.

Lemma kput_length st i x : (i < length st)%nat -> length (kput st i x) = length st.
Proof. intros. unfold kput. rewrite !app_length, firstn_length, skipn_length. cbn [length]. lia. Qed.
Lemma kput_nth st i x j : (i < length st)%nat -> nth j (kput st i x) 0 = if (j =? i)%nat then x else nth j st 0.
Proof.
  intros Hi. unfold kput. destruct (Nat.eqb_spec j i) as [->|].
  - rewrite app_nth2 by (rewrite firstn_length; lia). rewrite firstn_length. replace (i - Nat.min i (length st))%nat with O by lia. reflexivity.
  - destruct (Nat.lt_ge_cases j i).
    + rewrite app_nth1 by (rewrite firstn_length; lia). rewrite <- (firstn_skipn i st) at 2. rewrite app_nth1 by (rewrite firstn_length; lia). reflexivity.
    + rewrite app_nth2 by (rewrite firstn_length; lia). rewrite firstn_length. replace (j - Nat.min i (length st))%nat with (S (j - i - 1)) by lia.
      cbn [app nth]. rewrite <- (firstn_skipn (S i) st) at 2. rewrite app_nth2 by (rewrite firstn_length; lia). f_equal. rewrite firstn_length. lia.
Qed.
Lemma xor_loop (f : nat -> Z) n : forall st, (n <= length st)%nat ->
  let st' := fold_left (fun st i => kput st i (Z.lxor (kget st i) (f i))) (seq 0 n) st in
  length st' = length st /\ forall j, nth j st' 0 = if (j <? n)%nat then Z.lxor (nth j st 0) (f j) else nth j st 0.
Proof.
  induction n as [|n IH]; intros st Hn; [split; reflexivity|]. cbn zeta. rewrite seq_S, fold_left_app. cbn [fold_left Nat.add].
  destruct (IH st ltac:(lia)) as (Hl & Hnth). set (st1 := fold_left _ (seq 0 n) st) in *. split; [rewrite kput_length by lia; assumption|].
  intros j. rewrite kput_nth by lia. unfold kget. rewrite !Hnth. destruct (Nat.eqb_spec j n) as [->|].
  - rewrite Nat.ltb_irrefl. destruct (Nat.ltb_spec n (S n)); [reflexivity|lia].
  - destruct (Nat.ltb_spec j n), (Nat.ltb_spec j (S n)); try reflexivity; lia.
Qed.
Lemma chunks_nth8 n : forall b i, length b = (8 * n)%nat -> (i < n)%nat ->
  nth i (chunks 8 b) [] = [nth (8*i) b 0; nth (8*i+1) b 0; nth (8*i+2) b 0; nth (8*i+3) b 0; nth (8*i+4) b 0; nth (8*i+5) b 0; nth (8*i+6) b 0; nth (8*i+7) b 0].
Proof.
  induction n as [|n IH]; intros b i Hb Hi; [lia|].
  do 8 (destruct b as [|? b]; [cbn in Hb; lia|]). cbn [length] in Hb.
  match goal with |- nth _ (chunks _ ?l) _ = _ => change l with (firstn 8 l ++ b) end. rewrite chunks_cons by (cbn; lia). cbn [firstn].
  destruct i as [|i]; [reflexivity|]. cbn [nth]. rewrite IH by lia.
  replace (8 * S i)%nat with (S (S (S (S (S (S (S (S (8 * i)))))))))%nat by lia. reflexivity.
Qed.
Lemma nth_map_seq {A} (f : nat -> A) n j d : (j < n)%nat -> nth j (map f (seq 0 n)) d = f j.
Proof.
  intros Hj. rewrite (nth_indep _ d (f O)) by (rewrite map_length, seq_length; assumption). rewrite map_nth, seq_nth by assumption. reflexivity.
Qed.
Lemma absorb_ok st p : ok25 st -> zlen p mod 8 = 0 -> zlen p <= 200 -> bytes_ok p ->
  KeccakAbsorb st p = keccak_f (xor_block st p) /\ ok25 (keccak_f (xor_block st p)).
Proof.
  intros Hst Hm Hp Hb. assert (E : exists n, length p = (8 * n)%nat /\ (n <= 25)%nat).
  { exists (Z.to_nat (zlen p / 8)). pose proof (Z.div_mod (zlen p) 8). unfold zlen in *. split; lia. }
  destruct E as (n & En & Hn). unfold KeccakAbsorb, for_range. cbv zeta.
  replace (Z.to_nat (zlen p / 8)) with n by (unfold zlen; rewrite En; replace (Z.of_nat (8 * n)) with (Z.of_nat n * 8) by lia; rewrite Z.div_mul by lia; lia).
  match goal with |- KeccakPermutation (fold_left (fun st i => kput st i (Z.lxor (kget st i) (@?g i))) _ _) = _ /\ _ => set (f := g) end.
  destruct Hst as (Hl & Hw). destruct (xor_loop f n st ltac:(lia)) as (Hl' & Hn'). set (st' := fold_left _ (seq 0 n) st) in *.
  assert (Hb8 : forall i, (i < n)%nat -> f i = le (nth i (chunks 8 p) []) /\ bytes_ok (nth i (chunks 8 p) [])).
  { intros i Hi. rewrite (chunks_nth8 n) by assumption.
    assert (HB : bytes_ok [nth (8*i) p 0; nth (8*i+1) p 0; nth (8*i+2) p 0; nth (8*i+3) p 0; nth (8*i+4) p 0; nth (8*i+5) p 0; nth (8*i+6) p 0; nth (8*i+7) p 0]).
    { assert (forall j, byte_ok (nth j p 0)) by (intros j; destruct (nth_in_or_default j p 0) as [Hin | ->]; [eapply Forall_forall in Hb; eassumption|unfold byte_ok; lia]).
      unfold bytes_ok; repeat constructor; apply H. }
    split; [|assumption]. rewrite <- load_le8 by assumption. unfold f. rewrite Nat.add_0_r. reflexivity. }
  assert (Hlc : length (chunks 8 p) = n).
  { destruct (chunks_length 8 p) as (H1 & _); [lia|assumption|]. unfold zlen in *. rewrite En in H1. replace (Z.of_nat (8 * n)) with (Z.of_nat n * 8) in H1 by lia. rewrite Z.div_mul in H1 by lia. lia. }
  assert (Hx : st' = xor_block st p).
  { apply (nth_ext _ _ 0 0).
    - unfold xor_block. rewrite map_length, seq_length. lia.
    - intros j Hj. rewrite Hn'. unfold xor_block. cbv zeta.
      rewrite nth_map_seq by lia. destruct (Nat.ltb_spec j n).
      + f_equal. rewrite (proj1 (Hb8 j ltac:(assumption))). unfold le_words. symmetry. apply (map_nth le (chunks 8 p) []).
      + rewrite (nth_overflow (le_words 8 p)) by (unfold le_words; rewrite map_length; lia). rewrite Z.lxor_0_r. reflexivity. }
  rewrite Hx. apply permutation_ok. rewrite <- Hx. split; [lia|]. apply Forall_forall. intros x Hin. apply (In_nth _ _ 0) in Hin as (j & Hj & <-).
  rewrite Hn'. assert (Hsj : word_ok 64 (nth j st 0)) by (apply Forall_word_nth; [lia|assumption]).
  destruct (Nat.ltb_spec j n); [|assumption]. apply word_ok_lxor; [lia|assumption|]. destruct (Hb8 j ltac:(assumption)) as (-> & Hb2).
  apply word_ok_le; [assumption|]. rewrite (chunks_nth8 n) by assumption. reflexivity.
Qed.
