(* d3des.c computes the DES of FIPS 46-3. *)
From Verif Require Import Prelude PreludeFacts BytesNum Word KeccakModel BlockModel CipherModel SpecDes DesModel DesBits.
From Verif Require AesField.
From Coq Require Import Btauto.

(* ---- the round function ---- *)
(* the bits of a subkey in the two words of the cooked key *)
Definition lay (g1 g2 g3 g4 : nat) (K : list bool) : list bool :=
  flat_map (fun g => [false; false] ++ firstn 6 (skipn (6 * g) K)) [g1; g2; g3; g4].
Definition lay0 := lay 0 2 4 6.
Definition lay1 := lay 1 3 5 7.
(* the four bits of box i in the 32 bits before P *)
Definition place (i : nat) (v : list bool) : list bool := repeat false (4 * i) ++ v ++ repeat false (28 - 4 * i).
Definition sp_ok (SP : list Z) (S : list Z) (i : nat) : Prop := forall b0 b1 b2 b3 b4 b5,
  nth (Z.to_nat (num [b0; b1; b2; b3; b4; b5])) SP 0 = num (rot_left 1 (permute P_table (place i (select S [b0; b1; b2; b3; b4; b5])))).
Ltac sp := intros b0 b1 b2 b3 b4 b5; destruct b0, b1, b2, b3, b4, b5; vm_compute; reflexivity.
Lemma SP1_ok : sp_ok SP1 S1 0. Proof. sp. Qed.
Lemma SP2_ok : sp_ok SP2 S2 1. Proof. sp. Qed.
Lemma SP3_ok : sp_ok SP3 S3 2. Proof. sp. Qed.
Lemma SP4_ok : sp_ok SP4 S4 3. Proof. sp. Qed.
Lemma SP5_ok : sp_ok SP5 S5 4. Proof. sp. Qed.
Lemma SP6_ok : sp_ok SP6 S6 5. Proof. sp. Qed.
Lemma SP7_ok : sp_ok SP7 S7 6. Proof. sp. Qed.
Lemma SP8_ok : sp_ok SP8 S8 7. Proof. sp. Qed.

Definition M3f : list bool := Eval vm_compute in mask_bits 0x3f.
Lemma index_0 l : length l = 32%nat -> Z.land (c_shr (num l) 0) 0x3f = num (skipn 26 l).
Proof. intros H. unfold c_shr. rewrite Z.shiftr_0_r. explode l H. change 0x3f with (num M3f). unfold M3f. rewrite num_land by reflexivity. symmetry. rewrite <- (num_pad 26). symmetry. apply f_equal. cbn [skipn]. listed. bits_eq. Qed.
Lemma index_n l s n : length l = 32%nat -> s = Z.of_nat n -> (n = 8 \/ n = 16 \/ n = 24)%nat -> Z.land (c_shr (num l) s) 0x3f = num (firstn 6 (skipn (26 - n) l)).
Proof.
  intros H -> Hn. explode l H. change 0x3f with (num M3f). unfold M3f. destruct Hn as [->|[->| ->]];
  (erewrite num_shr by (reflexivity || apply Nat.leb_le; reflexivity)); rewrite num_land by reflexivity; symmetry; rewrite <- (num_pad 26); symmetry; apply f_equal; listed; bits_eq.
Qed.
Lemma six_eta (l : list bool) : length l = 6%nat -> l = [nth 0 l false; nth 1 l false; nth 2 l false; nth 3 l false; nth 4 l false; nth 5 l false].
Proof. intros H. explode l H. reflexivity. Qed.
Lemma sp_at SP S i l : sp_ok SP S i -> length l = 6%nat -> nth (Z.to_nat (num l)) SP 0 = num (rot_left 1 (permute P_table (place i (select S l)))).
Proof. intros H Hl. rewrite (six_eta l Hl). apply H. Qed.
Lemma permute_length t l : length (permute t l) = length t.
Proof. apply map_length. Qed.
Lemma place_or v0 v1 v2 v3 v4 v5 v6 v7 : Forall (fun v => length v = 4%nat) [v0; v1; v2; v3; v4; v5; v6; v7] ->
  let q i v := rot_left 1 (permute P_table (place i v)) in
  map2 orb (map2 orb (map2 orb (map2 orb (map2 orb (map2 orb (map2 orb (q 6%nat v6) (q 4%nat v4)) (q 2%nat v2)) (q 0%nat v0)) (q 7%nat v7)) (q 5%nat v5)) (q 3%nat v3)) (q 1%nat v1)
  = rot_left 1 (permute P_table (v0 ++ v1 ++ v2 ++ v3 ++ v4 ++ v5 ++ v6 ++ v7)).
Proof.
  intros H. repeat (apply Forall_cons_iff in H; let E := fresh "E" in destruct H as (E & H)). clear H.
  explode v0 E. explode v1 E0. explode v2 E1. explode v3 E2. explode v4 E3. explode v5 E4. explode v6 E5. explode v7 E6.
  unfold place, rot_left, permute. cbn [app repeat map nth Nat.sub Nat.mul Nat.add P_table skipn firstn]. listed. rewrite ?orb_false_r, ?orb_false_l. reflexivity.
Qed.
Lemma select_length S b : length (select S b) = 4%nat.
Proof. reflexivity. Qed.
Lemma rot_permute_P v : length (rot_left 1 (permute P_table v)) = 32%nat.
Proof. apply rot32; [lia|apply permute_length]. Qed.
Lemma lay_length0 K : length K = 48%nat -> length (lay0 K) = 32%nat.
Proof. intros H. explode K H. reflexivity. Qed.
Lemma lay_length1 K : length K = 48%nat -> length (lay1 K) = 32%nat.
Proof. intros H. explode K H. reflexivity. Qed.
Lemma map2_length f a b : length a = length b -> length (map2 f a b) = length a.
Proof. intros. unfold map2. rewrite map_length, combine_length. lia. Qed.
Ltac lenor := lazymatch goal with
  | |- length (map2 _ _ _) = _ => rewrite map2_length by lenor; lenor
  | |- _ = length (map2 _ _ _) => rewrite map2_length by lenor; lenor
  | |- _ => rewrite ?rot_permute_P; reflexivity end.
Lemma fval_ok R K : length R = 32%nat -> length K = 48%nat ->
  fval (num (rot_left 1 R)) (num (lay0 K)) (num (lay1 K)) = num (rot_left 1 (des_f R K)).
Proof.
  intros HR HK. assert (H0 := lay_length0 K HK). assert (H1 := lay_length1 K HK). assert (HR1 : length (rot_left 1 R) = 32%nat) by (apply rot32; [lia|exact HR]).
  assert (HR4 : length (rot_left 28 (rot_left 1 R)) = 32%nat) by (apply rot32; [lia|exact HR1]).
  unfold fval. rewrite ror_4 by exact HR1. rewrite !num_lxor by congruence.
  set (w0 := map2 Datatypes.xorb (rot_left 28 (rot_left 1 R)) (lay0 K)). set (w1 := map2 Datatypes.xorb (rot_left 1 R) (lay1 K)).
  assert (L0 : length w0 = 32%nat) by (unfold w0; rewrite map2_length; congruence). assert (L1 : length w1 = 32%nat) by (unfold w1; rewrite map2_length; congruence).
  cbn zeta. rewrite !index_0 by assumption. rewrite !(index_n _ 8 8), !(index_n _ 16 16), !(index_n _ 24 24) by (assumption || reflexivity || lia).
  rewrite (sp_at _ _ _ _ SP7_ok), (sp_at _ _ _ _ SP5_ok), (sp_at _ _ _ _ SP3_ok), (sp_at _ _ _ _ SP1_ok), (sp_at _ _ _ _ SP8_ok), (sp_at _ _ _ _ SP6_ok), (sp_at _ _ _ _ SP4_ok), (sp_at _ _ _ _ SP2_ok)
    by (rewrite ?firstn_length, skipn_length, ?L0, ?L1; reflexivity).
  rewrite !num_lor by lenor. rewrite place_or by (repeat constructor). apply f_equal. unfold des_f. apply f_equal. apply f_equal. unfold S_all, w0, w1.
  clear - HR HK. explode R HR. explode K HK. reflexivity.
Qed.

(* ---- sixteen rounds ---- *)
Lemma xor_bits_map2 a b : xor_bits a b = map2 Datatypes.xorb a b.
Proof. reflexivity. Qed.
Lemma xor_rot n a b : length a = 32%nat -> length b = 32%nat -> map2 Datatypes.xorb (rot_left n a) (rot_left n b) = rot_left n (xor_bits a b).
Proof.
  intros Ha Hb. unfold rot_left, xor_bits, map2.
  assert (C : forall (a b c d : list bool), length a = length b -> combine (a ++ c) (b ++ d) = combine a b ++ combine c d).
  { clear. induction a as [|x a IH]; intros [|y b] c d H; try discriminate H; [reflexivity|]. injection H as H. cbn [app combine]. rewrite IH by exact H. reflexivity. }
  rewrite C by (rewrite !skipn_length; lia). rewrite map_app, skipn_map, firstn_map. f_equal; f_equal.
  - revert a b Ha Hb. generalize 32%nat. induction n as [|n IH]; intros k a b Ha Hb; [reflexivity|]. destruct a, b; try reflexivity; cbn [length] in *; try lia. cbn [skipn combine]. apply (IH (k - 1)%nat); lia.
  - rewrite combine_firstn. reflexivity.
Qed.
Lemma des_f_length R K : length (des_f R K) = 32%nat.
Proof. apply permute_length. Qed.
Lemma xor_bits_length a b : length a = length b -> length (xor_bits a b) = length a.
Proof. apply map2_length. Qed.
Definition key_word (Ks : list (list bool)) (n : nat) : Z :=
  let K := nth (n / 2) Ks [] in num (if Nat.even n then lay0 K else lay1 K).
Lemma des_round_two R L K : length L = 32%nat -> length R = 32%nat -> length K = 48%nat ->
  Z.lxor (num (rot_left 1 L)) (fval (num (rot_left 1 R)) (num (lay0 K)) (num (lay1 K))) = num (rot_left 1 (xor_bits L (des_f R K))).
Proof.
  intros HL HR HK. rewrite fval_ok by assumption. assert (HF := des_f_length R K). rewrite num_lxor by (rewrite !rot32; try assumption; lia).
  rewrite xor_rot by assumption. reflexivity.
Qed.
Lemma des_rounds_ok keys : forall Ks n L R, length Ks = (2 * n)%nat -> Forall (fun K => length K = 48%nat) Ks -> length L = 32%nat -> length R = 32%nat ->
  forall p, (forall i, (i < 4 * n)%nat -> kget keys (4 * p + i) = key_word Ks i) ->
  exists L' R', length L' = 32%nat /\ length R' = 32%nat /\ fold_left des_round Ks (L, R) = (L', R') /\
    fold_left (fun lr r => let (leftt, right) := lr : Z * Z in
      let leftt := Z.lxor leftt (fval right (kget keys (4 * r)) (kget keys (4 * r + 1))) in
      let right := Z.lxor right (fval leftt (kget keys (4 * r + 2)) (kget keys (4 * r + 3))) in
      (leftt, right)) (seq p n) (num (rot_left 1 L), num (rot_left 1 R)) = (num (rot_left 1 L'), num (rot_left 1 R')).
Proof.
  intros Ks n. revert Ks. induction n as [|n IH]; intros Ks L R HL HK L1 L2 p Hk.
  - destruct Ks; [|discriminate HL]. exists L, R. repeat split; assumption.
  - destruct Ks as [|Ka [|Kb Ks]]; cbn [length] in HL; try lia. apply Forall_cons_iff in HK. destruct HK as (Ha & HK). apply Forall_cons_iff in HK. destruct HK as (Hb & HK).
    cbn [seq fold_left]. 
    assert (W0 : kget keys (4 * p) = num (lay0 Ka)) by (specialize (Hk 0%nat ltac:(lia)); rewrite Nat.add_0_r in Hk; exact Hk).
    assert (W1 : kget keys (4 * p + 1) = num (lay1 Ka)) by (apply (Hk 1%nat); lia).
    assert (W2 : kget keys (4 * p + 2) = num (lay0 Kb)) by (apply (Hk 2%nat); lia).
    assert (W3 : kget keys (4 * p + 3) = num (lay1 Kb)) by (apply (Hk 3%nat); lia).
    rewrite W0, W1, W2, W3. cbn zeta. rewrite des_round_two by assumption.
    assert (LA : length (xor_bits L (des_f R Ka)) = 32%nat) by (rewrite xor_bits_length; [exact L1|rewrite des_f_length; exact L1]).
    rewrite des_round_two by assumption.
    assert (LB : length (xor_bits R (des_f (xor_bits L (des_f R Ka)) Kb)) = 32%nat) by (rewrite xor_bits_length; [exact L2|rewrite des_f_length; exact L2]).
    unfold des_round at 3. cbn [fst snd]. unfold des_round at 2. cbn [fst snd].
    apply (IH Ks _ _); try assumption; [lia|]. intros i Hi. replace (4 * S p + i)%nat with (4 * p + (4 + i))%nat by lia. rewrite Hk by lia.
    unfold key_word. replace ((4 + i) / 2)%nat with (S (S (i / 2))) by (change (4 + i)%nat with (2 * 2 + i)%nat; rewrite (Nat.add_comm (2 * 2)), Nat.div_add by lia; lia).
    cbn [nth]. replace (Nat.even (4 + i)) with (Nat.even i) by reflexivity. reflexivity.
Qed.

(* ---- the key schedule ---- *)
Lemma kn_fold (l : list (bool * list bool)) : forall a, Forall (fun p => length (snd p) = 32%nat) l -> length a = 32%nat ->
  fold_left (fun acc (p : bool * list bool) => if fst p then Z.lor acc (num (snd p)) else acc) l (num a) =
  num (fold_left (fun acc (p : bool * list bool) => map2 orb (map (fun x => andb x (fst p)) (snd p)) acc) l a).
Proof.
  induction l as [|(b, w) l IH]; intros a H Ha; [reflexivity|]. apply Forall_cons_iff in H. destruct H as (Hw & H). cbn [fst snd] in Hw. cbn [fold_left fst snd].
  assert (E : (if b then Z.lor (num a) (num w) else num a) = num (map2 orb (map (fun x => andb x b) w) a)).
  { destruct b.
    - rewrite num_lor by congruence. f_equal. clear. revert w. induction a as [|x a IH]; intros [|y w]; try reflexivity. unfold map2 in *. cbn [combine map fst snd]. rewrite IH, andb_true_r, orb_comm. reflexivity.
    - f_equal. clear - Hw Ha. assert (length a = length w) by congruence. clear Hw Ha. revert w H. induction a as [|x a IH]; intros [|y w] H; try discriminate H; [reflexivity|]. injection H as H. unfold map2 in *. cbn [combine map fst snd]. rewrite <- IH by exact H. rewrite andb_false_r. reflexivity. }
  rewrite E. apply IH; [exact H|]. rewrite map2_length; rewrite map_length; congruence.
Qed.
Definition big_bits (j : nat) : list bool := map (fun i => Nat.eqb i (j + 8)) (seq 0 32).
Lemma big_bits_ok j : (j < 24)%nat -> nth j bigbyte 0 = num (big_bits j).
Proof. intros H. do 24 (destruct j as [|j]; [reflexivity|]). lia. Qed.
Lemma fold_map_ext {A B C} (f : A -> B -> A) (g : A -> C -> A) (h : C -> B) l : (forall a x, In x l -> g a x = f a (h x)) ->
  forall a, fold_left g l a = fold_left f (map h l) a.
Proof.
  induction l as [|x l IH]; intros H a; [reflexivity|]. cbn [map fold_left]. rewrite H by (left; reflexivity). apply IH. intros. apply H. right. assumption.
Qed.
Lemma big_or (f : nat -> bool) :
  fold_left (fun acc (p : bool * list bool) => map2 orb (map (fun x => andb x (fst p)) (snd p)) acc) (map (fun j => (f j, big_bits j)) (seq 0 24)) (repeat false 32)
  = repeat false 8 ++ map f (seq 0 24).
Proof. vm_compute. repeat (apply f_equal2; [first [reflexivity | match goal with |- (if ?b then _ else _) = _ => destruct b; reflexivity end]|]). reflexivity. Qed.
Lemma kn_word_ok p off : kn_word p off = num (repeat false 8 ++ map (fun j => nth (nth (j + off) pc2 0%nat) p false) (seq 0 24)).
Proof.
  unfold kn_word. rewrite (fold_map_ext (fun acc (q : bool * list bool) => if fst q then Z.lor acc (num (snd q)) else acc) _
    (fun j => (nth (nth (j + off) pc2 0%nat) p false, big_bits j))).
  2:{ intros a x Hx. apply in_seq in Hx. cbn [fst snd]. rewrite (big_bits_ok x) by lia. reflexivity. }
  change 0 with (num (repeat false 32)) at 1. rewrite kn_fold; [|apply Forall_forall; intros q Hq; apply in_map_iff in Hq; destruct Hq as (j & <- & _); reflexivity|reflexivity].
  apply f_equal. apply big_or.
Qed.
Lemma cook_ok a b : length a = 24%nat -> length b = 24%nat ->
  let w l := num (repeat false 8 ++ l) in
  cook0 (w a) (w b) = num (lay0 (a ++ b)) /\ cook1 (w a) (w b) = num (lay1 (a ++ b)).
Proof.
  intros Ha Hb. cbn zeta. unfold cook0, cook1. 
  change 0x00fc0000 with (num (repeat false 8 ++ repeat true 6 ++ repeat false 18)). change 0x00000fc0 with (num (repeat false 20 ++ repeat true 6 ++ repeat false 6)).
  change 0x0003f000 with (num (repeat false 14 ++ repeat true 6 ++ repeat false 12)). change 0x0000003f with (num (repeat false 26 ++ repeat true 6)).
  explode a Ha. explode b Hb. rewrite !num_land by reflexivity.
  rewrite (num_shl _ 6 6), (num_shl _ 10 10), (num_shr _ 10 10), (num_shr _ 6 6), (num_shl _ 12 12), (num_shl _ 16 16), (num_shr _ 4 4) by (reflexivity || apply Nat.leb_le; reflexivity).
  rewrite !num_lor by reflexivity. split; apply f_equal.
  - unfold lay0, lay; cbn [flat_map app Nat.mul Nat.add skipn firstn]; listed; bits_eq.
  - unfold lay1, lay; cbn [flat_map app Nat.mul Nat.add skipn firstn]; listed; bits_eq.
Qed.
Lemma bytebit_ok b m : byte_ok b -> (m < 8)%nat -> negb (Z.land b (nth m bytebit 0) =? 0) = Z.testbit b (7 - Z.of_nat m).
Proof.
  intros B Hm. revert b B. assert (G : forall b, byte_ok b -> forallb (fun m => Bool.eqb (negb (Z.land b (nth m bytebit 0) =? 0)) (Z.testbit b (7 - Z.of_nat m))) (seq 0 8) = true).
  { apply AesField.by_bytes. vm_compute. reflexivity. }
  intros b B. specialize (G b B). rewrite forallb_forall in G. specialize (G m). apply Bool.eqb_prop, G. apply in_seq. lia.
Qed.
Lemma pc1m_ok key : zlen key = 8 -> bytes_ok key -> pc1m key = permute PC1 (bits_of key).
Proof.
  intros L B. unfold pc1m, permute. assert (E : pc1 = map (fun i => (i - 1)%nat) PC1) by reflexivity. rewrite E, map_map. apply map_ext_in. intros i Hi.
  assert (Hr : (i - 1 < 64)%nat). { clear - Hi. assert (G : forallb (fun i => (i - 1 <? 64)%nat) PC1 = true) by reflexivity. rewrite forallb_forall in G. apply G in Hi. lia. }
  generalize dependent (i - 1)%nat. intros n Hn. assert (length key = 8%nat) by (unfold zlen in L; lia). clear L E Hi i.
  rewrite bytebit_ok; [|apply (proj1 (Forall_forall _ _) B); apply nth_In; rewrite H; apply Nat.div_lt_upper_bound; lia|apply Nat.mod_upper_bound; lia].
  rewrite (Nat.div_mod n 8) at 3 by lia. assert (Hm : (n mod 8 < 8)%nat) by (apply Nat.mod_upper_bound; lia).
  assert (Hd : (n / 8 < 8)%nat) by (apply Nat.div_lt_upper_bound; lia). generalize dependent (n / 8)%nat. generalize dependent (n mod 8)%nat. clear Hn n B. intros m Hm d Hd.
  explode key H. do 8 (destruct d as [|d]; [do 8 (destruct m as [|m]; [reflexivity|]); lia|]). lia.
Qed.
Lemma schedule_ok m : length m = 56%nat -> schedule left_shifts (firstn 28 m) (skipn 28 m) = map (fun i => permute PC2 (pcr m i)) (seq 0 16).
Proof. intros H. explode m H. vm_compute. reflexivity. Qed.
Lemma pcr_length m i : length (pcr m i) = 56%nat.
Proof. unfold pcr. rewrite app_length, !map_length, !seq_length. reflexivity. Qed.
Lemma pc2_split p : map (fun j => nth (nth (j + 0) pc2 0%nat) p false) (seq 0 24) ++ map (fun j => nth (nth (j + 24) pc2 0%nat) p false) (seq 0 24) = permute PC2 p.
Proof. reflexivity. Qed.
Lemma kn_enc (f g : nat -> Z) : fold_left (fun kn i => kput (kput kn (2 * i) (f i)) (2 * i + 1) (g i)) (seq 0 16) (repeat 0 32) = flat_map (fun i => [f i; g i]) (seq 0 16).
Proof. reflexivity. Qed.
Lemma kn_dec (f g : nat -> Z) : fold_left (fun kn i => kput (kput kn (2 * (15 - i)) (f i)) (2 * (15 - i) + 1) (g i)) (seq 0 16) (repeat 0 32) = flat_map (fun i => [f (15 - i); g (15 - i)]%nat) (seq 0 16).
Proof. reflexivity. Qed.
Lemma cookey_flat (f g : nat -> Z) : cookey (flat_map (fun i => [f i; g i]) (seq 0 16)) = flat_map (fun i => [cook0 (f i) (g i); cook1 (f i) (g i)]) (seq 0 16).
Proof. reflexivity. Qed.
Lemma flat_words (f g : nat -> Z) n : (n < 32)%nat -> kget (flat_map (fun i => [f i; g i]) (seq 0 16)) n = if Nat.even n then f (n / 2)%nat else g (n / 2)%nat.
Proof. intros H. do 32 (destruct n as [|n]; [reflexivity|]). lia. Qed.
Definition des_dir_keys (d : dir) (key : bytes) : list (list bool) := match d with Encrypt => des_keys key | Decrypt => rev (des_keys key) end.
Lemma cook_word m i : let K := permute PC2 (pcr m i) in
  cook0 (kn_word (pcr m i) 0) (kn_word (pcr m i) 24) = num (lay0 K) /\ cook1 (kn_word (pcr m i) 0) (kn_word (pcr m i) 24) = num (lay1 K).
Proof. cbn zeta. rewrite !kn_word_ok, <- pc2_split. refine (cook_ok _ _ _ _); rewrite map_length; apply seq_length. Qed.
Lemma nth_map_seq16 (f : nat -> list bool) n : (n < 16)%nat -> nth n (map f (seq 0 16)) [] = f n.
Proof. intros H. rewrite (nth_indep _ [] (f 0%nat)) by (rewrite map_length, seq_length; exact H). rewrite map_nth, seq_nth by exact H. reflexivity. Qed.
Lemma cooked_key key d n : zlen key = 8 -> bytes_ok key -> (n < 32)%nat -> kget (d3des_cook_key key d) n = key_word (des_dir_keys d key) n.
Proof.
  intros L B Hn. unfold d3des_cook_key. set (m := pc1m key). assert (Hm : m = permute PC1 (bits_of key)) by (apply pc1m_ok; assumption).
  assert (HK : des_keys key = map (fun i => permute PC2 (pcr m i)) (seq 0 16)) by (unfold des_keys; rewrite <- Hm; apply schedule_ok; rewrite Hm; apply permute_length).
  assert (H2 : (n / 2 < 16)%nat) by (apply Nat.div_lt_upper_bound; lia). unfold key_word, des_dir_keys. rewrite HK. destruct d; unfold kn_array.
  - rewrite (kn_enc (fun i => kn_word (pcr m i) 0) (fun i => kn_word (pcr m i) 24)), cookey_flat, flat_words by exact Hn.
    rewrite nth_map_seq16 by exact H2. destruct (cook_word m (n / 2)) as (-> & ->). destruct (Nat.even n); reflexivity.
  - rewrite (kn_dec (fun i => kn_word (pcr m i) 0) (fun i => kn_word (pcr m i) 24)).
    rewrite (cookey_flat (fun i => kn_word (pcr m (15 - i)) 0) (fun i => kn_word (pcr m (15 - i)) 24)), flat_words by exact Hn.
    rewrite rev_nth by (rewrite map_length, seq_length; exact H2). rewrite map_length, seq_length, nth_map_seq16 by lia.
    replace (16 - S (n / 2))%nat with (15 - n / 2)%nat by lia.
    destruct (cook_word m (15 - n / 2)) as (-> & ->). destruct (Nat.even n); reflexivity.
Qed.
Lemma des_keys_length key d : length (des_dir_keys d key) = 16%nat /\ Forall (fun K => length K = 48%nat) (des_dir_keys d key).
Proof.
  assert (G : forall sh C D, length (schedule sh C D) = length sh /\ Forall (fun K => length K = 48%nat) (schedule sh C D)).
  { induction sh as [|n sh IH]; intros C D; [split; [reflexivity|constructor]|]. cbn [schedule length]. destruct (IH (rot_left n C) (rot_left n D)) as (-> & H2). split; [reflexivity|]. constructor; [reflexivity|exact H2]. }
  destruct d; unfold des_dir_keys, des_keys; cbn zeta; [apply G|]. destruct (G left_shifts (firstn 28 (permute PC1 (bits_of key))) (skipn 28 (permute PC1 (bits_of key)))) as (H1 & H2).
  split; [rewrite rev_length; exact H1|apply Forall_rev; exact H2].
Qed.

(* ---- blocks ---- *)
Lemma num_byte b : byte_ok b -> num (byte_bits b) = b.
Proof. intros B. apply Z.eqb_eq. revert b B. apply AesField.by_bytes. vm_compute. reflexivity. Qed.
Lemma byte_bits_length b : length (byte_bits b) = 8%nat.
Proof. reflexivity. Qed.
Lemma scrunch4 a b c d : byte_ok a -> byte_ok b -> byte_ok c -> byte_ok d ->
  Z.lor (Z.lor (Z.lor (c_shl 32 a 24) (c_shl 32 b 16)) (c_shl 32 c 8)) d = num (byte_bits a ++ byte_bits b ++ byte_bits c ++ byte_bits d).
Proof.
  intros A B C D. rewrite <- (num_byte a A), <- (num_byte b B), <- (num_byte c C), <- (num_byte d D) at 1.
  generalize (byte_bits_length a) (byte_bits_length b) (byte_bits_length c) (byte_bits_length d). generalize (byte_bits a) (byte_bits b) (byte_bits c) (byte_bits d). clear. intros p q r s Hp Hq Hr Hs.
  rewrite <- (num_pad 24 p), <- (num_pad 24 q), <- (num_pad 24 r), <- (num_pad 24 s). explode p Hp. explode q Hq. explode r Hr. explode s Hs.
  rewrite (num_shl _ 24 24), (num_shl _ 16 16), (num_shl _ 8 8) by (reflexivity || apply Nat.leb_le; reflexivity). rewrite !num_lor by reflexivity.
  apply f_equal. listed. bits_eq.
Qed.
Lemma unscrun_ok l : length l = 32%nat -> unscrun (num l) = bytes_of_bits 4 l.
Proof.
  intros H. unfold unscrun. cbn [bytes_of_bits].
  assert (G : forall n, (n < 4)%nat -> (c_shr (num l) (Z.of_nat (8 * n))) mod 256 = num (firstn 8 (skipn (24 - 8 * n) l))).
  { intros n Hn. change 256 with (2 ^ 8). rewrite <- Z.land_ones by lia. change (Z.ones 8) with (num (repeat false 24 ++ repeat true 8)).
    explode l H. do 4 (destruct n as [|n]; [rewrite (num_shr _ _ _ eq_refl) by (apply Nat.leb_le; reflexivity); rewrite num_land by reflexivity; symmetry; rewrite <- (num_pad 24); symmetry; apply f_equal; cbn -[andb]; bits_eq|]). lia. }
  assert (G0 := G 0%nat ltac:(lia)). assert (G1 := G 1%nat ltac:(lia)). assert (G2 := G 2%nat ltac:(lia)). assert (G3 := G 3%nat ltac:(lia)).
  change (Z.of_nat (8 * 0)) with 0 in G0. change (c_shr (num l) 0) with (num l) in G0. rewrite G0.
  change (Z.of_nat (8 * 1)) with 8 in G1. change (Z.of_nat (8 * 2)) with 16 in G2. change (Z.of_nat (8 * 3)) with 24 in G3. rewrite G1, G2, G3.
  rewrite !skipn_skipn. reflexivity.
Qed.
Lemma bytes_of_bits_8 l : length l = 64%nat -> bytes_of_bits 8 l = bytes_of_bits 4 (firstn 32 l) ++ bytes_of_bits 4 (skipn 32 l).
Proof. intros H. explode l H. reflexivity. Qed.
Lemma bits_of_length b : length (bits_of b) = (8 * length b)%nat.
Proof. induction b as [|x b IH]; [reflexivity|]. cbn [bits_of flat_map]. rewrite app_length, byte_bits_length. fold (bits_of b). rewrite IH. cbn [length]. lia. Qed.
Lemma d3des_ok key d b : zlen key = 8 -> bytes_ok key -> zlen b = 8 -> bytes_ok b ->
  d3des_transform (d3des_cook_key key d) b = bytes_of_bits 8 (des_bits (des_dir_keys d key) (bits_of b)).
Proof.
  intros Lk Bk Lb Bb. assert (Hb : length b = 8%nat) by (unfold zlen in Lb; lia). assert (L64 : length (bits_of b) = 64%nat) by (rewrite bits_of_length, Hb; reflexivity).
  assert (S0 : scrunch b 0 = num (firstn 32 (bits_of b)) /\ scrunch b 4 = num (skipn 32 (bits_of b))).
  { clear L64 Lb. explode b Hb. AesField.bytes_inv Bb. unfold scrunch. cbn [nth Nat.add]. split; (rewrite scrunch4 by assumption); reflexivity. }
  unfold d3des_transform, des_bits. destruct S0 as (-> & ->). rewrite des_initial_ok by exact L64. cbn zeta.
  destruct (des_keys_length key d) as (KL & KF). assert (LI : length (permute IP (bits_of b)) = 64%nat) by apply permute_length.
  destruct (des_rounds_ok (d3des_cook_key key d) (des_dir_keys d key) 8 (firstn 32 (permute IP (bits_of b))) (skipn 32 (permute IP (bits_of b)))) with (p := 0%nat) as (L' & R' & HL & HR & E1 & E2).
  - exact KL.
  - exact KF.
  - rewrite firstn_length, LI. reflexivity.
  - rewrite skipn_length, LI. reflexivity.
  - intros i Hi. apply cooked_key; assumption.
  - change (des_rounds (d3des_cook_key key d) (num (rot_left 1 (firstn 32 (permute IP (bits_of b)))), num (rot_left 1 (skipn 32 (permute IP (bits_of b))))) = (num (rot_left 1 L'), num (rot_left 1 R'))) in E2.
    rewrite E1, E2, des_final_ok by assumption. cbn [fst snd]. rewrite bytes_of_bits_8 by apply permute_length.
    rewrite !unscrun_ok; [reflexivity|rewrite skipn_length, permute_length; reflexivity|rewrite firstn_length, permute_length; reflexivity].
Qed.
