(* The table-driven AES of rijndael-alg-fst.c computes FIPS 197. *)
From Verif Require Import Prelude PreludeFacts BytesNum SpecBlock SpecModes BlockTotal Word WordIO KeccakModel Keccak
  SpecAes AesField AesModel MacApi Blake3.

(* ---- words of four bytes, as big-endian numbers ---- *)
Definition wordb (w : bytes) : Prop := length w = 4%nat /\ bytes_ok w.
Lemma wordb_elim (P : bytes -> Prop) :
  (forall a b c d, byte_ok a -> byte_ok b -> byte_ok c -> byte_ok d -> P [a; b; c; d]) -> forall w, wordb w -> P w.
Proof.
  intros H w (L & B). do 4 (destruct w as [|? w]; [discriminate L|]). destruct w; [|discriminate L].
  bytes_inv B. apply H; assumption.
Qed.
Lemma be4 a b c d : be [a; b; c; d] = a * 2 ^ 24 + b * 2 ^ 16 + c * 2 ^ 8 + d.
Proof. unfold be. cbn [rev app le]. lia. Qed.
Section Bytes.
Variables a b c d : Z.
Hypotheses (Ha : byte_ok a) (Hb : byte_ok b) (Hc : byte_ok c) (Hd : byte_ok d).
Lemma b3_be : b3 (be [a; b; c; d]) = a.
Proof. rewrite be4. unfold b3, c_shr. rewrite Z.shiftr_div_pow2 by lia. unfold byte_ok in *. lia. Qed.
Lemma b2_be : b2 (be [a; b; c; d]) = b.
Proof. rewrite be4. unfold b2, c_shr. change 255 with (Z.ones 8). rewrite Z.land_ones, Z.shiftr_div_pow2 by lia. unfold byte_ok in *. lia. Qed.
Lemma b1_be : b1 (be [a; b; c; d]) = c.
Proof. rewrite be4. unfold b1, c_shr. change 255 with (Z.ones 8). rewrite Z.land_ones, Z.shiftr_div_pow2 by lia. unfold byte_ok in *. lia. Qed.
Lemma b0_be : b0 (be [a; b; c; d]) = d.
Proof. rewrite be4. unfold b0. change 255 with (Z.ones 8). rewrite Z.land_ones by lia. unfold byte_ok in *. lia. Qed.
Lemma PUTU32_be : PUTU32 (be [a; b; c; d]) = [a; b; c; d].
Proof.
  unfold PUTU32, c_shr. rewrite be4, !Z.shiftr_div_pow2 by lia. unfold byte_ok in *. repeat f_equal; lia.
Qed.
End Bytes.
Lemma be_lxor a b c d a' b' c' d' : byte_ok a -> byte_ok b -> byte_ok c -> byte_ok d -> byte_ok a' -> byte_ok b' -> byte_ok c' -> byte_ok d' ->
  Z.lxor (be [a; b; c; d]) (be [a'; b'; c'; d']) = be [Z.lxor a a'; Z.lxor b b'; Z.lxor c c'; Z.lxor d d'].
Proof. intros. symmetry. apply (be_xorb [a; b; c; d] [a'; b'; c'; d']); [reflexivity| |]; bytes_intro; assumption. Qed.
Lemma GETU32_be a b c d l i : byte_ok a -> byte_ok b -> byte_ok c -> byte_ok d ->
  nth i l 0 = a -> nth (i + 1) l 0 = b -> nth (i + 2) l 0 = c -> nth (i + 3) l 0 = d ->
  GETU32 l i = be [a; b; c; d].
Proof.
  intros Ha Hb Hc Hd. unfold GETU32, c_shl. intros -> -> -> ->. rewrite !Z.shiftl_mul_pow2 by lia.
  assert (byte_ok 0) by (unfold byte_ok; lia).
  replace ((a * 2 ^ 24) mod 2 ^ 32) with (be [a; 0; 0; 0]) by (rewrite be4; unfold byte_ok in *; lia).
  replace ((b * 2 ^ 16) mod 2 ^ 32) with (be [0; b; 0; 0]) by (rewrite be4; unfold byte_ok in *; lia).
  replace ((c * 2 ^ 8) mod 2 ^ 32) with (be [0; 0; c; 0]) by (rewrite be4; unfold byte_ok in *; lia).
  replace d with (be [0; 0; 0; d]) at 1 by (rewrite be4; lia).
  rewrite !be_lxor by (repeat match goal with |- byte_ok (Z.lxor _ _) => apply lxor_byte end; assumption).
  rewrite ?Z.lxor_0_l, ?Z.lxor_0_r. reflexivity.
Qed.
Lemma GETU32_sub l i : (i + 4 <= length l)%nat -> bytes_ok l -> GETU32 l i = be (firstn 4 (skipn i l)) /\ wordb (firstn 4 (skipn i l)).
Proof.
  intros Hl Hb. rewrite <- (firstn_skipn i l) in Hb. apply bytes_ok_app in Hb as (_ & Hb).
  assert (Hn : forall j, nth (i + j) l 0 = nth j (skipn i l) 0).
  { intros j. clear Hb. revert i Hl. induction l as [|x l IH]; intros [|i] Hl; cbn [length] in Hl; try reflexivity; try lia. cbn [Nat.add nth skipn]. apply IH. lia. }
  pose proof (skipn_length i l) as L. pose proof (Hn 0%nat) as H0. rewrite Nat.add_0_r in H0.
  pose proof (Hn 1%nat) as H1. pose proof (Hn 2%nat) as H2. pose proof (Hn 3%nat) as H3.
  destruct (skipn i l) as [|a [|b [|c [|d m]]]]; cbn [length] in L; try lia. cbn [nth] in H0, H1, H2, H3. cbn [firstn].
  assert (Hb' : bytes_ok [a; b; c; d]) by (change (a :: b :: c :: d :: m) with ([a; b; c; d] ++ m) in Hb; apply bytes_ok_app in Hb; apply Hb).
  split; [|split; [reflexivity|exact Hb']]. bytes_inv Hb'. apply GETU32_be; assumption.
Qed.
Lemma be_lxor_w v w : wordb v -> wordb w -> Z.lxor (be v) (be w) = be (xorb v w).
Proof. intros (L & B) (L' & B'). symmetry. apply be_xorb; [congruence| |]; assumption. Qed.
Lemma wordb_xor v w : wordb v -> wordb w -> wordb (xorb v w).
Proof. intros (L & B) (L' & B'). split; [rewrite xorb_length; congruence|apply bytes_ok_xorb; assumption]. Qed.

(* ---- the tables ---- *)
Lemma table (T : list Z) (f : Z -> Z) : forallb (fun x => tab T x =? f x) all_bytes = true ->
  forall x, byte_ok x -> tab T x = f x.
Proof. intros H x Hx. apply Z.eqb_eq. revert x Hx. apply by_bytes. exact H. Qed.
Lemma byte_mask (f g : Z -> Z) : forallb (fun x => f x =? g x) all_bytes = true -> forall x, byte_ok x -> f x = g x.
Proof. intros H x Hx. apply Z.eqb_eq. revert x Hx. apply by_bytes. exact H. Qed.
(* the S-boxes as lists, computed once *)
Definition sbox_list : list Z := Eval vm_compute in map sbox all_bytes.
Definition inv_sbox_list : list Z := Eval vm_compute in map inv_sbox all_bytes.
Lemma nth_all f x : byte_ok x -> nth (Z.to_nat x) (map f all_bytes) 0 = f x.
Proof.
  intros H. unfold byte_ok in H. unfold all_bytes. rewrite map_map, (nth_indep _ 0 (f (Z.of_nat 0))) by (rewrite map_length, seq_length; lia).
  rewrite (map_nth (fun i => f (Z.of_nat i))). rewrite seq_nth by lia. f_equal. lia.
Qed.
Lemma sbox_list_ok : map sbox all_bytes = sbox_list.
Proof. vm_compute. reflexivity. Qed.
Lemma sbox_nth x : byte_ok x -> sbox x = tab sbox_list x.
Proof. intros H. unfold tab. rewrite <- (nth_all sbox x H), sbox_list_ok. reflexivity. Qed.
Lemma inv_sbox_list_ok : map inv_sbox all_bytes = inv_sbox_list.
Proof. vm_compute. reflexivity. Qed.
Lemma inv_sbox_nth x : byte_ok x -> inv_sbox x = tab inv_sbox_list x.
Proof. intros H. unfold tab. rewrite <- (nth_all inv_sbox x H), inv_sbox_list_ok. reflexivity. Qed.
Definition b4 (a b c d : Z) : Z := be [a; b; c; d].
Lemma Te_tables x : byte_ok x -> let y := sbox x in
  tab Te0 x = be [gmul 2 y; y; y; gmul 3 y] /\ tab Te1 x = be [gmul 3 y; gmul 2 y; y; y] /\
  tab Te2 x = be [y; gmul 3 y; gmul 2 y; y] /\ tab Te3 x = be [y; y; gmul 3 y; gmul 2 y] /\
  tab Te4 x = be [y; y; y; y].
Proof.
  intros H y. unfold y. rewrite (sbox_nth x H).
  repeat split; revert x H y; intros x H _; revert x H.
  - apply (table Te0 (fun x => let y := tab sbox_list x in be [gmul 2 y; y; y; gmul 3 y])). vm_compute. reflexivity.
  - apply (table Te1 (fun x => let y := tab sbox_list x in be [gmul 3 y; gmul 2 y; y; y])). vm_compute. reflexivity.
  - apply (table Te2 (fun x => let y := tab sbox_list x in be [y; gmul 3 y; gmul 2 y; y])). vm_compute. reflexivity.
  - apply (table Te3 (fun x => let y := tab sbox_list x in be [y; y; gmul 3 y; gmul 2 y])). vm_compute. reflexivity.
  - apply (table Te4 (fun x => let y := tab sbox_list x in be [y; y; y; y])). vm_compute. reflexivity.
Qed.
Lemma Td_tables x : byte_ok x -> let y := inv_sbox x in
  tab Td0 x = be [gmul 14 y; gmul 9 y; gmul 13 y; gmul 11 y] /\ tab Td1 x = be [gmul 11 y; gmul 14 y; gmul 9 y; gmul 13 y] /\
  tab Td2 x = be [gmul 13 y; gmul 11 y; gmul 14 y; gmul 9 y] /\ tab Td3 x = be [gmul 9 y; gmul 13 y; gmul 11 y; gmul 14 y] /\
  tab Td4 x = be [y; y; y; y].
Proof.
  intros H y. unfold y. rewrite (inv_sbox_nth x H).
  repeat split; revert x H y; intros x H _; revert x H.
  - apply (table Td0 (fun x => let y := tab inv_sbox_list x in be [gmul 14 y; gmul 9 y; gmul 13 y; gmul 11 y])). vm_compute. reflexivity.
  - apply (table Td1 (fun x => let y := tab inv_sbox_list x in be [gmul 11 y; gmul 14 y; gmul 9 y; gmul 13 y])). vm_compute. reflexivity.
  - apply (table Td2 (fun x => let y := tab inv_sbox_list x in be [gmul 13 y; gmul 11 y; gmul 14 y; gmul 9 y])). vm_compute. reflexivity.
  - apply (table Td3 (fun x => let y := tab inv_sbox_list x in be [gmul 9 y; gmul 13 y; gmul 11 y; gmul 14 y])). vm_compute. reflexivity.
  - apply (table Td4 (fun x => let y := tab inv_sbox_list x in be [y; y; y; y])). vm_compute. reflexivity.
Qed.
Lemma masks y : byte_ok y ->
  Z.land (be [y; y; y; y]) 0xff000000 = be [y; 0; 0; 0] /\ Z.land (be [y; y; y; y]) 0x00ff0000 = be [0; y; 0; 0] /\
  Z.land (be [y; y; y; y]) 0x0000ff00 = be [0; 0; y; 0] /\ Z.land (be [y; y; y; y]) 0x000000ff = be [0; 0; 0; y].
Proof.
  intros H. repeat split; revert y H.
  - apply (byte_mask (fun y => Z.land (be [y; y; y; y]) 0xff000000) (fun y => be [y; 0; 0; 0])). vm_compute. reflexivity.
  - apply (byte_mask (fun y => Z.land (be [y; y; y; y]) 0x00ff0000) (fun y => be [0; y; 0; 0])). vm_compute. reflexivity.
  - apply (byte_mask (fun y => Z.land (be [y; y; y; y]) 0x0000ff00) (fun y => be [0; 0; y; 0])). vm_compute. reflexivity.
  - apply (byte_mask (fun y => Z.land (be [y; y; y; y]) 0x000000ff) (fun y => be [0; 0; 0; y])). vm_compute. reflexivity.
Qed.
Global Opaque gmul sbox inv_sbox Te0 Te1 Te2 Te3 Te4 Td0 Td1 Td2 Td3 Td4.
Lemma byte0 : byte_ok 0. Proof. small. Qed.
Lemma sub4_box T f a b c d : (forall x, byte_ok x -> byte_ok (f x)) -> (forall x, byte_ok x -> tab T x = be [f x; f x; f x; f x]) ->
  byte_ok a -> byte_ok b -> byte_ok c -> byte_ok d -> sub4 T a b c d = be [f a; f b; f c; f d].
Proof.
  intros Hf HT Ha Hb Hc Hd. pose proof byte0. unfold sub4. rewrite !HT by assumption.
  destruct (masks (f a)) as (-> & _); [auto|]. destruct (masks (f b)) as (_ & -> & _); [auto|].
  destruct (masks (f c)) as (_ & _ & -> & _); [auto|]. destruct (masks (f d)) as (_ & _ & _ & ->); [auto|].
  rewrite !be_lxor by (lxor_bytes; auto). rewrite ?Z.lxor_0_l, ?Z.lxor_0_r. reflexivity.
Qed.
Lemma sub4_Te4 a b c d : byte_ok a -> byte_ok b -> byte_ok c -> byte_ok d -> sub4 Te4 a b c d = be [sbox a; sbox b; sbox c; sbox d].
Proof. apply sub4_box; [apply sbox_ok|]. intros x Hx. apply (Te_tables x Hx). Qed.
Lemma sub4_Td4 a b c d : byte_ok a -> byte_ok b -> byte_ok c -> byte_ok d -> sub4 Td4 a b c d = be [inv_sbox a; inv_sbox b; inv_sbox c; inv_sbox d].
Proof. apply sub4_box; [apply inv_sbox_ok|]. intros x Hx. apply (Td_tables x Hx). Qed.

(* a column through the tables *)
Lemma te_column a b c d : byte_ok a -> byte_ok b -> byte_ok c -> byte_ok d ->
  Z.lxor (Z.lxor (Z.lxor (tab Te0 a) (tab Te1 b)) (tab Te2 c)) (tab Te3 d) = be (mixcol 2 3 1 1 (sbox a) (sbox b) (sbox c) (sbox d)).
Proof.
  intros Ha Hb Hc Hd. destruct (Te_tables a Ha) as (-> & _). destruct (Te_tables b Hb) as (_ & -> & _).
  destruct (Te_tables c Hc) as (_ & _ & -> & _). destruct (Te_tables d Hd) as (_ & _ & _ & -> & _).
  apply sbox_ok in Ha, Hb, Hc, Hd. assert (forall m y, byte_ok m -> byte_ok (gmul m y)) by (intros; apply gmul_ok; assumption).
  assert (byte_ok 2) by small. assert (byte_ok 3) by small.
  rewrite !be_lxor by (lxor_bytes; auto). unfold mixcol, dot4. rewrite !Z.lxor_0_l, !gmul_1 by assumption. reflexivity.
Qed.
Lemma td_column f a b c d : (forall x, byte_ok x -> byte_ok (f x)) -> byte_ok a -> byte_ok b -> byte_ok c -> byte_ok d ->
  Z.lxor (Z.lxor (Z.lxor (tab Td0 (f a)) (tab Td1 (f b))) (tab Td2 (f c))) (tab Td3 (f d)) =
  be (mixcol 14 11 13 9 (inv_sbox (f a)) (inv_sbox (f b)) (inv_sbox (f c)) (inv_sbox (f d))).
Proof.
  intros Hf Ha Hb Hc Hd. apply Hf in Ha, Hb, Hc, Hd.
  destruct (Td_tables _ Ha) as (-> & _). destruct (Td_tables _ Hb) as (_ & -> & _).
  destruct (Td_tables _ Hc) as (_ & _ & -> & _). destruct (Td_tables _ Hd) as (_ & _ & _ & -> & _).
  apply inv_sbox_ok in Ha, Hb, Hc, Hd. assert (forall m y, byte_ok m -> byte_ok (gmul m y)) by (intros; apply gmul_ok; assumption).
  assert (byte_ok 14) by small. assert (byte_ok 11) by small. assert (byte_ok 13) by small. assert (byte_ok 9) by small.
  rewrite !be_lxor by (lxor_bytes; auto). unfold mixcol, dot4. rewrite !Z.lxor_0_l. reflexivity.
Qed.

(* ---- the state in four words ---- *)
Definition col (s : bytes) (c : nat) : bytes := firstn 4 (skipn (4 * c) s).
Definition quad_of (s : bytes) : quad := (be (col s 0), be (col s 1), be (col s 2), be (col s 3)).
(* the four words at p of the array are the block k *)
Definition key_at (rk : list Z) (p : nat) (k : bytes) : Prop :=
  kget rk p = be (col k 0) /\ kget rk (p + 1) = be (col k 1) /\ kget rk (p + 2) = be (col k 2) /\ kget rk (p + 3) = be (col k 3).
Ltac bees := rewrite ?b3_be, ?b2_be, ?b1_be, ?b0_be by assumption.
Lemma enc_round_ok rk p s k : blk s -> blk k -> key_at rk p k -> enc_round rk p (quad_of s) = quad_of (aes_round s k).
Proof.
  intros Hs Hk. revert s Hs. apply (blk_elim (fun s => key_at rk p k -> enc_round rk p (quad_of s) = quad_of (aes_round s k))).
  intros ? ? ? ? ? ? ? ? ? ? ? ? ? ? ? ? H. revert k Hk. apply (blk_elim (fun k => key_at rk p k -> enc_round rk p _ = quad_of (aes_round _ k))).
  intros ? ? ? ? ? ? ? ? ? ? ? ? ? ? ? ? H' (K0 & K1 & K2 & K3). bytes_inv H. bytes_inv H'.
  cbn [col firstn skipn Nat.mul Nat.add] in K0, K1, K2, K3.
  unfold enc_round, quad_of. cbn [col firstn skipn Nat.mul Nat.add]. unfold tword. rewrite K0, K1, K2, K3. bees.
  rewrite !te_column by assumption. unfold mixcol. 
  assert (byte_ok 1) by small. assert (byte_ok 2) by small. assert (byte_ok 3) by small.
  rewrite !be_lxor by (try apply dot4_ok; assumption). reflexivity.
Qed.
Lemma dec_round_ok rk p s k : blk s -> blk k -> key_at rk p k -> dec_round rk p (quad_of s) = quad_of (eq_inv_round s k).
Proof.
  intros Hs Hk. revert s Hs. apply (blk_elim (fun s => key_at rk p k -> dec_round rk p (quad_of s) = quad_of (eq_inv_round s k))).
  intros ? ? ? ? ? ? ? ? ? ? ? ? ? ? ? ? H. revert k Hk. apply (blk_elim (fun k => key_at rk p k -> dec_round rk p _ = quad_of (eq_inv_round _ k))).
  intros ? ? ? ? ? ? ? ? ? ? ? ? ? ? ? ? H' (K0 & K1 & K2 & K3). bytes_inv H. bytes_inv H'.
  cbn [col firstn skipn Nat.mul Nat.add] in K0, K1, K2, K3.
  unfold dec_round, quad_of. cbn [col firstn skipn Nat.mul Nat.add]. unfold tword. rewrite K0, K1, K2, K3. bees.
  rewrite !(td_column (fun x => x)) by auto. unfold mixcol.
  assert (byte_ok 14) by small. assert (byte_ok 11) by small. assert (byte_ok 13) by small. assert (byte_ok 9) by small.
  rewrite !be_lxor by (try apply dot4_ok; assumption). reflexivity.
Qed.
Lemma enc_last_ok rk p s k : blk s -> blk k -> key_at rk p k -> enc_last rk p (quad_of s) = xorb (ShiftRows (SubBytes s)) k.
Proof.
  intros Hs Hk. revert s Hs. apply (blk_elim (fun s => key_at rk p k -> enc_last rk p (quad_of s) = xorb (ShiftRows (SubBytes s)) k)).
  intros ? ? ? ? ? ? ? ? ? ? ? ? ? ? ? ? H. revert k Hk. apply (blk_elim (fun k => key_at rk p k -> enc_last rk p _ = xorb _ k)).
  intros ? ? ? ? ? ? ? ? ? ? ? ? ? ? ? ? H' (K0 & K1 & K2 & K3). bytes_inv H. bytes_inv H'.
  cbn [col firstn skipn Nat.mul Nat.add] in K0, K1, K2, K3.
  unfold enc_last, quad_of. cbn [col firstn skipn Nat.mul Nat.add]. rewrite K0, K1, K2, K3. bees.
  rewrite !sub4_Te4 by assumption. rewrite !be_lxor by (try apply sbox_ok; assumption).
  rewrite !PUTU32_be by (apply lxor_byte; try apply sbox_ok; assumption). reflexivity.
Qed.
Lemma dec_last_ok rk p s k : blk s -> blk k -> key_at rk p k -> dec_last rk p (quad_of s) = xorb (InvSubBytes (InvShiftRows s)) k.
Proof.
  intros Hs Hk. revert s Hs. apply (blk_elim (fun s => key_at rk p k -> dec_last rk p (quad_of s) = xorb (InvSubBytes (InvShiftRows s)) k)).
  intros ? ? ? ? ? ? ? ? ? ? ? ? ? ? ? ? H. revert k Hk. apply (blk_elim (fun k => key_at rk p k -> dec_last rk p _ = xorb _ k)).
  intros ? ? ? ? ? ? ? ? ? ? ? ? ? ? ? ? H' (K0 & K1 & K2 & K3). bytes_inv H. bytes_inv H'.
  cbn [col firstn skipn Nat.mul Nat.add] in K0, K1, K2, K3.
  unfold dec_last, quad_of. cbn [col firstn skipn Nat.mul Nat.add]. rewrite K0, K1, K2, K3. bees.
  rewrite !sub4_Td4 by assumption. rewrite !be_lxor by (try apply inv_sbox_ok; assumption).
  rewrite !PUTU32_be by (apply lxor_byte; try apply inv_sbox_ok; assumption). reflexivity.
Qed.
Lemma col_ok s c : blk s -> (c < 4)%nat -> GETU32 s (4 * c) = be (col s c) /\ wordb (col s c).
Proof. intros (L & B) H. unfold col. apply GETU32_sub; [unfold zlen in L; lia|exact B]. Qed.
Lemma col_xor s k c : length s = length k -> col (xorb s k) c = xorb (col s c) (col k c).
Proof.
  intros H. unfold col. rewrite <- (firstn_skipn (4 * c) s) at 1. rewrite <- (firstn_skipn (4 * c) k) at 1.
  rewrite xorb_app by (rewrite !firstn_length; lia). rewrite skipn_app.
  assert (E : length (xorb (firstn (4 * c) s) (firstn (4 * c) k)) = Nat.min (4 * c) (length s)) by (rewrite xorb_length; rewrite !firstn_length; lia).
  rewrite skipn_all2 by lia. cbn [app]. rewrite E.
  assert (L : length (skipn (4 * c) s) = length (skipn (4 * c) k)) by (rewrite !skipn_length; lia).
  rewrite <- (firstn_skipn 4 (skipn (4 * c) s)) at 1. rewrite <- (firstn_skipn 4 (skipn (4 * c) k)) at 1.
  rewrite xorb_app by (rewrite !firstn_length; lia).
  destruct (Nat.le_gt_cases (length s) (4 * c)).
  - rewrite !(skipn_all2 (n := (4 * c)%nat)) by lia. cbn [firstn skipn xorb combine map app]. rewrite skipn_nil. reflexivity.
  - replace (4 * c - Nat.min (4 * c) (length s))%nat with 0%nat by lia. rewrite skipn_O, firstn_app.
    assert (E' : length (xorb (firstn 4 (skipn (4 * c) s)) (firstn 4 (skipn (4 * c) k))) = Nat.min 4 (length (skipn (4 * c) s))) by (rewrite xorb_length; rewrite !firstn_length; lia).
    rewrite E'. rewrite firstn_all2 by lia. rewrite <- (app_nil_r (xorb _ _)) at 2. f_equal.
    destruct (Nat.le_gt_cases 4 (length (skipn (4 * c) s))).
    + replace (4 - Nat.min 4 (length (skipn (4 * c) s)))%nat with 0%nat by lia. reflexivity.
    + rewrite (skipn_all2 (skipn (4 * c) s)) by lia. rewrite xorb_nil_l. apply firstn_nil.
Qed.
Lemma aes_load_ok rk s k : blk s -> blk k -> key_at rk 0 k -> aes_load rk s = quad_of (xorb s k).
Proof.
  intros Hs Hk (K0 & K1 & K2 & K3). cbn [Nat.add] in *. unfold aes_load, quad_of. rewrite K0, K1, K2, K3.
  assert (L : length s = length k) by (destruct Hs as (L & _), Hk as (L' & _); unfold zlen in *; lia).
  assert (E : forall c, (c < 4)%nat -> Z.lxor (GETU32 s (4 * c)) (be (col k c)) = be (col (xorb s k) c)).
  { intros c Hc. destruct (col_ok s c Hs Hc) as (-> & W), (col_ok k c Hk Hc) as (_ & W'). rewrite col_xor by exact L. apply be_lxor_w; assumption. }
  rewrite <- !E by lia. reflexivity.
Qed.

(* ---- the loop over the rounds ---- *)
Definition holds (rk : list Z) (ks : list bytes) : Prop :=
  forall i, (i < length ks)%nat -> key_at rk (4 * i) (nth i ks []).
Section Loop.
Variables (F : bytes -> bytes -> bytes) (round : nat -> quad -> quad) (ks : list bytes).
Hypothesis F_blk : forall s k, blk s -> blk k -> blk (F s k).
Hypothesis round_ok : forall i s, blk s -> (i < length ks)%nat -> round (4 * i)%nat (quad_of s) = quad_of (F s (nth i ks [])).
Hypothesis ks_ok : Forall blk ks.
Lemma ks_nth i : (i < length ks)%nat -> blk (nth i ks []).
Proof. intros H. rewrite Forall_forall in ks_ok. apply ks_ok, nth_In, H. Qed.
Lemma skipn_nth_cons i : (i < length ks)%nat -> skipn i ks = nth i ks [] :: skipn (S i) ks.
Proof.
  clear. revert i. induction ks as [|k l IH]; intros [|i] H; cbn [length] in H; try lia; [reflexivity|]. cbn [skipn nth]. apply IH. lia.
Qed.
Lemma two_rounds_ok r : forall i s, blk s -> (0 < r)%nat -> (i + 2 * r <= length ks)%nat ->
  two_rounds round r (4 * i) (quad_of s) = (quad_of (fold_left F (firstn (2 * r - 1) (skipn (S i) ks)) s), (4 * (i + 2 * r))%nat).
Proof using F_blk round_ok ks_ok.
  induction r as [|r IH]; intros i s Hs Hr Hl; [lia|]. cbn [two_rounds].
  replace (4 * i + 4)%nat with (4 * S i)%nat by lia. rewrite round_ok by (try assumption; lia).
  assert (H1 : blk (F s (nth (S i) ks []))) by (apply F_blk; [assumption|apply ks_nth; lia]).
  destruct r as [|r'].
  - rewrite (skipn_nth_cons (S i)) by lia. cbn [Nat.mul Nat.add Nat.sub firstn fold_left]. f_equal. lia.
  - replace (4 * i + 8)%nat with (4 * S (S i))%nat by lia.
    rewrite round_ok by (try assumption; lia).
    rewrite IH; [|apply F_blk; [assumption|apply ks_nth; lia]|lia|lia].
    rewrite (skipn_nth_cons (S i)) by lia. rewrite (skipn_nth_cons (S (S i))) by lia.
    replace (2 * S (S r') - 1)%nat with (S (S (2 * S r' - 1))) by lia. cbn [firstn fold_left]. f_equal. lia.
Qed.
Lemma two_rounds_all r s : blk s -> (0 < r)%nat -> length ks = (2 * r + 1)%nat ->
  two_rounds round r 0 (quad_of s) = (quad_of (fold_left F (middle ks) s), (4 * (2 * r))%nat).
Proof using F_blk round_ok ks_ok.
  intros Hs Hr L. pose proof (two_rounds_ok r 0 s Hs Hr) as H. rewrite Nat.mul_0_r, Nat.add_0_l in H. rewrite H by lia.
  f_equal. unfold middle. rewrite removelast_firstn_len. replace (tl ks) with (skipn 1 ks) by (destruct ks; reflexivity).
  f_equal. f_equal. rewrite skipn_length. f_equal. lia.
Qed.
End Loop.

Lemma last_nth (ks : list bytes) n : length ks = S n -> last ks [] = nth n ks [].
Proof.
  intros L. destruct (exists_last (l := ks)) as (m & e & ->); [intros ->; discriminate|]. rewrite last_last.
  rewrite app_length in L. cbn [length] in L. rewrite app_nth2 by lia. replace (n - length m)%nat with 0%nat by lia. reflexivity.
Qed.
Lemma hd_nth (ks : list bytes) : hd [] ks = nth 0 ks [].
Proof. destruct ks; reflexivity. Qed.

Lemma rijndaelEncrypt_ok rk ks (r : nat) b : holds rk ks -> Forall blk ks -> length ks = (2 * r + 1)%nat -> (0 < r)%nat ->
  8 * Z.of_nat r + 4 <= zlen rk -> blk b -> rijndaelEncrypt rk (2 * Z.of_nat r) b = Ret (aes_cipher ks b).
Proof.
  intros H K L Hr Hz Hb. unfold rijndaelEncrypt. replace (2 * Z.of_nat r / 2) with (Z.of_nat r) by lia.
  replace (rk_reads_ok rk (2 * Z.of_nat r)) with true by (unfold rk_reads_ok; replace (2 * Z.of_nat r / 2) with (Z.of_nat r) by lia; lia).
  rewrite Nat2Z.id.
  assert (K0 : blk (nth 0 ks [])) by (apply ks_nth; [assumption|lia]).
  assert (Kl : blk (nth (2 * r) ks [])) by (apply ks_nth; [assumption|lia]).
  rewrite (aes_load_ok rk b (nth 0 ks [])) by (try assumption; apply (H 0%nat); lia).
  assert (B0 : blk (xorb b (nth 0 ks []))) by (apply blk_xor; assumption).
  rewrite (two_rounds_all aes_round (enc_round rk) ks); try assumption; [|exact blk_round|].
  2:{ intros i s Hs Hi. apply enc_round_ok; [assumption|apply ks_nth; assumption|apply H; assumption]. }
  rewrite (enc_last_ok rk _ _ (nth (2 * r) ks [])); [|apply blk_rounds; [assumption|]|assumption|apply H; lia].
  - unfold aes_cipher. rewrite (last_nth ks (2 * r)) by lia. rewrite hd_nth. reflexivity.
  - apply (keys_middle ks). split; [assumption|lia].
Qed.
(* the key schedule of the equivalent inverse cipher *)
Definition inv_keys (ks : list bytes) : list bytes := last ks [] :: map InvMixColumns (rev (middle ks)) ++ [hd [] ks].
Lemma blk_eq_round s k : blk s -> blk k -> blk (eq_inv_round s k).
Proof. intros. apply blk_xor; [apply blk_imc, blk_isub, blk_ishift|]; assumption. Qed.
Lemma rijndaelDecrypt_ok rk ks (r : nat) b : holds rk (inv_keys ks) -> Forall blk ks -> length ks = (2 * r + 1)%nat -> (0 < r)%nat ->
  8 * Z.of_nat r + 4 <= zlen rk -> blk b -> rijndaelDecrypt rk (2 * Z.of_nat r) b = Ret (aes_inv_cipher ks b).
Proof.
  intros H K L Hr Hz Hb. unfold rijndaelDecrypt. replace (2 * Z.of_nat r / 2) with (Z.of_nat r) by lia.
  replace (rk_reads_ok rk (2 * Z.of_nat r)) with true by (unfold rk_reads_ok; replace (2 * Z.of_nat r / 2) with (Z.of_nat r) by lia; lia).
  rewrite Nat2Z.id. destruct (keys_middle ks) as (K1 & K2 & K3); [split; [assumption|lia]|].
  assert (K2r : Forall blk (rev (middle ks))) by (apply Forall_rev; exact K2).
  assert (Ki : Forall blk (inv_keys ks)).
  { constructor; [exact K3|]. apply Forall_app. split; [apply Forall_map; eapply Forall_impl; [|exact K2r]; intros ?; apply blk_imc|]. constructor; [exact K1|constructor]. }
  assert (Lm : length (middle ks) = (2 * r - 1)%nat).
  { unfold middle. rewrite removelast_firstn_len, firstn_length. destruct ks; cbn [tl length] in *; lia. }
  assert (Li : length (inv_keys ks) = (2 * r + 1)%nat) by (unfold inv_keys; cbn [length]; rewrite app_length, map_length, rev_length, Lm; cbn [length]; lia).
  rewrite (aes_load_ok rk b (last ks [])) by (try assumption; apply (H 0%nat); lia).
  assert (B0 : blk (xorb b (last ks []))) by (apply blk_xor; assumption).
  rewrite (two_rounds_all eq_inv_round (dec_round rk) (inv_keys ks)); try assumption; [|exact blk_eq_round|].
  2:{ intros i s Hs Hi. apply dec_round_ok; [assumption|apply ks_nth; assumption|apply H; assumption]. }
  assert (M : middle (inv_keys ks) = map InvMixColumns (rev (middle ks))) by (unfold inv_keys; unfold middle at 1; cbn [tl]; apply removelast_last).
  rewrite M. rewrite <- equiv_rounds by assumption.
  rewrite (dec_last_ok rk _ _ (hd [] ks)); [|apply blk_irounds; assumption|assumption|].
  - reflexivity.
  - pose proof (H (2 * r)%nat) as Hr'. rewrite <- (last_nth (inv_keys ks) (2 * r)) in Hr' by lia.
    unfold inv_keys in Hr' at 2. rewrite app_comm_cons, last_last in Hr'. apply Hr'. lia.
Qed.

(* ---- the key expansion ---- *)
Definition prefix (rk : list Z) (W : list bytes) : Prop :=
  length rk = 60%nat /\ Forall wordb W /\ forall j, (j < length W)%nat -> kget rk j = be (nth j W []).
Lemma prefix_ext rk W x n : prefix rk W -> length W = n -> (n < 60)%nat -> wordb x -> prefix (kput rk n (be x)) (W ++ [x]).
Proof.
  intros (L & B & H) Hn Hl Hx. split; [rewrite kput_length; lia|]. split; [apply Forall_app; split; [assumption|constructor; [assumption|constructor]]|].
  intros j Hj. rewrite app_length in Hj. cbn [length] in Hj. destruct (Nat.eq_dec j n) as [->|].
  - rewrite kget_kput_same by lia. rewrite app_nth2 by lia. rewrite Hn, Nat.sub_diag. reflexivity.
  - rewrite kget_kput_other by lia. rewrite app_nth1 by lia. apply H. lia.
Qed.
Lemma prefix_word rk W j : prefix rk W -> (j < length W)%nat -> wordb (nth j W []).
Proof. intros (_ & B & _) H. rewrite Forall_forall in B. apply B, nth_In, H. Qed.
Lemma wordb_sub w : wordb w -> wordb (SubWord w).
Proof. intros (L & B). split; [unfold SubWord; rewrite map_length; exact L|]. apply Forall_map. eapply Forall_impl; [exact sbox_ok|exact B]. Qed.
Lemma sub_word w : wordb w -> sub4 Te4 (b3 (be w)) (b2 (be w)) (b1 (be w)) (b0 (be w)) = be (SubWord w).
Proof. revert w. apply wordb_elim. intros. bees. rewrite sub4_Te4 by assumption. reflexivity. Qed.
Lemma sub_rot w : wordb w -> sub4 Te4 (b2 (be w)) (b1 (be w)) (b0 (be w)) (b3 (be w)) = be (SubWord (RotWord w)) /\ wordb (SubWord (RotWord w)).
Proof.
  revert w. apply (wordb_elim (fun w => sub4 Te4 (b2 (be w)) (b1 (be w)) (b0 (be w)) (b3 (be w)) = be (SubWord (RotWord w)) /\ wordb (SubWord (RotWord w)))).
  intros. bees. rewrite sub4_Te4 by assumption. split; [reflexivity|]. apply wordb_sub. split; [reflexivity|]. cbn [RotWord app]. bytes_intro; assumption.
Qed.
Lemma rcon_ok i : (i < 10)%nat -> nth i rcon 0 = be (Rcon (S i)) /\ wordb (Rcon (S i)).
Proof.
  intros H. split.
  - do 10 (destruct i as [|i]; [reflexivity|]). lia.
  - split; [reflexivity|]. cbn [Rcon]. assert (byte_ok 0) by small. bytes_intro; try assumption. apply iter_xtime_ok. small.
Qed.
Lemma xorb_assoc a : forall b c, xorb (xorb a b) c = xorb a (xorb b c).
Proof. induction a as [|x a IH]; intros [|y b] [|z c]; try reflexivity. rewrite !xorb_cons, IH, Z.lxor_assoc. reflexivity. Qed.

Section Expand.
Variables (n : nat) (n_ok : (4 <= n <= 8)%nat).
Lemma ks_first_ok rk W i b : prefix rk W -> b = (n * i)%nat -> length W = (b + n)%nat -> (b + n < 60)%nat -> (i < 10)%nat ->
  prefix (ks_first n b rk i) (W ++ [next_word n W]).
Proof using n_ok.
  intros H -> L Hl Hi. destruct (rcon_ok i Hi) as (R1 & R2). assert (Hn : n <> 0%nat) by lia.
  pose proof (prefix_word rk W (n * i + (n - 1)) H ltac:(lia)) as W1. pose proof (prefix_word rk W (n * i) H ltac:(lia)) as W0.
  destruct (sub_rot _ W1) as (S1 & S2).
  assert (E : next_word n W = xorb (nth (n * i) W []) (xorb (SubWord (RotWord (nth (n * i + (n - 1)) W []))) (Rcon (S i)))).
  { unfold next_word. rewrite L. replace ((n * i + n) mod n)%nat with 0%nat.
    2:{ replace (n * i + n)%nat with (S i * n)%nat by lia. symmetry. apply Nat.mod_mul. exact Hn. }
    rewrite Nat.eqb_refl. replace ((n * i + n) / n)%nat with (S i).
    2:{ replace (n * i + n)%nat with (S i * n)%nat by lia. symmetry. apply Nat.div_mul. exact Hn. }
    replace (n * i + n - 1)%nat with (n * i + (n - 1))%nat by lia. replace (n * i + n - n)%nat with (n * i)%nat by lia. reflexivity. }
  rewrite E. unfold ks_first. cbn zeta. destruct H as (H1 & H2 & H3). rewrite !H3 by lia. rewrite S1, R1.
  rewrite Z.lxor_assoc. rewrite be_lxor_w, be_lxor_w by (try apply wordb_xor; assumption).
  apply prefix_ext; [repeat split; assumption|exact L|exact Hl|]. repeat apply wordb_xor; assumption.
Qed.
Lemma mod_eq b i j : b = (n * i)%nat -> (j < n)%nat -> ((b + (n + j)) mod n = j)%nat.
Proof using n_ok.
  intros -> Hj. replace (n * i + (n + j))%nat with (j + S i * n)%nat by lia. rewrite Nat.mod_add by lia. apply Nat.mod_small. exact Hj.
Qed.
Lemma ks_xor_ok rk W i j b : prefix rk W -> b = (n * i)%nat -> (0 < j < n)%nat -> ~ (n = 8 /\ j = 4)%nat -> (n <= 6 \/ n = 8)%nat ->
  length W = (b + (n + j))%nat -> (b + (n + j) < 60)%nat ->
  prefix (ks_xor n b rk j) (W ++ [next_word n W]).
Proof using n_ok.
  intros H Hb Hj H4 H6 L Hl.
  pose proof (prefix_word rk W (b + j) H ltac:(lia)) as W0. pose proof (prefix_word rk W (b + (n + j - 1)) H ltac:(lia)) as W1.
  assert (E : next_word n W = xorb (nth (b + j) W []) (nth (b + (n + j - 1)) W [])).
  { unfold next_word. rewrite L, (mod_eq b i j) by (assumption || lia). replace (j =? 0)%nat with false by lia.
    replace ((6 <? n)%nat && (j =? 4)%nat) with false by lia. f_equal; f_equal; lia. }
  rewrite E. unfold ks_xor. destruct H as (H1 & H2 & H3). rewrite !H3 by lia. rewrite be_lxor_w by assumption.
  apply prefix_ext; [repeat split; assumption|exact L|exact Hl|]. apply wordb_xor; assumption.
Qed.
Lemma expand_app k1 k2 : forall W, expand n (k1 + k2) W = expand n k2 (expand n k1 W).
Proof. clear. induction k1 as [|k1 IH]; intros W; [reflexivity|]. cbn [Nat.add expand]. apply IH. Qed.
Lemma expand_length k : forall W, length (expand n k W) = (k + length W)%nat.
Proof. clear. induction k as [|k IH]; intros W; [reflexivity|]. cbn [expand]. rewrite IH, app_length. cbn [length]. lia. Qed.
(* the loop: each step extends by n words, the last one by only m *)
Lemma expand_loop step m cnt : (forall rk W i, (i < cnt)%nat -> prefix rk W -> length W = (n * i + n)%nat -> prefix (step rk i) (expand n (if (i =? cnt - 1)%nat then m else n) W)) ->
  (0 < cnt)%nat -> forall rk W, prefix rk W -> length W = n -> prefix (fold_left step (seq 0 cnt) rk) (expand n (n * (cnt - 1) + m) W).
Proof using.
  clear n_ok. intros Hs Hc rk W HW L.
  assert (A : forall c, (c < cnt)%nat -> prefix (fold_left step (seq 0 c) rk) (expand n (n * c) W)).
  { induction c as [|c IH]; intros Hcc; [rewrite Nat.mul_0_r; exact HW|]. rewrite seq_S, fold_left_app. cbn [Nat.add fold_left].
    replace (n * S c)%nat with (n * c + n)%nat by lia. rewrite expand_app.
    replace (expand n n (expand n (n * c) W)) with (expand n (if (c =? cnt - 1)%nat then m else n) (expand n (n * c) W)) by (replace (c =? cnt - 1)%nat with false by lia; reflexivity).
    apply Hs; [lia|apply IH; lia|]. rewrite expand_length, L. lia. }
  destruct cnt as [|c]; [lia|]. rewrite seq_S, fold_left_app. cbn [Nat.add fold_left]. replace (S c - 1)%nat with c in * by lia.
  rewrite expand_app. replace (expand n m (expand n (n * c) W)) with (expand n (if (c =? c)%nat then m else n) (expand n (n * c) W)) by (rewrite Nat.eqb_refl; reflexivity).
  apply Hs; [lia|apply A; lia|]. rewrite expand_length, L. lia.
Qed.
End Expand.
Lemma length_snoc (W : list bytes) x k : length W = k -> length (W ++ [x]) = S k.
Proof. intros <-. rewrite app_length. cbn [length]. lia. Qed.
Lemma ks128_step_ok rk W i : (i < 10)%nat -> prefix rk W -> length W = (4 * i + 4)%nat -> prefix (ks128_step rk i) (expand 4 4 W).
Proof.
  intros Hi H L. unfold ks128_step. cbn zeta. cbn [fold_left expand].
  assert (N : (4 <= 4 <= 8)%nat) by lia.
  pose proof (ks_first_ok 4 N rk W i (4 * i) H eq_refl L ltac:(lia) Hi) as H1. apply (length_snoc _ (next_word 4 W)) in L. revert H1 L. generalize (W ++ [next_word 4 W]), (ks_first 4 (4 * i) rk i). clear rk W H. intros W rk H L.
  pose proof (ks_xor_ok 4 N rk W i 1 (4 * i) H eq_refl ltac:(lia) ltac:(lia) ltac:(lia) ltac:(lia) ltac:(lia)) as H1. apply (length_snoc _ (next_word 4 W)) in L. revert H1 L. generalize (W ++ [next_word 4 W]), (ks_xor 4 (4 * i) rk 1). clear rk W H. intros W rk H L.
  pose proof (ks_xor_ok 4 N rk W i 2 (4 * i) H eq_refl ltac:(lia) ltac:(lia) ltac:(lia) ltac:(lia) ltac:(lia)) as H1. apply (length_snoc _ (next_word 4 W)) in L. revert H1 L. generalize (W ++ [next_word 4 W]), (ks_xor 4 (4 * i) rk 2). clear rk W H. intros W rk H L.
  exact (ks_xor_ok 4 N rk W i 3 (4 * i) H eq_refl ltac:(lia) ltac:(lia) ltac:(lia) ltac:(lia) ltac:(lia)).
Qed.
Ltac next_first n b := match goal with H : prefix ?rk ?W, L : length ?W = _, N : (4 <= n <= 8)%nat, Hi : (?i < 10)%nat |- _ =>
  let H1 := fresh in pose proof (ks_first_ok n N rk W i b H eq_refl ltac:(lia) ltac:(lia) Hi) as H1;
  apply (length_snoc _ (next_word n W)) in L; revert H1 L; generalize (W ++ [next_word n W]), (ks_first n b rk i); clear rk W H; intros W rk H L end.
Ltac next_xor n b i j := match goal with H : prefix ?rk ?W, L : length ?W = _, N : (4 <= n <= 8)%nat |- _ =>
  let H1 := fresh in pose proof (ks_xor_ok n N rk W i j b H eq_refl ltac:(lia) ltac:(lia) ltac:(lia) ltac:(lia) ltac:(lia)) as H1;
  apply (length_snoc _ (next_word n W)) in L; revert H1 L; generalize (W ++ [next_word n W]), (ks_xor n b rk j); clear rk W H; intros W rk H L end.
Lemma ks192_step_ok rk W i : (i < 8)%nat -> prefix rk W -> length W = (6 * i + 6)%nat ->
  prefix (ks192_step rk i) (expand 6 (if (i =? 8 - 1)%nat then 4 else 6) W).
Proof.
  intros Hi H L. unfold ks192_step. cbn zeta. cbn [fold_left]. assert (N : (4 <= 6 <= 8)%nat) by lia. assert (Hi' : (i < 10)%nat) by lia.
  change (8 - 1)%nat with 7%nat. destruct (Nat.eqb_spec i 7); cbn [expand].
  - next_first 6%nat (6 * i)%nat. next_xor 6%nat (6 * i)%nat i 1%nat. next_xor 6%nat (6 * i)%nat i 2%nat. next_xor 6%nat (6 * i)%nat i 3%nat. exact H.
  - next_first 6%nat (6 * i)%nat. next_xor 6%nat (6 * i)%nat i 1%nat. next_xor 6%nat (6 * i)%nat i 2%nat. next_xor 6%nat (6 * i)%nat i 3%nat.
    next_xor 6%nat (6 * i)%nat i 4%nat. next_xor 6%nat (6 * i)%nat i 5%nat. exact H.
Qed.
Lemma ks_mid_ok rk W i : prefix rk W -> length W = (8 * i + 12)%nat -> (8 * i + 12 < 60)%nat ->
  prefix (let temp := kget rk (8 * i + 11) in
    kput rk (8 * i + 12) (Z.lxor (kget rk (8 * i + 4)) (sub4 Te4 (b3 temp) (b2 temp) (b1 temp) (b0 temp)))) (W ++ [next_word 8 W]).
Proof.
  intros H L Hl. pose proof (prefix_word rk W (8 * i + 4) H ltac:(lia)) as W0. pose proof (prefix_word rk W (8 * i + 11) H ltac:(lia)) as W1.
  assert (E : next_word 8 W = xorb (nth (8 * i + 4) W []) (SubWord (nth (8 * i + 11) W []))).
  { unfold next_word. rewrite L. replace ((8 * i + 12) mod 8)%nat with 4%nat.
    2:{ replace (8 * i + 12)%nat with (4 + S i * 8)%nat by lia. rewrite Nat.mod_add by lia. reflexivity. }
    cbn [Nat.eqb Nat.ltb Nat.leb andb]. f_equal; [f_equal; lia|]. f_equal. f_equal. lia. }
  rewrite E. cbn zeta. destruct H as (H1 & H2 & H3). rewrite !H3 by lia. rewrite sub_word by assumption.
  rewrite be_lxor_w by (try apply wordb_sub; assumption).
  apply prefix_ext; [repeat split; assumption|exact L|exact Hl|]. apply wordb_xor; [assumption|apply wordb_sub; assumption].
Qed.
Lemma ks256_step_ok rk W i : (i < 7)%nat -> prefix rk W -> length W = (8 * i + 8)%nat ->
  prefix (ks256_step rk i) (expand 8 (if (i =? 7 - 1)%nat then 4 else 8) W).
Proof.
  intros Hi H L. unfold ks256_step. cbn [fold_left]. assert (N : (4 <= 8 <= 8)%nat) by lia. assert (Hi' : (i < 10)%nat) by lia.
  change (7 - 1)%nat with 6%nat. destruct (Nat.eqb_spec i 6); cbn [expand].
  - next_first 8%nat (8 * i)%nat. next_xor 8%nat (8 * i)%nat i 1%nat. next_xor 8%nat (8 * i)%nat i 2%nat. next_xor 8%nat (8 * i)%nat i 3%nat. exact H.
  - next_first 8%nat (8 * i)%nat. next_xor 8%nat (8 * i)%nat i 1%nat. next_xor 8%nat (8 * i)%nat i 2%nat. next_xor 8%nat (8 * i)%nat i 3%nat.
    pose proof (ks_mid_ok rk W i H ltac:(lia) ltac:(lia)) as H1. cbn zeta in *. apply (length_snoc _ (next_word 8 W)) in L.
    revert H1 L. match goal with |- prefix (kput ?a ?b ?c) ?d -> _ => generalize d; generalize (kput a b c) end. clear rk W H. intros rk W H L.
    next_xor 8%nat (8 * i)%nat i 5%nat. next_xor 8%nat (8 * i)%nat i 6%nat. next_xor 8%nat (8 * i)%nat i 7%nat. exact H.
Qed.
Lemma load_one rk W key j : prefix rk W -> length W = j -> (j < 60)%nat -> (4 * j + 4 <= length key)%nat -> bytes_ok key ->
  prefix (kput rk j (GETU32 key (4 * j))) (W ++ [firstn 4 (skipn (4 * j) key)]).
Proof. intros H L Hl Hk B. destruct (GETU32_sub key (4 * j) Hk B) as (-> & Hw). apply prefix_ext; assumption. Qed.
Lemma ks_load_ok key js : bytes_ok key -> forall rk W, prefix rk W -> js = seq (length W) (length js) ->
  (4 * (length W + length js) <= length key)%nat -> (length W + length js <= 60)%nat ->
  prefix (ks_load key rk js) (W ++ map (fun j => firstn 4 (skipn (4 * j) key)) js).
Proof.
  intros B. induction js as [|j js IH]; intros rk W H E Hk Hl; [rewrite app_nil_r; exact H|].
  cbn [length seq] in *. injection E as Ej Ejs. subst j. unfold ks_load. cbn [fold_left map].
  replace (W ++ firstn 4 (skipn (4 * length W) key) :: map (fun j => firstn 4 (skipn (4 * j) key)) js)
    with ((W ++ [firstn 4 (skipn (4 * length W) key)]) ++ map (fun j => firstn 4 (skipn (4 * j) key)) js) by (rewrite <- app_assoc; reflexivity).
  apply IH; rewrite ?app_length; cbn [length].
  - apply load_one; try assumption; lia.
  - rewrite Nat.add_1_r. exact Ejs.
  - lia.
  - lia.
Qed.
Definition aes_key_size (key : bytes) : Prop := zlen key = 16 \/ zlen key = 24 \/ zlen key = 32.
Lemma key_words_map (key : bytes) (n : nat) : zlen key = 4 * Z.of_nat n -> chunks 4 key = map (fun j => firstn 4 (skipn (4 * j) key)) (seq 0 n).
Proof.
  intros L. revert key L. induction n as [|n IH]; intros key L.
  - assert (key = []) as -> by (destruct key; [reflexivity|unfold zlen in L; cbn [length] in L; lia]). reflexivity.
  - unfold zlen in L. assert (E : key = firstn 4 key ++ skipn 4 key) by (symmetry; apply firstn_skipn).
    rewrite E at 1. rewrite chunks_cons; [|lia|unfold zlen; rewrite firstn_length; lia].
    rewrite IH by (unfold zlen; rewrite skipn_length; lia). cbn [seq map]. f_equal. rewrite <- seq_shift, map_map. apply map_ext. intros j.
    f_equal. replace (4 * S j)%nat with (4 * j + 4)%nat by lia. rewrite <- skipn_skipn. reflexivity.
Qed.
Lemma KeySetupEnc_ok rk key : length rk = 60%nat -> aes_key_size key -> bytes_ok key ->
  exists rk', rijndaelKeySetupEnc rk key (8 * zlen key) = (rk', Z.of_nat (rounds key)) /\ prefix rk' (key_expansion key).
Proof.
  intros L K B. assert (P0 : prefix rk []) by (split; [exact L|split; [constructor|cbn [length]; lia]]).
  assert (Lk : zlen key = Z.of_nat (length key)) by reflexivity.
  unfold rijndaelKeySetupEnc. cbn zeta. unfold key_expansion, rounds, key_words. destruct K as [K|[K|K]]; rewrite K.
  - change (8 * 16 =? 128) with true. cbn iota. eexists. split; [reflexivity|]. rewrite (key_words_map key 4) by lia.
    assert (N : (4 <= 4 <= 8)%nat) by lia. change (Z.to_nat (16 / 4)) with 4%nat. change (4 * (4 + 6 + 1) - 4)%nat with (4 * (10 - 1) + 4)%nat.
    apply (expand_loop 4 ks128_step 4 10); [|lia| |reflexivity].
    + intros rk' W i Hi H LW. replace (if (i =? 10 - 1)%nat then 4%nat else 4%nat) with 4%nat by (destruct (i =? 10 - 1)%nat; reflexivity). apply ks128_step_ok; assumption.
    + apply (ks_load_ok key [0; 1; 2; 3]%nat B rk [] P0); cbn [length]; [reflexivity|lia|lia].
  - change (8 * 24 =? 128) with false. change (8 * 24 =? 192) with true. cbn iota. eexists. split; [reflexivity|]. rewrite (key_words_map key 6) by lia.
    change (Z.to_nat (24 / 4)) with 6%nat. change (4 * (6 + 6 + 1) - 6)%nat with (6 * (8 - 1) + 4)%nat.
    apply (expand_loop 6 ks192_step 4 8); [|lia| |reflexivity].
    + intros rk' W i Hi H LW. apply ks192_step_ok; assumption.
    + pose proof (ks_load_ok key [0; 1; 2; 3]%nat B rk [] P0) as H1. cbn [length] in H1. specialize (H1 eq_refl ltac:(lia) ltac:(lia)).
      pose proof (ks_load_ok key [4; 5]%nat B _ _ H1) as H2. rewrite app_length, map_length in H2. cbn [length Nat.add] in H2. specialize (H2 eq_refl ltac:(lia) ltac:(lia)).
      exact H2.
  - change (8 * 32 =? 128) with false. change (8 * 32 =? 192) with false. change (8 * 32 =? 256) with true. cbn iota. eexists. split; [reflexivity|]. rewrite (key_words_map key 8) by lia.
    change (Z.to_nat (32 / 4)) with 8%nat. change (4 * (8 + 6 + 1) - 8)%nat with (8 * (7 - 1) + 4)%nat.
    apply (expand_loop 8 ks256_step 4 7); [|lia| |reflexivity].
    + intros rk' W i Hi H LW. apply ks256_step_ok; assumption.
    + pose proof (ks_load_ok key [0; 1; 2; 3]%nat B rk [] P0) as H1. cbn [length] in H1. specialize (H1 eq_refl ltac:(lia) ltac:(lia)).
      pose proof (ks_load_ok key [4; 5]%nat B _ _ H1) as H2. rewrite app_length, map_length in H2. cbn [length Nat.add] in H2. specialize (H2 eq_refl ltac:(lia) ltac:(lia)).
      pose proof (ks_load_ok key [6; 7]%nat B _ _ H2) as H3. rewrite !app_length, !map_length in H3. cbn [length Nat.add] in H3. specialize (H3 eq_refl ltac:(lia) ltac:(lia)).
      exact H3.
Qed.

(* ---- round keys from the words ---- *)
Definition four (W : list bytes) (i : nat) : bytes := nth (4 * i) W [] ++ nth (4 * i + 1) W [] ++ nth (4 * i + 2) W [] ++ nth (4 * i + 3) W [].
Lemma wordb_app4 a b c d : wordb a -> wordb b -> wordb c -> wordb d -> blk (a ++ b ++ c ++ d) /\
  col (a ++ b ++ c ++ d) 0 = a /\ col (a ++ b ++ c ++ d) 1 = b /\ col (a ++ b ++ c ++ d) 2 = c /\ col (a ++ b ++ c ++ d) 3 = d.
Proof.
  intros (La & Ba) (Lb & Bb) (Lc & Bc) (Ld & Bd). split.
  - split; [unfold zlen; rewrite !app_length; lia|]. repeat (apply bytes_ok_app; split); assumption.
  - do 4 (destruct a as [|? a]; [discriminate La|]). destruct a; [|discriminate La].
    do 4 (destruct b as [|? b]; [discriminate Lb|]). destruct b; [|discriminate Lb].
    do 4 (destruct c as [|? c]; [discriminate Lc|]). destruct c; [|discriminate Lc].
    do 4 (destruct d as [|? d]; [discriminate Ld|]). destruct d; [|discriminate Ld]. repeat split; reflexivity.
Qed.
Lemma chunks_four m : forall W, Forall wordb W -> length W = (4 * m)%nat -> chunks 16 (concat W) = map (four W) (seq 0 m).
Proof.
  induction m as [|m IH]; intros W H L; [destruct W; [reflexivity|discriminate L]|].
  destruct W as [|a [|b [|c [|d W]]]]; cbn [length] in L; try lia.
  repeat (apply Forall_cons_iff in H; destruct H as (? & H)).
  destruct (wordb_app4 a b c d) as (Bk & _); try assumption.
  cbn [concat]. replace (a ++ b ++ c ++ d ++ concat W) with ((a ++ b ++ c ++ d) ++ concat W) by (rewrite <- !app_assoc; reflexivity).
  rewrite chunks_cons by (try lia; apply Bk). rewrite IH by (assumption || lia). cbn [seq map]. f_equal. rewrite <- seq_shift, map_map. apply map_ext.
  intros i. unfold four. replace (4 * S i)%nat with (S (S (S (S (4 * i))))) by lia. reflexivity.
Qed.
Lemma holds_four rk W m : prefix rk W -> length W = (4 * m)%nat ->
  let ks := chunks 16 (concat W) in length ks = m /\ Forall blk ks /\ holds rk ks.
Proof.
  intros P L. cbn zeta. destruct (P) as (_ & B & G). rewrite (chunks_four m) by assumption. rewrite map_length, seq_length. split; [reflexivity|].
  assert (A : forall i, (i < m)%nat -> blk (four W i) /\ col (four W i) 0 = nth (4 * i) W [] /\ col (four W i) 1 = nth (4 * i + 1) W [] /\
    col (four W i) 2 = nth (4 * i + 2) W [] /\ col (four W i) 3 = nth (4 * i + 3) W []) by (intros i Hi; apply wordb_app4; eapply prefix_word; try eassumption; lia).
  split.
  - apply Forall_forall. intros x Hx. apply in_map_iff in Hx as (i & <- & Hi). apply in_seq in Hi. apply A. lia.
  - intros i Hi. rewrite map_length, seq_length in Hi. rewrite (nth_indep _ [] (four W 0)) by (rewrite map_length, seq_length; lia).
    rewrite (map_nth (four W)), seq_nth by lia. cbn [Nat.add]. destruct (A i Hi) as (_ & C0 & C1 & C2 & C3).
    unfold key_at. rewrite C0, C1, C2, C3. repeat split; apply G; lia.
Qed.
Lemma rounds_key key : aes_key_size key -> exists r, rounds key = (2 * r)%nat /\ (0 < r <= 7)%nat /\
  forall W, length W = key_words key -> length (expand (key_words key) (4 * (rounds key + 1) - key_words key) W) = (4 * (2 * r + 1))%nat.
Proof.
  intros K. unfold rounds, key_words. destruct K as [K|[K|K]]; rewrite K.
  - exists 5%nat. change (Z.to_nat (16 / 4)) with 4%nat. repeat split; try lia. intros W HW. rewrite expand_length, HW. reflexivity.
  - exists 6%nat. change (Z.to_nat (24 / 4)) with 6%nat. repeat split; try lia. intros W HW. rewrite expand_length, HW. reflexivity.
  - exists 7%nat. change (Z.to_nat (32 / 4)) with 8%nat. repeat split; try lia. intros W HW. rewrite expand_length, HW. reflexivity.
Qed.
Lemma expansion_length key : aes_key_size key -> length (key_expansion key) = (4 * (rounds key + 1))%nat.
Proof.
  intros K. destruct (rounds_key key K) as (r & Er & _ & H). unfold key_expansion. rewrite H; [rewrite Er; reflexivity|].
  rewrite (key_words_map key (key_words key)); [rewrite map_length, seq_length; reflexivity|]. unfold key_words. destruct K as [K|[K|K]]; rewrite K; reflexivity.
Qed.
Lemma round_keys_ok key : aes_key_size key -> bytes_ok key -> Forall blk (round_keys key) /\ length (round_keys key) = (rounds key + 1)%nat.
Proof.
  intros K B. destruct (KeySetupEnc_ok (repeat 0 60) key) as (rk & _ & P); try assumption; [apply repeat_length|].
  destruct (holds_four rk _ (rounds key + 1) P (expansion_length key K)) as (H1 & H2 & _). auto.
Qed.
Lemma keys_ok_key key : aes_key_size key -> bytes_ok key -> keys_ok (round_keys key).
Proof. intros K B. destruct (round_keys_ok key K B) as (H1 & H2). split; [assumption|]. rewrite H2. unfold rounds. lia. Qed.

(* ---- the decryption key schedule ---- *)
Ltac sixty rk L := do 60 (destruct rk as [|? rk]; [discriminate L|]); destruct rk; [clear L|discriminate L].
Lemma map_seq_eq (f g : nat -> Z) n : map f (seq 0 n) = map g (seq 0 n) -> forall i, (i < n)%nat -> f i = g i.
Proof.
  intros E i Hi. assert (A : forall h : nat -> Z, nth i (map h (seq 0 n)) 0 = h i).
  { intros h. rewrite (nth_indep _ 0 (h 0%nat)) by (rewrite map_length, seq_length; lia). rewrite map_nth, seq_nth by lia. reflexivity. }
  rewrite <- (A f), <- (A g), E. reflexivity.
Qed.
Lemma ks_reverse_ok rk r i : length rk = 60%nat -> (5 <= r <= 7)%nat -> (i < 4 * (2 * r + 1))%nat ->
  kget (ks_reverse (2 * r) rk) i = kget rk (4 * (2 * r - i / 4) + i mod 4) /\ length (ks_reverse (2 * r) rk) = 60%nat.
Proof.
  intros L Hr Hi. assert (C : r = 5%nat \/ r = 6%nat \/ r = 7%nat) by lia.
  sixty rk L. split.
  - revert i Hi. destruct C as [->|[->| ->]]; apply (map_seq_eq (fun i => kget (ks_reverse _ _) i) (fun i => kget _ (4 * (_ - i / 4) + i mod 4))); vm_compute; reflexivity.
  - destruct C as [->|[->| ->]]; reflexivity.
Qed.
Lemma ks_invmix_ok f rk r i : length rk = 60%nat -> (5 <= r <= 7)%nat -> (i < 4 * (2 * r + 1))%nat ->
  kget (ks_invmix f (2 * r) rk) i = if (4 <=? i)%nat && (i <? 4 * (2 * r))%nat then f (kget rk i) else kget rk i.
Proof.
  intros L Hr Hi. assert (C : r = 5%nat \/ r = 6%nat \/ r = 7%nat) by lia.
  sixty rk L. revert i Hi.
  destruct C as [->|[->| ->]]; apply (map_seq_eq (fun i => kget (ks_invmix f _ _) i) (fun i => if (4 <=? i)%nat && (i <? _)%nat then f (kget _ i) else kget _ i)); vm_compute; reflexivity.
Qed.
Lemma ks_invmix_len f rk r : length rk = 60%nat -> (5 <= r <= 7)%nat -> length (ks_invmix f (2 * r) rk) = 60%nat.
Proof. intros L Hr. assert (C : r = 5%nat \/ r = 6%nat \/ r = 7%nat) by lia. sixty rk L. destruct C as [->|[->| ->]]; reflexivity. Qed.
Lemma ks_imc_ok w : wordb w -> forall x y z t, w = [x; y; z; t] -> ks_imc (be w) = be (mixcol 14 11 13 9 x y z t).
Proof.
  intros (_ & B) x y z t ->. bytes_inv B. unfold ks_imc. bees.
  assert (A : forall x, byte_ok x -> Z.land (tab Te4 x) 255 = sbox x).
  { intros u Hu. destruct (Te_tables u Hu) as (_ & _ & _ & _ & ->). destruct (masks (sbox u)) as (_ & _ & _ & ->); [apply sbox_ok; exact Hu|].
    rewrite be4. lia. }
  rewrite !A by assumption. rewrite (td_column sbox) by (try assumption; apply sbox_ok). rewrite !inv_sbox_sbox by assumption. reflexivity.
Qed.
Lemma key_at_imc rk rk' p k : blk k -> key_at rk p k -> (forall j, (j < 4)%nat -> kget rk' (p + j) = ks_imc (kget rk (p + j))) -> key_at rk' p (InvMixColumns k).
Proof.
  intros Hk (K0 & K1 & K2 & K3) H.
  pose proof (H 0%nat ltac:(lia)) as H0. pose proof (H 1%nat ltac:(lia)) as H1. pose proof (H 2%nat ltac:(lia)) as H2. pose proof (H 3%nat ltac:(lia)) as H3. clear H.
  rewrite Nat.add_0_r in H0. rewrite K0 in H0. rewrite K1 in H1. rewrite K2 in H2. rewrite K3 in H3. unfold key_at. rewrite H0, H1, H2, H3. clear K0 K1 K2 K3 H0 H1 H2 H3.
  revert k Hk. apply blk_elim. intros. bytes_inv H. unfold InvMixColumns. rewrite mix_cols.
  cbn [col firstn skipn Nat.mul Nat.add]. repeat split.
  all: erewrite ks_imc_ok; [|split; [|bytes_intro; eassumption]; reflexivity|reflexivity]; reflexivity.
Qed.
Lemma inv_keys_nth ks i : (2 <= length ks)%nat -> (i < length ks)%nat ->
  nth i (inv_keys ks) [] = if (1 <=? i)%nat && (i <? length ks - 1)%nat then InvMixColumns (nth (length ks - 1 - i) ks []) else nth (length ks - 1 - i) ks [].
Proof.
  intros L Hi. assert (Lm : length (middle ks) = (length ks - 2)%nat).
  { unfold middle. rewrite removelast_firstn_len, firstn_length. destruct ks; cbn [tl length] in *; lia. }
  unfold inv_keys. destruct i as [|i]; cbn [nth].
  - rewrite (last_nth ks (length ks - 1)) by lia. cbn [Nat.leb andb]. f_equal. lia.
  - destruct (Nat.ltb_spec (S i) (length ks - 1)); cbn [Nat.leb andb].
    + rewrite app_nth1 by (rewrite map_length, rev_length; lia). rewrite (nth_indep _ [] (InvMixColumns [])) by (rewrite map_length, rev_length; lia).
      rewrite map_nth. f_equal. rewrite rev_nth by lia. rewrite Lm. unfold middle. rewrite removelast_firstn_len.
      assert (T : forall j (l : list bytes), (j < pred (length l))%nat -> nth j (firstn (pred (length l)) l) [] = nth j l []).
      { intros j l Hj. rewrite <- (firstn_skipn (pred (length l)) l) at 3. rewrite app_nth1; [reflexivity|]. rewrite firstn_length. lia. }
      rewrite T by (destruct ks; cbn [tl length] in *; lia).
      replace (length ks - 1 - S i)%nat with (S (length ks - 2 - S i)) by lia. destruct ks; cbn [tl nth length] in *; [lia|reflexivity].
    + rewrite app_nth2 by (rewrite map_length, rev_length; lia). rewrite map_length, rev_length, Lm.
      replace (i - (length ks - 2))%nat with 0%nat by lia. cbn [nth]. replace (length ks - 1 - S i)%nat with 0%nat by lia. destruct ks; reflexivity.
Qed.
Lemma KeySetupDec_ok rk key : length rk = 60%nat -> aes_key_size key -> bytes_ok key ->
  exists rk', rijndaelKeySetupDec rk key (8 * zlen key) = (rk', Z.of_nat (rounds key)) /\ length rk' = 60%nat /\ holds rk' (inv_keys (round_keys key)).
Proof.
  intros L K B. destruct (KeySetupEnc_ok rk key L K B) as (rk1 & E1 & P). unfold rijndaelKeySetupDec. rewrite E1, Nat2Z.id.
  destruct (holds_four rk1 _ (rounds key + 1) P (expansion_length key K)) as (Lk & Bk & H). fold (round_keys key) in Lk, Bk, H.
  destruct (rounds_key key K) as (r & Er & Hr & _).
  assert (Hr' : (5 <= r <= 7)%nat) by (unfold rounds, key_words in Er; destruct K as [K|[K|K]]; rewrite K in Er; change (Z.to_nat (16 / 4)) with 4%nat in Er; change (Z.to_nat (24 / 4)) with 6%nat in Er; change (Z.to_nat (32 / 4)) with 8%nat in Er; lia).
  rewrite Er in *. pose proof P as (L1 & _). set (ks := round_keys key) in *. clearbody ks.
  eexists. split; [reflexivity|]. assert (L2 : length (ks_reverse (2 * r) rk1) = 60%nat) by (apply (ks_reverse_ok rk1 r 0); (assumption || lia)).
  split; [apply ks_invmix_len; assumption|].
  intros i Hi. assert (Li : length (inv_keys ks) = (2 * r + 1)%nat).
  { unfold inv_keys. cbn [length]. rewrite app_length, map_length, rev_length. unfold middle. rewrite removelast_firstn_len, firstn_length. destruct ks; cbn [tl length] in *; lia. }
  rewrite Li in Hi. rewrite inv_keys_nth by lia. rewrite Lk. replace (2 * r + 1 - 1)%nat with (2 * r)%nat by lia.
  assert (A : forall j, (j < 4)%nat -> kget (ks_reverse (2 * r) rk1) (4 * i + j) = kget rk1 (4 * (2 * r - i) + j)).
  { intros j Hj. destruct (ks_reverse_ok rk1 r (4 * i + j) L1 Hr' ltac:(lia)) as (-> & _). 
    replace ((4 * i + j) / 4)%nat with i by (rewrite Nat.mul_comm, Nat.div_add_l by lia; rewrite Nat.div_small by lia; lia).
    replace ((4 * i + j) mod 4)%nat with j by (rewrite Nat.add_comm, Nat.mul_comm, Nat.mod_add by lia; rewrite Nat.mod_small by lia; reflexivity). reflexivity. }
  assert (Kr : key_at (ks_reverse (2 * r) rk1) (4 * i) (nth (2 * r - i) ks [])).
  { pose proof (H (2 * r - i)%nat ltac:(lia)) as (K0 & K1 & K2 & K3). unfold key_at. rewrite <- (Nat.add_0_r (4 * i)) at 1. rewrite !A by lia. rewrite Nat.add_0_r. auto. }
  assert (M : forall j, (j < 4)%nat -> kget (ks_invmix ks_imc (2 * r) (ks_reverse (2 * r) rk1)) (4 * i + j) =
    if (1 <=? i)%nat && (i <? 2 * r)%nat then ks_imc (kget (ks_reverse (2 * r) rk1) (4 * i + j)) else kget (ks_reverse (2 * r) rk1) (4 * i + j)).
  { intros j Hj. rewrite (ks_invmix_ok ks_imc _ r (4 * i + j)) by (assumption || lia).
    replace ((4 <=? 4 * i + j)%nat && (4 * i + j <? 4 * (2 * r))%nat) with ((1 <=? i)%nat && (i <? 2 * r)%nat) by lia. reflexivity. }
  destruct ((1 <=? i)%nat && (i <? 2 * r)%nat).
  - apply (key_at_imc (ks_reverse (2 * r) rk1)); [apply ks_nth; [assumption|lia]|exact Kr|exact M].
  - destruct Kr as (K0 & K1 & K2 & K3). unfold key_at. rewrite <- (Nat.add_0_r (4 * i)) at 1. rewrite !M by lia. rewrite Nat.add_0_r. auto.
Qed.

(* ---- the C functions and the classes ---- *)
From Verif Require Import SpecTransducer TransformModel BlockModel BlockCipher Modes CipherModel CipherApi.
Section Class.
Variable fresh : Z -> bytes.
Hypothesis fresh_len : forall n, 0 <= n -> zlen (fresh n) = n.
Lemma uninit_len : length (uninit_words fresh) = 60%nat.
Proof.
  unfold uninit_words. rewrite map_length, (key_words_map (fresh 240) 60); [rewrite map_length; apply seq_length|].
  rewrite fresh_len by lia. reflexivity.
Qed.
Lemma zlen60 (rk : list Z) : length rk = 60%nat -> zlen rk = 60.
Proof. unfold zlen. lia. Qed.
Lemma aes_encrypt_ok key b : aes_key_size key -> bytes_ok key -> zlen b = 16 -> bytes_ok b ->
  let k := caml_aes_cook_encrypt_key fresh key in rijndaelEncrypt (fst k) (snd k) b = Ret (aes_E key b).
Proof using fresh_len.
  intros K B Lb Bb. cbn zeta. unfold caml_aes_cook_encrypt_key. destruct (KeySetupEnc_ok _ key uninit_len K B) as (rk & -> & P). cbn [fst snd].
  destruct (rounds_key key K) as (r & Er & Hr & _). destruct (holds_four rk _ (rounds key + 1) P (expansion_length key K)) as (L1 & L2 & L3).
  destruct P as (L & _). rewrite Er in *. rewrite Nat2Z.inj_mul. change (Z.of_nat 2) with 2.
  rewrite (rijndaelEncrypt_ok rk (round_keys key)); try assumption; [reflexivity|lia|rewrite (zlen60 rk L); lia|split; assumption].
Qed.
Lemma aes_decrypt_ok key b : aes_key_size key -> bytes_ok key -> zlen b = 16 -> bytes_ok b ->
  let k := caml_aes_cook_decrypt_key fresh key in rijndaelDecrypt (fst k) (snd k) b = Ret (aes_D key b).
Proof using fresh_len.
  intros K B Lb Bb. cbn zeta. unfold caml_aes_cook_decrypt_key. destruct (KeySetupDec_ok _ key uninit_len K B) as (rk & -> & L & H). cbn [fst snd].
  destruct (rounds_key key K) as (r & Er & Hr & _). destruct (round_keys_ok key K B) as (L1 & L2).
  rewrite Er in *. rewrite Nat2Z.inj_mul. change (Z.of_nat 2) with 2.
  rewrite (rijndaelDecrypt_ok rk (round_keys key)); try assumption; [reflexivity|lia|rewrite (zlen60 rk L); lia|split; assumption].
Qed.
End Class.
Lemma aes_D_E key b : aes_key_size key -> bytes_ok key -> zlen b = 16 -> bytes_ok b -> aes_D key (aes_E key b) = b.
Proof. intros. apply inv_cipher_cipher; [apply keys_ok_key; assumption|split; assumption]. Qed.
Lemma aes_E_D key b : aes_key_size key -> bytes_ok key -> zlen b = 16 -> bytes_ok b -> aes_E key (aes_D key b) = b.
Proof. intros. apply cipher_inv_cipher; [apply keys_ok_key; assumption|split; assumption]. Qed.
Lemma aes_E_blk key b : aes_key_size key -> bytes_ok key -> zlen b = 16 -> bytes_ok b -> zlen (aes_E key b) = 16 /\ bytes_ok (aes_E key b).
Proof. intros. apply cipher_blk; [apply keys_ok_key; assumption|split; assumption]. Qed.
Lemma aes_D_blk key b : aes_key_size key -> bytes_ok key -> zlen b = 16 -> bytes_ok b -> zlen (aes_D key b) = 16 /\ bytes_ok (aes_D key b).
Proof. intros. apply inv_cipher_blk; [apply keys_ok_key; assumption|split; assumption]. Qed.
Lemma aes_key_ok_size key : aes_key_ok key = true <-> aes_key_size key.
Proof. unfold aes_key_ok, aes_key_size. lia. Qed.
Lemma aes_family fresh key : (forall n, 0 <= n -> zlen (fresh n) = n) -> aes_key_size key -> bytes_ok key ->
  block_family (new_aes fresh) key 16 (aes_E key) (aes_D key).
Proof.
  intros F K B. constructor; [lia| |intros b; apply aes_E_blk; assumption|intros b; apply aes_D_E; assumption].
  intros d. unfold new_aes. replace (aes_key_ok key) with true by (symmetry; apply aes_key_ok_size; exact K). destruct d.
  - exists (BObj aes_encrypt_class (caml_aes_cook_encrypt_key fresh key)), (fun s => s = caml_aes_cook_encrypt_key fresh key).
    repeat split; try lia. apply (raw_implements aes_ckey 16 _ aes_wipe); [lia|]. intros b Hb Bb. split; [apply aes_encrypt_ok; assumption|apply aes_E_blk; assumption].
  - exists (BObj aes_decrypt_class (caml_aes_cook_decrypt_key fresh key)), (fun s => s = caml_aes_cook_decrypt_key fresh key).
    repeat split; try lia. apply (raw_implements aes_ckey 16 _ aes_wipe); [lia|]. intros b Hb Bb. split; [apply aes_decrypt_ok; assumption|apply aes_D_blk; assumption].
Qed.
Lemma new_aes_size fresh d key : ~ aes_key_size key -> new_aes fresh d key = Raise (Error Wrong_key_size).
Proof. intros K. unfold new_aes. destruct (aes_key_ok key) eqn:E; [|reflexivity]. apply aes_key_ok_size in E. contradiction. Qed.
