(* Facts about the AES specification: the field, the S-box, the rounds, and that
   InvCipher inverts Cipher. *)
From Coq Require Import Btauto.
From Verif Require Import Prelude PreludeFacts SpecBlock SpecModes SpecAes.

(* ---- checks over the 256 bytes ---- *)
Definition all_bytes : list Z := map Z.of_nat (seq 0 256).
Lemma all_bytes_in x : byte_ok x -> In x all_bytes.
Proof. intros H. unfold byte_ok in H. apply in_map_iff. exists (Z.to_nat x). rewrite in_seq. lia. Qed.
Lemma by_bytes (f : Z -> bool) : forallb f all_bytes = true -> forall x, byte_ok x -> f x = true.
Proof. intros H x Hx. rewrite forallb_forall in H. apply H, all_bytes_in, Hx. Qed.
Definition is_byte (x : Z) : bool := (0 <=? x) && (x <? 256).
Lemma is_byte_ok x : is_byte x = true -> byte_ok x.
Proof. unfold is_byte, byte_ok. lia. Qed.

Lemma xtime_ok a : byte_ok a -> byte_ok (xtime a).
Proof. intros H. apply is_byte_ok. revert a H. apply by_bytes. vm_compute. reflexivity. Qed.
Lemma iter_xtime_ok i a : byte_ok a -> byte_ok (Nat.iter i xtime a).
Proof. intros H. induction i; [exact H|]. cbn [Nat.iter nat_rect]. apply xtime_ok. exact IHi. Qed.

Definition gterm (a b : Z) (i : nat) : Z := if Z.testbit b (Z.of_nat i) then Nat.iter i xtime a else 0.
Lemma gmul_terms a b : gmul a b =
  Z.lxor (Z.lxor (Z.lxor (Z.lxor (Z.lxor (Z.lxor (Z.lxor (Z.lxor 0 (gterm a b 0)) (gterm a b 1)) (gterm a b 2)) (gterm a b 3)) (gterm a b 4)) (gterm a b 5)) (gterm a b 6)) (gterm a b 7).
Proof. reflexivity. Qed.
Lemma gterm_ok a b i : byte_ok a -> byte_ok (gterm a b i).
Proof. intros H. unfold gterm. destruct (Z.testbit _ _); [apply iter_xtime_ok; exact H|unfold byte_ok; lia]. Qed.
Lemma gmul_ok a b : byte_ok a -> byte_ok (gmul a b).
Proof. intros H. rewrite gmul_terms. assert (byte_ok 0) by (unfold byte_ok; lia). repeat apply lxor_byte; try assumption; apply gterm_ok; exact H. Qed.
Lemma gterm_lin a x y i : gterm a (Z.lxor x y) i = Z.lxor (gterm a x i) (gterm a y i).
Proof.
  unfold gterm. rewrite Z.lxor_spec. destruct (Z.testbit x _), (Z.testbit y _); cbn [Datatypes.xorb];
  rewrite ?Z.lxor_nilpotent, ?Z.lxor_0_l, ?Z.lxor_0_r; reflexivity.
Qed.
Ltac lxors := apply Z.bits_inj; intros ?; rewrite ?Z.lxor_spec, ?Z.bits_0; btauto.
Lemma gmul_lin a x y : gmul a (Z.lxor x y) = Z.lxor (gmul a x) (gmul a y).
Proof. rewrite !gmul_terms, !gterm_lin. lxors. Qed.
Lemma gmul_0 a : gmul a 0 = 0.
Proof. reflexivity. Qed.
Lemma gmul_1 x : byte_ok x -> gmul 1 x = x.
Proof. intros H. apply Z.eqb_eq. revert x H. apply by_bytes. vm_compute. reflexivity. Qed.
Arguments gmul : simpl never.
Arguments sbox : simpl never.
Arguments inv_sbox : simpl never.

(* gf_inv is the inverse in the field *)
Lemma gf_inv_ok x : byte_ok x -> x <> 0 -> gmul x (gf_inv x) = 1.
Proof.
  intros H Hx. assert (E : (x =? 0) || (gmul x (gf_inv x) =? 1) = true) by (revert x H Hx; intros x H _; revert x H; apply by_bytes; vm_compute; reflexivity).
  lia.
Qed.
Lemma sbox_ok x : byte_ok x -> byte_ok (sbox x).
Proof. intros H. apply is_byte_ok. revert x H. apply (by_bytes (fun x => is_byte (sbox x))). vm_compute. reflexivity. Qed.
Lemma inv_sbox_ok x : byte_ok x -> byte_ok (inv_sbox x).
Proof. intros H. apply is_byte_ok. revert x H. apply (by_bytes (fun x => is_byte (inv_sbox x))). vm_compute. reflexivity. Qed.
Lemma inv_sbox_sbox x : byte_ok x -> inv_sbox (sbox x) = x.
Proof. intros H. apply Z.eqb_eq. revert x H. apply (by_bytes (fun x => inv_sbox (sbox x) =? x)). vm_compute. reflexivity. Qed.
Lemma sbox_inv_sbox x : byte_ok x -> sbox (inv_sbox x) = x.
Proof. intros H. apply Z.eqb_eq. revert x H. apply (by_bytes (fun x => sbox (inv_sbox x) =? x)). vm_compute. reflexivity. Qed.

(* ---- blocks of sixteen bytes ---- *)
Definition blk (s : bytes) : Prop := zlen s = 16 /\ bytes_ok s.
Lemma blk_elim (P : bytes -> Prop) :
  (forall x0 x1 x2 x3 x4 x5 x6 x7 x8 x9 x10 x11 x12 x13 x14 x15,
    bytes_ok [x0; x1; x2; x3; x4; x5; x6; x7; x8; x9; x10; x11; x12; x13; x14; x15] ->
    P [x0; x1; x2; x3; x4; x5; x6; x7; x8; x9; x10; x11; x12; x13; x14; x15]) ->
  forall s, blk s -> P s.
Proof.
  intros H s (L & B). unfold zlen in L. do 16 (destruct s as [|? s]; [discriminate L|]).
  destruct s; [apply H; exact B|cbn in L; lia].
Qed.
Ltac bytes_inv H := unfold bytes_ok in H;
  repeat match type of H with
  | Forall _ (_ :: _) => let Hx := fresh "Bx" in apply Forall_cons_iff in H; destruct H as (Hx & H)
  end; clear H.
Ltac bytes_intro := unfold bytes_ok; repeat (apply Forall_cons || apply Forall_nil).

Lemma blk_map f s : (forall x, byte_ok x -> byte_ok (f x)) -> blk s -> blk (map f s).
Proof.
  intros Hf (L & B). split; [unfold zlen in *; rewrite map_length; exact L|].
  apply Forall_map. eapply Forall_impl; [exact Hf|exact B].
Qed.
Lemma blk_sub s : blk s -> blk (SubBytes s).
Proof. apply blk_map, sbox_ok. Qed.
Lemma blk_isub s : blk s -> blk (InvSubBytes s).
Proof. apply blk_map, inv_sbox_ok. Qed.
Lemma blk_xor s k : blk s -> blk k -> blk (xorb s k).
Proof. intros (L & B) (L' & B'). split; [rewrite zlen_xorb by congruence; exact L|apply bytes_ok_xorb; assumption]. Qed.
Lemma blk_shift s : blk s -> blk (ShiftRows s).
Proof. revert s. apply blk_elim. intros. split; [reflexivity|]. bytes_inv H. cbv [ShiftRows st_make st_get]. cbn. bytes_intro; assumption. Qed.
Lemma blk_ishift s : blk s -> blk (InvShiftRows s).
Proof. revert s. apply blk_elim. intros. split; [reflexivity|]. bytes_inv H. cbv [InvShiftRows st_make st_get]. cbn. bytes_intro; assumption. Qed.
Lemma ishift_shift s : blk s -> InvShiftRows (ShiftRows s) = s.
Proof. revert s. apply blk_elim. intros. reflexivity. Qed.
Lemma shift_ishift s : blk s -> ShiftRows (InvShiftRows s) = s.
Proof. revert s. apply blk_elim. intros. reflexivity. Qed.
Lemma isub_sub s : blk s -> InvSubBytes (SubBytes s) = s.
Proof.
  intros (_ & B). unfold InvSubBytes, SubBytes. rewrite map_map. rewrite <- (map_id s) at 2. apply map_ext_in.
  intros x Hx. apply inv_sbox_sbox. eapply Forall_forall in B; eauto.
Qed.
Lemma sub_isub s : blk s -> SubBytes (InvSubBytes s) = s.
Proof.
  intros (_ & B). unfold InvSubBytes, SubBytes. rewrite map_map. rewrite <- (map_id s) at 2. apply map_ext_in.
  intros x Hx. apply sbox_inv_sbox. eapply Forall_forall in B; eauto.
Qed.

Opaque gmul.
(* one entry of a matrix product *)
Definition dot4 (a b c d x y z t : Z) : Z :=
  Z.lxor (Z.lxor (Z.lxor (Z.lxor 0 (gmul a x)) (gmul b y)) (gmul c z)) (gmul d t).
Definition mixcol (m0 m1 m2 m3 x y z t : Z) : bytes :=
  [dot4 m0 m1 m2 m3 x y z t; dot4 m3 m0 m1 m2 x y z t; dot4 m2 m3 m0 m1 x y z t; dot4 m1 m2 m3 m0 x y z t].
Lemma mix_cols m0 m1 m2 m3 x0 x1 x2 x3 x4 x5 x6 x7 x8 x9 x10 x11 x12 x13 x14 x15 :
  mix_with [m0; m1; m2; m3] [x0; x1; x2; x3; x4; x5; x6; x7; x8; x9; x10; x11; x12; x13; x14; x15] =
  mixcol m0 m1 m2 m3 x0 x1 x2 x3 ++ mixcol m0 m1 m2 m3 x4 x5 x6 x7 ++
  mixcol m0 m1 m2 m3 x8 x9 x10 x11 ++ mixcol m0 m1 m2 m3 x12 x13 x14 x15.
Proof. reflexivity. Qed.
Ltac lxor_bytes := repeat match goal with |- byte_ok (Z.lxor _ _) => apply lxor_byte end.
Lemma dot4_ok a b c d x y z t : byte_ok a -> byte_ok b -> byte_ok c -> byte_ok d -> byte_ok (dot4 a b c d x y z t).
Proof. intros. assert (byte_ok 0) by (unfold byte_ok; lia). unfold dot4. lxor_bytes; try assumption; apply gmul_ok; assumption. Qed.
Lemma blk_mix m0 m1 m2 m3 s : byte_ok m0 -> byte_ok m1 -> byte_ok m2 -> byte_ok m3 -> blk s -> blk (mix_with [m0; m1; m2; m3] s).
Proof. intros M0 M1 M2 M3. revert s. apply blk_elim. intros. rewrite mix_cols. split; [reflexivity|]. unfold mixcol; cbn [app]. bytes_intro; apply dot4_ok; assumption. Qed.
Ltac small := unfold byte_ok; lia.
Lemma blk_mc s : blk s -> blk (MixColumns s).
Proof. apply blk_mix; small. Qed.
Lemma blk_imc s : blk s -> blk (InvMixColumns s).
Proof. apply blk_mix; small. Qed.

Lemma dot4_lin a b c d x y z t x' y' z' t' :
  dot4 a b c d (Z.lxor x x') (Z.lxor y y') (Z.lxor z z') (Z.lxor t t') = Z.lxor (dot4 a b c d x y z t) (dot4 a b c d x' y' z' t').
Proof. unfold dot4. rewrite !gmul_lin. lxors. Qed.
Lemma imc_xor s k : blk s -> blk k -> InvMixColumns (xorb s k) = xorb (InvMixColumns s) (InvMixColumns k).
Proof.
  intros Hs Hk. revert s Hs. apply blk_elim. intros. revert k Hk. apply blk_elim. intros.
  unfold InvMixColumns. cbn [xorb combine map]. unfold xorb. cbn [combine map fst snd]. rewrite !mix_cols.
  unfold mixcol. cbn [app combine map fst snd]. rewrite !dot4_lin. reflexivity.
Qed.

(* ---- the two matrices are inverse to each other ---- *)
Lemma dot_dot (n0 n1 n2 n3 m0 m1 m2 m3 : Z) x y z t :
  dot4 n0 n1 n2 n3 (dot4 m0 m1 m2 m3 x y z t) (dot4 m3 m0 m1 m2 x y z t) (dot4 m2 m3 m0 m1 x y z t) (dot4 m1 m2 m3 m0 x y z t) =
  Z.lxor (Z.lxor (Z.lxor
    (dot4 n0 n1 n2 n3 (gmul m0 x) (gmul m3 x) (gmul m2 x) (gmul m1 x))
    (dot4 n0 n1 n2 n3 (gmul m1 y) (gmul m0 y) (gmul m3 y) (gmul m2 y)))
    (dot4 n0 n1 n2 n3 (gmul m2 z) (gmul m1 z) (gmul m0 z) (gmul m3 z)))
    (dot4 n0 n1 n2 n3 (gmul m3 t) (gmul m2 t) (gmul m1 t) (gmul m0 t)).
Proof.
  unfold dot4 at 2 3 4 5. rewrite !Z.lxor_0_l. rewrite !dot4_lin. reflexivity.
Qed.
(* the product of the matrices, applied to a byte: row [n] times column k of [m] *)
Definition unit_check (n0 n1 n2 n3 m0 m1 m2 m3 x : Z) : bool :=
  (dot4 n0 n1 n2 n3 (gmul m0 x) (gmul m3 x) (gmul m2 x) (gmul m1 x) =? x) &&
  (dot4 n0 n1 n2 n3 (gmul m1 x) (gmul m0 x) (gmul m3 x) (gmul m2 x) =? 0) &&
  (dot4 n0 n1 n2 n3 (gmul m2 x) (gmul m1 x) (gmul m0 x) (gmul m3 x) =? 0) &&
  (dot4 n0 n1 n2 n3 (gmul m3 x) (gmul m2 x) (gmul m1 x) (gmul m0 x) =? 0).
Section Inverse.
Variables n0 n1 n2 n3 m0 m1 m2 m3 : Z.
Hypothesis U : forall x, byte_ok x -> unit_check n0 n1 n2 n3 m0 m1 m2 m3 x = true.
Let U4 x (H : byte_ok x) :
  dot4 n0 n1 n2 n3 (gmul m0 x) (gmul m3 x) (gmul m2 x) (gmul m1 x) = x /\
  dot4 n0 n1 n2 n3 (gmul m1 x) (gmul m0 x) (gmul m3 x) (gmul m2 x) = 0 /\
  dot4 n0 n1 n2 n3 (gmul m2 x) (gmul m1 x) (gmul m0 x) (gmul m3 x) = 0 /\
  dot4 n0 n1 n2 n3 (gmul m3 x) (gmul m2 x) (gmul m1 x) (gmul m0 x) = 0.
Proof.
  specialize (U x H). unfold unit_check in U. rewrite !andb_true_iff, !Z.eqb_eq in U. tauto.
Qed.
(* a rotation of the arguments is a rotation of the coefficients *)
Let rot a b c d x y z t : dot4 a b c d x y z t = dot4 b c d a y z t x.
Proof. unfold dot4. lxors. Qed.
Let row x y z t : byte_ok x -> byte_ok y -> byte_ok z -> byte_ok t ->
  dot4 n0 n1 n2 n3 (dot4 m0 m1 m2 m3 x y z t) (dot4 m3 m0 m1 m2 x y z t) (dot4 m2 m3 m0 m1 x y z t) (dot4 m1 m2 m3 m0 x y z t) = x.
Proof.
  intros Hx Hy Hz Ht.
  destruct (U4 x Hx) as (X0 & X1 & X2 & X3), (U4 y Hy) as (Y0 & Y1 & Y2 & Y3), (U4 z Hz) as (Z0 & Z1 & Z2 & Z3), (U4 t Ht) as (T0 & T1 & T2 & T3).
  rewrite dot_dot, X0, Y1, Z2, T3. rewrite !Z.lxor_0_r. reflexivity.
Qed.
Let dots a b c d a' b' c' d' e f g h : a = a' -> b = b' -> c = c' -> d = d' -> dot4 e f g h a b c d = dot4 e f g h a' b' c' d'.
Proof. congruence. Qed.
Lemma mixcol_inv x y z t : byte_ok x -> byte_ok y -> byte_ok z -> byte_ok t ->
  mixcol n0 n1 n2 n3 (dot4 m0 m1 m2 m3 x y z t) (dot4 m3 m0 m1 m2 x y z t) (dot4 m2 m3 m0 m1 x y z t) (dot4 m1 m2 m3 m0 x y z t)
  = [x; y; z; t].
Proof.
  intros Hx Hy Hz Ht. unfold mixcol. f_equal; [|f_equal; [|f_equal; [|f_equal]]].
  - apply row; assumption.
  - etransitivity; [|apply (row y z t x); assumption]. rewrite (rot n3 n0 n1 n2). apply dots; unfold dot4; lxors.
  - etransitivity; [|apply (row z t x y); assumption]. rewrite (rot n2 n3 n0 n1), (rot n3 n0 n1 n2). apply dots; unfold dot4; lxors.
  - etransitivity; [|apply (row t x y z); assumption]. rewrite (rot n1 n2 n3 n0), (rot n2 n3 n0 n1), (rot n3 n0 n1 n2). apply dots; unfold dot4; lxors.
Qed.
Lemma mix_inv s : blk s -> mix_with [n0; n1; n2; n3] (mix_with [m0; m1; m2; m3] s) = s.
Proof.
  revert s. apply blk_elim. intros. bytes_inv H. rewrite mix_cols. unfold mixcol; cbn [app]. rewrite mix_cols.
  rewrite !mixcol_inv by assumption. reflexivity.
Qed.
End Inverse.
Transparent gmul.
Lemma imc_mc s : blk s -> InvMixColumns (MixColumns s) = s.
Proof. apply mix_inv. apply by_bytes. vm_compute. reflexivity. Qed.
Lemma mc_imc s : blk s -> MixColumns (InvMixColumns s) = s.
Proof. apply mix_inv. apply by_bytes. vm_compute. reflexivity. Qed.

(* ---- the ciphers ---- *)
Definition keys_ok (ks : list bytes) : Prop := Forall blk ks /\ (2 <= length ks)%nat.
Lemma keys_middle ks : keys_ok ks -> blk (hd [] ks) /\ Forall blk (middle ks) /\ blk (last ks []).
Proof.
  intros (H & L). destruct ks as [|k ks]; [cbn in L; lia|]. apply Forall_cons_iff in H as (H1 & H2). split; [exact H1|].
  destruct ks as [|k' ks']; [cbn in L; lia|].
  destruct (exists_last (l := k' :: ks')) as (m & e & E); [discriminate|]. rewrite E in *. clear E.
  unfold middle. cbn [tl]. rewrite removelast_last. apply Forall_app in H2 as (H2 & H3). split; [exact H2|].
  change (k :: m ++ [e]) with ((k :: m) ++ [e]). rewrite last_last. inversion H3; assumption.
Qed.
Lemma blk_round s k : blk s -> blk k -> blk (aes_round s k).
Proof. intros. apply blk_xor; [|assumption]. apply blk_mc, blk_shift, blk_sub. assumption. Qed.
Lemma blk_rounds ks : forall s, blk s -> Forall blk ks -> blk (fold_left aes_round ks s).
Proof. induction ks as [|k ks IH]; intros s Hs H; [exact Hs|]. apply Forall_cons_iff in H as (H1 & H2). cbn [fold_left]. apply IH; [apply blk_round; assumption|assumption]. Qed.
Lemma blk_iround s k : blk s -> blk k -> blk (inv_round s k).
Proof. intros. apply blk_imc, blk_xor; [|assumption]. apply blk_isub, blk_ishift. assumption. Qed.
Lemma blk_irounds ks : forall s, blk s -> Forall blk ks -> blk (fold_left inv_round ks s).
Proof. induction ks as [|k ks IH]; intros s Hs H; [exact Hs|]. apply Forall_cons_iff in H as (H1 & H2). cbn [fold_left]. apply IH; [apply blk_iround; assumption|assumption]. Qed.

Lemma blk_xx a k : blk a -> blk k -> xorb (xorb a k) k = a.
Proof. intros (L & _) (L' & _). apply xorb_cancel. unfold zlen in *. lia. Qed.
(* the rounds undo each other *)
Lemma inv_rounds ks : forall s, blk s -> Forall blk ks ->
  fold_left inv_round (rev ks) (ShiftRows (SubBytes (fold_left aes_round ks s))) = ShiftRows (SubBytes s).
Proof.
  induction ks as [|k ks IH]; intros s Hs H; [reflexivity|]. apply Forall_cons_iff in H as (H1 & H2).
  cbn [fold_left rev]. rewrite fold_left_app. rewrite IH by (try apply blk_round; assumption).
  cbn [fold_left]. unfold inv_round. pose proof (blk_round s k Hs H1).
  rewrite ishift_shift by (apply blk_sub; assumption). rewrite isub_sub by assumption. unfold aes_round.
  rewrite blk_xx by (try apply blk_mc, blk_shift, blk_sub; assumption). apply imc_mc, blk_shift, blk_sub. exact Hs.
Qed.
Lemma enc_inv_rounds ks : forall s, blk s -> Forall blk ks ->
  fold_left aes_round (rev ks) (InvSubBytes (InvShiftRows (fold_left inv_round ks s))) = InvSubBytes (InvShiftRows s).
Proof.
  induction ks as [|k ks IH]; intros s Hs H; [reflexivity|]. apply Forall_cons_iff in H as (H1 & H2).
  cbn [fold_left rev]. rewrite fold_left_app. rewrite IH by (try apply blk_iround; assumption).
  cbn [fold_left]. unfold aes_round. pose proof (blk_iround s k Hs H1).
  rewrite sub_isub by (apply blk_ishift; assumption). rewrite shift_ishift by assumption. unfold inv_round.
  assert (blk (InvSubBytes (InvShiftRows s))) by (apply blk_isub, blk_ishift; assumption).
  rewrite mc_imc by (apply blk_xor; assumption). apply blk_xx; assumption.
Qed.
Lemma cipher_blk ks b : keys_ok ks -> blk b -> blk (aes_cipher ks b).
Proof.
  intros K Hb. destruct (keys_middle ks K) as (K1 & K2 & K3). apply blk_xor; [|exact K3]. apply blk_shift, blk_sub, blk_rounds; [apply blk_xor|]; assumption.
Qed.
Lemma inv_cipher_blk ks b : keys_ok ks -> blk b -> blk (aes_inv_cipher ks b).
Proof.
  intros K Hb. destruct (keys_middle ks K) as (K1 & K2 & K3). apply blk_xor; [|exact K1]. apply blk_isub, blk_ishift, blk_irounds; [apply blk_xor; assumption|].
  apply Forall_rev. exact K2.
Qed.
Lemma inv_cipher_cipher ks b : keys_ok ks -> blk b -> aes_inv_cipher ks (aes_cipher ks b) = b.
Proof.
  intros K Hb. destruct (keys_middle ks K) as (K1 & K2 & K3). unfold aes_inv_cipher, aes_cipher. cbn zeta.
  assert (H0 : blk (xorb b (hd [] ks))) by (apply blk_xor; assumption).
  rewrite blk_xx by (try apply blk_shift, blk_sub, blk_rounds; assumption). rewrite inv_rounds by assumption.
  rewrite ishift_shift by (apply blk_sub; assumption). rewrite isub_sub by assumption. apply blk_xx; assumption.
Qed.
Lemma cipher_inv_cipher ks b : keys_ok ks -> blk b -> aes_cipher ks (aes_inv_cipher ks b) = b.
Proof.
  intros K Hb. destruct (keys_middle ks K) as (K1 & K2 & K3). unfold aes_inv_cipher, aes_cipher. cbn zeta.
  assert (H0 : blk (xorb b (last ks []))) by (apply blk_xor; assumption).
  assert (K2r : Forall blk (rev (middle ks))) by (apply Forall_rev; exact K2).
  rewrite blk_xx by (try apply blk_isub, blk_ishift, blk_irounds; assumption).
  rewrite <- (rev_involutive (middle ks)) at 1. rewrite enc_inv_rounds by assumption.
  rewrite sub_isub by (apply blk_ishift; assumption). rewrite shift_ishift by assumption. apply blk_xx; assumption.
Qed.
(* the equivalent inverse cipher: the rounds of decryption with transformed keys *)
Definition eq_inv_round (s k : bytes) : bytes := xorb (InvMixColumns (InvSubBytes (InvShiftRows s))) k.
Lemma equiv_rounds ks : forall s, blk s -> Forall blk ks ->
  fold_left inv_round ks s = fold_left eq_inv_round (map InvMixColumns ks) s.
Proof.
  induction ks as [|k ks IH]; intros s Hs H; [reflexivity|]. apply Forall_cons_iff in H as (H1 & H2).
  cbn [fold_left map]. rewrite IH by (try apply blk_iround; assumption). f_equal.
  unfold inv_round, eq_inv_round. apply imc_xor; [apply blk_isub, blk_ishift|]; assumption.
Qed.
