(* arcfour.c computes RC4; the table stays a permutation. *)
From Verif Require Import Prelude PreludeFacts BytesNum Word SpecTransducer TransformModel Transform SpecEnc EncModel EncLawful EncApi KeccakModel Keccak Sha CipherModel LibTransform SpecStream StreamModel StreamObj.
From Coq Require Import Permutation.

Definition table_ok (T : list Z) : Prop := length T = 256%nat /\ bytes_ok T.
Lemma nth_map_seq {A} (f : nat -> A) d n k : (k < n)%nat -> nth k (map f (seq 0 n)) d = f k.
Proof. intros H. rewrite (nth_indep _ d (f 0%nat)) by (rewrite map_length, seq_length; exact H). rewrite map_nth, seq_nth by exact H. reflexivity. Qed.
Lemma table_at T i : table_ok T -> byte_ok (nth i T 0).
Proof.
  intros (L & B). destruct (lt_dec i (length T)) as [H|H]; [apply (proj1 (Forall_forall _ _) B), nth_In; exact H|rewrite nth_overflow by lia; unfold byte_ok; lia].
Qed.
Lemma swap_nth T i j k : (k < 256)%nat ->
  nth k (rc4_swap T i j) 0 = if Z.of_nat k =? i then nth (Z.to_nat j) T 0 else if Z.of_nat k =? j then nth (Z.to_nat i) T 0 else nth k T 0.
Proof. intros H. unfold rc4_swap. apply (nth_map_seq (fun k => if Z.of_nat k =? i then _ else if Z.of_nat k =? j then _ else _)). exact H. Qed.
Lemma swap_length T i j : length (rc4_swap T i j) = 256%nat.
Proof. unfold rc4_swap. rewrite map_length. apply seq_length. Qed.
Lemma swap_ok T i j : table_ok T -> table_ok (rc4_swap T i j).
Proof.
  intros H. split; [apply swap_length|]. apply Forall_forall. intros x Hx. apply In_nth with (d := 0) in Hx. destruct Hx as (k & Hk & <-).
  rewrite swap_length in Hk. rewrite swap_nth by exact Hk. destruct (_ =? i); [apply table_at, H|]. destruct (_ =? j); apply table_at, H.
Qed.
Lemma swap_kput T i j : table_ok T -> byte_ok i -> byte_ok j ->
  kput (kput T (Z.to_nat i) (kget T (Z.to_nat j))) (Z.to_nat j) (kget T (Z.to_nat i)) = rc4_swap T i j.
Proof.
  intros (L & B) Hi Hj. unfold byte_ok in *. assert (L1 : length (kput T (Z.to_nat i) (kget T (Z.to_nat j))) = 256%nat) by (rewrite kput_length; lia).
  apply nth_ext with (d := 0) (d' := 0); [rewrite kput_length, swap_length; lia|].
  intros k Hk. rewrite kput_length in Hk by lia. rewrite swap_nth by lia. rewrite kput_nth by lia. rewrite kput_nth by lia. unfold kget.
  destruct (Nat.eqb_spec k (Z.to_nat j)) as [Ej|Ej], (Nat.eqb_spec k (Z.to_nat i)) as [Ei|Ei];
    destruct (Z.eqb_spec (Z.of_nat k) i) as [Fi|Fi]; try lia; destruct (Z.eqb_spec (Z.of_nat k) j) as [Fj|Fj]; try lia; try reflexivity.
  congruence.
Qed.
Lemma swap_perm T i j : length T = 256%nat -> byte_ok i -> byte_ok j -> Permutation T (rc4_swap T i j).
Proof.
  intros L Hi Hj. unfold byte_ok in *. apply (Permutation_nth T (rc4_swap T i j) 0). cbn zeta. split; [rewrite swap_length; lia|].
  exists (fun k => if Z.of_nat k =? i then Z.to_nat j else if Z.of_nat k =? j then Z.to_nat i else k). rewrite L. split; [|split].
  - intros k Hk. destruct (_ =? i); [lia|]. destruct (_ =? j); lia.
  - intros x y Hx Hy. destruct (Z.eqb_spec (Z.of_nat x) i), (Z.eqb_spec (Z.of_nat y) i), (Z.eqb_spec (Z.of_nat x) j), (Z.eqb_spec (Z.of_nat y) j); lia.
  - intros k Hk. rewrite swap_nth by exact Hk. destruct (_ =? i); [reflexivity|]. destruct (_ =? j); reflexivity.
Qed.

(* the state after n output bytes *)
Definition rc4_ok (s : list Z * Z * Z) : Prop := let '(T, i, j) := s in table_ok T /\ byte_ok i /\ byte_ok j /\ Permutation (map Z.of_nat (seq 0 256)) T.
Lemma land_mod x : Z.land x 255 = x mod 256.
Proof. change 255 with (Z.ones 8). rewrite Z.land_ones by lia. reflexivity. Qed.
Lemma mod_byte x : byte_ok (x mod 256).
Proof. unfold byte_ok. apply Z.mod_pos_bound. lia. Qed.
Lemma next_ok s : rc4_ok s -> rc4_ok (rc4_next s).
Proof.
  destruct s as ((T, i), j). intros (H1 & H2 & H3 & H4). cbn [rc4_next rc4_ok]. splits; [apply swap_ok, H1|apply mod_byte|apply mod_byte|].
  eapply Permutation_trans; [exact H4|]. apply swap_perm; [apply H1|apply mod_byte|apply mod_byte].
Qed.
Lemma out_byte s : rc4_ok s -> byte_ok (rc4_out s).
Proof. destruct s as ((T, i), j). intros (H1 & _). apply table_at. exact H1. Qed.
(* key scheduling *)
Lemma cook_step key T idx j i : table_ok T -> byte_ok j -> (i < 256)%nat -> (0 < length key <= 256)%nat -> idx = Z.of_nat (i mod length key) ->
  arc_cook_step key (T, idx, j) i = (let (T', j') := rc4_ksa_step key (T, j) i in (T', Z.of_nat (S i mod length key), j')) /\
  byte_ok (snd (rc4_ksa_step key (T, j) i)) /\ table_ok (fst (rc4_ksa_step key (T, j) i)) /\ Permutation T (fst (rc4_ksa_step key (T, j) i)).
Proof.
  intros HT Hj Hi Hk ->. cbn [arc_cook_step rc4_ksa_step fst snd]. unfold rc4_at. rewrite !Nat2Z.id.
  replace (nth (i mod length key) key 0 + kget T i + j) with (j + nth i T 0 + nth (i mod length key) key 0) by (unfold kget; lia).
  set (j' := (j + nth i T 0 + nth (i mod length key) key 0) mod 256). assert (Hj' : byte_ok j') by apply mod_byte.
  assert (Hb : byte_ok (Z.of_nat i)) by (unfold byte_ok; lia).
  split; [|split; [exact Hj'|split; [apply swap_ok; exact HT|apply swap_perm; [apply HT|exact Hb|exact Hj']]]].
  assert (Sw := swap_kput T (Z.of_nat i) j' HT Hb Hj'). rewrite Nat2Z.id in Sw. rewrite Sw. do 2 f_equal.
  assert (M : (i mod length key < length key)%nat) by (apply Nat.mod_upper_bound; lia).
  replace (S i) with (i + 1)%nat by lia. rewrite <- (Nat.add_mod_idemp_l i 1) by lia. unfold zlen. clear - M Hk.
  set (n := length key) in *. clearbody n. set (q := (i mod n)%nat) in *. clearbody q.
  destruct (Nat.eq_dec (q + 1) n) as [E|E].
  - rewrite E, Nat.mod_same by lia. replace (Z.of_nat q + 1) with (Z.of_nat n) by lia.
    destruct (Nat.eq_dec n 256) as [F|F]; [rewrite F; reflexivity|]. rewrite Z.mod_small by lia. replace (Z.of_nat n >=? Z.of_nat n) with true by lia. reflexivity.
  - rewrite (Nat.mod_small (q + 1) n) by lia. rewrite Z.mod_small by lia. replace (Z.of_nat q + 1 >=? Z.of_nat n) with false by lia. lia.
Qed.
Lemma id_table : table_ok (map Z.of_nat (seq 0 256)).
Proof.
  split; [rewrite map_length; apply seq_length|]. apply Forall_forall. intros x Hx. apply in_map_iff in Hx. destruct Hx as (k & <- & Hk'). apply in_seq in Hk'. unfold byte_ok. lia.
Qed.
Lemma cook_fold key m : (m <= 256)%nat -> (0 < length key <= 256)%nat ->
  let s := fold_left (rc4_ksa_step key) (seq 0 m) (map Z.of_nat (seq 0 256), 0) in
  fold_left (arc_cook_step key) (seq 0 m) (map Z.of_nat (seq 0 256), 0, 0) = (fst s, Z.of_nat (m mod length key), snd s) /\
  table_ok (fst s) /\ byte_ok (snd s) /\ Permutation (map Z.of_nat (seq 0 256)) (fst s).
Proof.
  intros Hm Hk. cbn zeta. assert (G := id_table). revert G. generalize (map Z.of_nat (seq 0 256)). intros T0 G. induction m as [|m IH].
  - cbn [fold_left seq fst snd]. rewrite Nat.mod_0_l by lia. splits; [reflexivity| | |apply Permutation_refl].
    + exact G.
    + unfold byte_ok. lia.
  - destruct IH as (I1 & I2 & I3 & I4); [lia|]. rewrite (seq_S m 0), !fold_left_app. cbn [fold_left]. rewrite I1, Nat.add_0_l.
    set (s := fold_left (rc4_ksa_step key) (seq 0 m) _) in *.
    destruct (cook_step key (fst s) (Z.of_nat (m mod length key)) (snd s) m I2 I3 ltac:(lia) Hk eq_refl) as (E & J1 & J2 & J3).
    rewrite <- surjective_pairing in *. rewrite E. destruct (rc4_ksa_step key s m) as (T', j'). cbn [fst snd] in *.
    splits; [reflexivity|exact J2|exact J1|]. eapply Permutation_trans; eassumption.
Qed.
Lemma cook_ok key : (0 < length key <= 256)%nat -> arcfour_cook_key key = Arc (rc4_ksa key) 0 0 /\ rc4_ok (rc4_ksa key, 0, 0).
Proof.
  intros Hk. destruct (cook_fold key 256 ltac:(lia) Hk) as (E & H1 & H2 & H3). unfold arcfour_cook_key, rc4_ksa. rewrite E. cbn [fst snd] in *.
  split; [reflexivity|]. cbn [rc4_ok]. splits; [exact H1|unfold byte_ok; lia|unfold byte_ok; lia|exact H3].
Qed.
(* output *)
Lemma state_0 key : rc4_state key 0 = (rc4_ksa key, 0, 0).
Proof. unfold rc4_state. cbn [Nat.iter nat_rect]. exact eq_refl. Qed.
Opaque rc4_ksa arcfour_cook_key.
Lemma state_S key n : rc4_state key (S n) = rc4_next (rc4_state key n).
Proof. reflexivity. Qed.
Lemma state_ok key n : (0 < length key <= 256)%nat -> rc4_ok (rc4_state key n).
Proof. intros Hk. induction n as [|n IH]; [apply (cook_ok key Hk)|]. rewrite state_S. apply next_ok, IH. Qed.
Lemma rc4_byte key n : (0 < length key <= 256)%nat -> byte_ok (rc4 key n).
Proof. intros Hk. apply out_byte, state_ok, Hk. Qed.
Lemma loop_ok key l : (0 < length key <= 256)%nat -> forall n T x y, rc4_state key n = (T, x, y) ->
  arc_loop T x y l = (let '(T', x', y') := rc4_state key (n + length l) in (T', x', y', ks_xor (rc4 key) n l)).
Proof.
  intros Hk. induction l as [|c l IH]; intros n T x y E.
  - cbn [length arc_loop]. rewrite Nat.add_0_r, E. reflexivity.
  - cbn [length arc_loop]. rewrite ks_xor_cons. replace (n + S (length l))%nat with (S n + length l)%nat by lia.
    assert (Ok := state_ok key n Hk). rewrite E in Ok. destruct Ok as (H1 & H2 & H3 & _).
    assert (N := state_S key n). rewrite E in N. cbn [rc4_next] in N. change 0xFF with 255. rewrite !land_mod.
    set (x' := (x + 1) mod 256) in *. assert (Bx : byte_ok x') by apply mod_byte.
    change (rc4_at T x') with (kget T (Z.to_nat x')) in N. rewrite (Z.add_comm (kget T (Z.to_nat x')) y).
    set (y' := (y + kget T (Z.to_nat x')) mod 256) in *. assert (By : byte_ok y') by apply mod_byte.
    rewrite (swap_kput T x' y' H1 Bx By).
    unfold rc4 at 1. rewrite N.
    assert (G : rc4_out (rc4_swap T x' y', x', y') = kget (rc4_swap T x' y') (Z.to_nat ((kget T (Z.to_nat x') + kget T (Z.to_nat y')) mod 256))).
    { unfold rc4_out, rc4_at, kget.
      assert (A1 : nth (Z.to_nat x') (rc4_swap T x' y') 0 = nth (Z.to_nat y') T 0).
      { unfold byte_ok in Bx. rewrite swap_nth by lia. rewrite Z2Nat.id, Z.eqb_refl by lia. reflexivity. }
      assert (A2 : nth (Z.to_nat y') (rc4_swap T x' y') 0 = nth (Z.to_nat x') T 0).
      { unfold byte_ok in By. rewrite swap_nth by lia. rewrite Z2Nat.id, Z.eqb_refl by lia. destruct (Z.eqb_spec y' x') as [Q|Q]; [rewrite Q; reflexivity|reflexivity]. }
      rewrite A1, A2, (Z.add_comm (nth (Z.to_nat y') T 0)). reflexivity. }
    rewrite <- G. rewrite (IH (S n) _ _ _ N). destruct (rc4_state key (S n + length l)) as ((T', x''), y''). reflexivity.
Qed.
Definition arc_rel (key : bytes) (k : arc) (n : nat) : Prop := rc4_state key n = (arc_state k, arc_x k, arc_y k).
Lemma arc_prim key k n l : (0 < length key <= 256)%nat -> arc_rel key k n ->
  exists k', arcfour_encrypt k l = (k', Ret (ks_xor (rc4 key) n l)) /\ arc_rel key k' (n + length l).
Proof.
  intros Hk R. unfold arcfour_encrypt. rewrite (loop_ok key l Hk n _ _ _ R). unfold arc_rel. destruct (rc4_state key (n + length l)) as ((T, x), y) eqn:E.
  exists (Arc T x y). split; reflexivity.
Qed.
Definition arc_key (key : bytes) : Prop := 1 <= zlen key <= 256.
Lemma arc_key_len key : arc_key key -> (0 < length key <= 256)%nat.
Proof. unfold arc_key, zlen. lia. Qed.
Lemma arc_rel_0 key : arc_key key -> arc_rel key (arcfour_cook_key key) 0.
Proof. intros H. destruct (cook_ok key (arc_key_len key H)) as (E & _). unfold arc_rel. rewrite E. exact (state_0 key). Qed.

(* ---- class arcfour and Cipher.arcfour ---- *)
Lemma new_arcfour_ok key : arc_key key -> new_arcfour key = Ret (SObj arcfour_class (arcfour_cook_key key)).
Proof. intros H. unfold new_arcfour, arc_key in *. replace ((zlen key >? 0) && (zlen key <=? 256)) with true by lia. reflexivity. Qed.
Lemma arc_P key : arc_key key -> forall k n l, arc_rel key k n -> bytes_ok l -> exists k', arcfour_encrypt k l = (k', Ret (ks_xor (rc4 key) n l)) /\ arc_rel key k' (n + length l).
Proof. intros H k n l R _. apply arc_prim; [apply arc_key_len; exact H|exact R]. Qed.
Lemma arc_Q key : arc_key key -> forall n, byte_ok (rc4 key n).
Proof. intros H n. apply rc4_byte, arc_key_len, H. Qed.
Lemma arcfour_computes key : 1 <= zlen key <= 256 -> exists o, new_arcfour key = Ret o /\ stream_computes o (rc4 key).
Proof.
  intros H. exists (SObj arcfour_class (arcfour_cook_key key)). split; [apply new_arcfour_ok; exact H|].
  apply (prim_computes arc arcfour_encrypt arc_wipe (rc4 key) (arc_rel key) (arc_Q key H) (arc_P key H)). apply arc_rel_0; exact H.
Qed.
Lemma arcfour_table key cs : 1 <= zlen key <= 256 -> Forall (fun c => bytes_ok (sc_src c)) cs ->
  Permutation (map Z.of_nat (seq 0 256)) (arc_state (fst (sc_run arcfour_class (arcfour_cook_key key) cs))).
Proof.
  intros H B. destruct (prim_history arc arcfour_encrypt arc_wipe (rc4 key) (arc_rel key) (arc_Q key H) (arc_P key H) cs (arcfour_cook_key key) 0%nat (arc_rel_0 key H) B) as (_ & n' & R).
  assert (Ok := state_ok key n' (arc_key_len key H)). unfold arc_rel in R. rewrite R in Ok. apply Ok.
Qed.
Lemma Cipher_arcfour_whole fresh key d msg : (forall n, 0 <= n -> zlen (fresh n) = n) -> 1 <= zlen key <= 256 -> bytes_ok msg -> zlen msg <= max_string_length ->
  exists o, Cipher_arcfour fresh key d = Ret o /\ whole o msg (Ret (ks_xor (rc4 key) 0 msg)) /\ lib_transform fresh o 1 0.
Proof.
  intros Hf H B L. unfold Cipher_arcfour. rewrite new_arcfour_ok by exact H. cbn [obind]. eexists. split; [reflexivity|]. split.
  - apply (prim_whole arc arcfour_encrypt arc_wipe (rc4 key) (arc_rel key) (arc_Q key H) (arc_P key H)); try assumption. apply arc_rel_0; exact H.
  - apply (prim_lib arc arcfour_encrypt arc_wipe (rc4 key) (arc_rel key) (arc_Q key H) (arc_P key H)); try assumption. apply arc_rel_0; exact H.
Qed.
Lemma arcfour_key_sizes key : (1 <= zlen key <= 256 -> exists o, new_arcfour key = Ret o) /\ (~ 1 <= zlen key <= 256 -> new_arcfour key = Raise (Error Wrong_key_size)).
Proof.
  split; intros H; [rewrite new_arcfour_ok by exact H; eauto|]. unfold new_arcfour. replace ((zlen key >? 0) && (zlen key <=? 256)) with false by lia. reflexivity.
Qed.
