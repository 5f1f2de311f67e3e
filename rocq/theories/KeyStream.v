(* OFB, CTR, GCM: the keystream depends on the key and the IV only. *)
From Verif Require Import Prelude PreludeFacts BytesNum SpecTransducer SpecBlock BlockTotal SpecModes TransformModel Transform BlockModel CipherModel CipherSpec
  CipherFacts CipherApi EncModel EncApi SpecStream StreamObj SpecAead.

Section KS.
Variables (n : nat) (S : nat -> bytes).
Hypothesis n_pos : (0 < n)%nat.
Hypothesis S_len : forall k, (n <= length (S k))%nat.
Definition stream_of (i : nat) : Z := nth (i mod n) (S (i / n)) 0.

Lemma stream_seg k len : (len <= n)%nat -> map stream_of (seq (n * k) len) = firstn len (S k).
Proof.
  intros Hl. pose proof (S_len k) as Hk. apply (nth_ext _ _ (stream_of 0) 0).
  - rewrite map_length, seq_length, firstn_length. lia.
  - intros i Hi. rewrite map_length, seq_length in Hi. rewrite map_nth, seq_nth by exact Hi. unfold stream_of.
    rewrite (Nat.mul_comm n k), Nat.add_comm, Nat.mod_add, Nat.div_add, Nat.mod_small, Nat.div_small by lia. cbn [Nat.add].
    rewrite <- (firstn_skipn len (S k)) at 1. rewrite app_nth1; [reflexivity|]. rewrite firstn_length. lia.
Qed.
Lemma stream_block k x : (length x <= n)%nat -> ks_xor stream_of (n * k) x = xorb x (firstn (length x) (S k)).
Proof. intros Hx. unfold ks_xor, ks_bytes. rewrite stream_seg by exact Hx. reflexivity. Qed.
Lemma stream_blocks X : Forall (fun x => length x = n) X -> forall k Y, length Y = length X ->
  (forall j, (j < length X)%nat -> nth j Y [] = xorb (nth j X []) (firstn n (S (k + j)))) ->
  concat Y = ks_xor stream_of (n * k) (concat X).
Proof.
  induction 1 as [|x X Hx HX IH]; intros k Y Hl HY.
  - destruct Y; [reflexivity|discriminate].
  - destruct Y as [|y Y]; [discriminate|]. cbn [concat]. rewrite ks_xor_app. f_equal.
    + rewrite stream_block by lia. rewrite Hx. specialize (HY 0%nat ltac:(cbn; lia)). cbn [nth] in HY. rewrite Nat.add_0_r in HY. exact HY.
    + rewrite Hx. replace (n * k + n)%nat with (n * Datatypes.S k)%nat by lia. apply IH; [cbn in Hl; lia|].
      intros j Hj. specialize (HY (Datatypes.S j) ltac:(cbn; lia)). cbn [nth] in HY. rewrite HY. do 3 f_equal. lia.
Qed.
End KS.

(* two messages under the same keystream *)
Lemma ks_xor_diff ks a : forall n b, length a = length b -> xorb (ks_xor ks n a) (ks_xor ks n b) = xorb a b.
Proof.
  induction a as [|x a IH]; intros n [|y b] Hl; try discriminate; [reflexivity|].
  rewrite !ks_xor_cons, !xorb_cons, IH by (cbn in Hl; lia). f_equal.
  rewrite (Z.lxor_comm x), Z.lxor_assoc, <- (Z.lxor_assoc x y), (Z.lxor_comm (Z.lxor x y)), <- Z.lxor_assoc, Z.lxor_nilpotent. apply Z.lxor_0_l.
Qed.

(* the modes that xor the data with a keystream *)
Definition stream_mode (m : chaining_mode) : Prop := match m with OFB _ | CTR | CTR_N _ => True | _ => False end.

Section Modes.
Variable fresh : Z -> bytes.
Hypothesis fresh_len : forall n, 0 <= n -> zlen (fresh n) = n.

Lemma iter_len nb key bs E D iv : block_family nb key bs E D -> zlen iv = bs -> bytes_ok iv -> forall j, zlen (Nat.iter j E iv) = bs /\ bytes_ok (Nat.iter j E iv).
Proof. intros HF H1 H2. induction j as [|j IH]; [split; assumption|]. apply (fam_len _ _ _ _ _ HF); tauto. Qed.

Lemma ctr_block_len w iv j : (w <= length iv)%nat -> bytes_ok iv -> length (ctr_block w iv j) = length iv /\ bytes_ok (ctr_block w iv j).
Proof.
  intros Hw Hb. unfold ctr_block. split.
  - rewrite app_length, firstn_length, length_to_be. lia.
  - apply bytes_ok_app. split; [apply Forall_firstn, Hb|apply bytes_ok_to_be].
Qed.

Lemma mode_keystream nb key bs E D m iv : block_family nb key bs E D -> stream_mode m -> mode_ok bs m -> iv_ok bs m iv ->
  exists ks, forall d, exists o, make_cipher fresh nb (Some m) None iv key d = Ret o /\
  forall msg, bytes_ok msg -> zlen msg + 3 * mode_bs bs m <= max_string_length -> zlen msg mod mode_bs bs m = 0 ->
    within_limit bs m (zlen msg / mode_bs bs m) ->
    run_string o msg = Ret (ks_xor ks 0 msg) /\ forall ops, history_of msg ops -> out_of o ops = ks_xor ks 0 msg.
Proof.
  intros HF Hs Hm Hiv. pose proof (fam_bs _ _ _ _ _ HF) as Hbs. pose proof (mode_bs_pos fresh fresh_len bs m (proj1 Hbs) Hm) as Hn.
  destruct (iv_val_len bs ltac:(lia) m iv Hiv ltac:(intros ->; exact Hs)) as (V1 & V2).
  set (S := fun j => match m with OFB _ => Nat.iter (Datatypes.S j) E (iv_val bs iv) | CTR_N w => E (ctr_block (Z.to_nat w) (iv_val bs iv) (Z.of_nat j))
                     | _ => E (ctr_block (Z.to_nat bs) (iv_val bs iv) (Z.of_nat j)) end).
  assert (HS : forall j, zlen (S j) = bs).
  { intros j. assert (C : forall w, (w <= length (iv_val bs iv))%nat -> zlen (E (ctr_block w (iv_val bs iv) (Z.of_nat j))) = bs).
    { intros w Hw. destruct (ctr_block_len w (iv_val bs iv) (Z.of_nat j) Hw V2) as (C1 & C2). apply (fam_len _ _ _ _ _ HF); [unfold zlen in *; lia|exact C2]. }
    unfold S. destruct m; cbn in Hs; try contradiction.
    - apply (iter_len nb key bs E D); assumption.
    - apply C. unfold zlen in V1. lia.
    - apply C. cbn in Hm. unfold zlen in V1. lia. }
  exists (stream_of (Z.to_nat (mode_bs bs m)) S). intros d.
  destruct (make_cipher_ok fresh fresh_len nb key bs E D (Some m) None iv d HF Hm Hiv) as (o & Ho & _). exists o. split; [exact Ho|].
  intros msg Hb Hsz Hmod Hw. destruct (as_blocks fresh fresh_len (mode_bs bs m) msg Hn Hb) as (X & tail & EX & HX & _ & Ht & HXl & _).
  rewrite Hmod in Ht. assert (tail = []) by (destruct tail; [reflexivity|unfold zlen in Ht; cbn in Ht; lia]). subst tail. rewrite app_nil_r in EX.
  destruct (cipher_computes_mode fresh fresh_len nb key bs E D (Some m) iv d X HF Hm Hiv HX) as (o' & Ho' & C & _); [rewrite <- EX; exact Hsz|].
  cbn [option_map] in Ho. rewrite Ho in Ho'. injection Ho' as <-. cbn [dmode] in C. rewrite HXl in C. destruct (C Hw) as (Y & HY & R1 & R2). rewrite <- EX in R1, R2.
  assert (EY : concat Y = ks_xor (stream_of (Z.to_nat (mode_bs bs m)) S) 0 msg).
  { rewrite EX. rewrite <- (Nat.mul_0_r (Z.to_nat (mode_bs bs m))). apply stream_blocks.
    - lia.
    - assert (Hle : mode_bs bs m <= bs) by (destruct m; cbn in Hm |- *; lia). intros k. specialize (HS k). unfold zlen in HS. lia.
    - apply blocks_ok_len in HX. revert HX. apply Forall_impl. intros b. unfold zlen. lia.
    - exact (mode_spec_length _ _ _ _ _ _ _ HY).
    - assert (F1 : forall k, firstn (Z.to_nat bs) (S k) = S k).
      { intros k. specialize (HS k). unfold zlen in HS. apply firstn_all2. lia. }
      intros j Hj. cbn [Nat.add]. unfold mode_fun in HY. destruct m; cbn in Hs; try contradiction; destruct d; cbn [mode_spec] in HY;
        destruct HY as (_ & HY); specialize (HY j Hj); unfold SpecModes.blk in HY; rewrite HY; cbn [mode_bs]; try rewrite F1; reflexivity. }
  rewrite EY in R1. split; [exact R1|]. intros ops Ho1. rewrite <- EY. exact (R2 ops Ho1).
Qed.
End Modes.

(* GCTR *)
Lemma gctr_keystream E : (forall b, zlen b = 16 -> bytes_ok b -> zlen (E b) = 16) -> forall icb, zlen icb = 16 -> bytes_ok icb ->
  exists ks, forall msg, gctr E icb msg = ks_xor ks 0 msg.
Proof.
  intros HE icb H1 H2.
  set (S := fun k => E (Nat.iter k inc32 icb)).
  assert (HI : forall k, zlen (Nat.iter k inc32 icb) = 16 /\ bytes_ok (Nat.iter k inc32 icb)).
  { induction k as [|k (I1 & I2)]; [split; assumption|]. change (Nat.iter (Datatypes.S k) inc32 icb) with (inc32 (Nat.iter k inc32 icb)).
    revert I1 I2. generalize (Nat.iter k inc32 icb). intros t I1 I2. unfold inc32. split.
    - rewrite zlen_app. unfold zlen in *. rewrite firstn_length, length_to_be. lia.
    - apply bytes_ok_app. split; [apply Forall_firstn, I2|apply bytes_ok_to_be]. }
  assert (HS : forall k, (16 <= length (S k))%nat).
  { intros k. destruct (HI k) as (I1 & I2). pose proof (HE _ I1 I2). unfold S, zlen in *. lia. }
  exists (stream_of 16 S). intros msg.
  assert (G : forall f l k, (length l <= f)%nat -> concat (gctr_blocks E (Nat.iter k inc32 icb) (chunks_fuel f 16 l)) = ks_xor (stream_of 16 S) (16 * k) l).
  { induction f as [|f IH]; intros l k Hl; [destruct l; [reflexivity|cbn in Hl; lia]|].
    cbn [chunks_fuel]. destruct l as [|c l']; [reflexivity|]. set (l := c :: l') in *. cbn [gctr_blocks concat].
    change (inc32 (Nat.iter k inc32 icb)) with (Nat.iter (Datatypes.S k) inc32 icb). rewrite IH by (rewrite skipn_length; subst l; cbn [length] in *; lia).
    rewrite <- (firstn_skipn 16 l) at 4. rewrite ks_xor_app. f_equal.
    - rewrite (stream_block 16 S ltac:(lia) HS) by (rewrite firstn_length; lia). reflexivity.
    - destruct (Nat.le_gt_cases (length l) 16) as [Hs|Hs].
      + rewrite (skipn_all2 l) by exact Hs. reflexivity.
      + f_equal. rewrite firstn_length. lia. }
  exact (G (length msg) msg 0%nat (le_n _)).
Qed.

(* the input of the authenticator of ChaCha20-Poly1305 and of GHASH determines header and ciphertext *)
Lemma app_len_inj {A} (a a' b b' : list A) : length a = length a' -> a ++ b = a' ++ b' -> a = a' /\ b = b'.
Proof.
  revert a'. induction a as [|x a IH]; intros [|x' a'] Hl E; try discriminate; [auto|]. cbn in E. injection E as -> E.
  destruct (IH a' ltac:(cbn in Hl; lia) E) as (-> & ->). auto.
Qed.
Lemma app_len_inj_r {A} (a a' b b' : list A) : length b = length b' -> a ++ b = a' ++ b' -> a = a' /\ b = b'.
Proof.
  intros Hl E. apply app_len_inj; [|exact E]. apply (f_equal (@length A)) in E. rewrite !app_length in E. lia.
Qed.
Lemma pad16_encoding (f : Z -> bytes) (A C A' C' : bytes) : (forall x, length (f x) = 8%nat) -> 
  (f (zlen A) = f (zlen A') -> zlen A = zlen A') -> (f (zlen C) = f (zlen C') -> zlen C = zlen C') ->
  pad16 A ++ pad16 C ++ f (zlen A) ++ f (zlen C) = pad16 A' ++ pad16 C' ++ f (zlen A') ++ f (zlen C') -> A = A' /\ C = C'.
Proof.
  intros Hf HA HC E. rewrite !app_assoc in E. apply app_len_inj_r in E; [|rewrite !Hf; reflexivity]. destruct E as (E & EC).
  apply app_len_inj_r in E; [|rewrite !Hf; reflexivity]. destruct E as (E & EA). specialize (HA EA). specialize (HC EC).
  unfold pad16 in E. rewrite HA, HC in E.
  assert (LA : length A = length A') by (unfold zlen in HA; lia). assert (LC : length C = length C') by (unfold zlen in HC; lia).
  apply app_len_inj in E; [|rewrite !app_length, LA; reflexivity]. destruct E as (E1 & E2).
  apply app_len_inj in E1; [|exact LA]. apply app_len_inj in E2; [|exact LC]. tauto.
Qed.
Lemma to_le_inj n x y : 0 <= x < 256 ^ Z.of_nat n -> 0 <= y < 256 ^ Z.of_nat n -> to_le n x = to_le n y -> x = y.
Proof. intros Hx Hy E. apply (f_equal le) in E. rewrite !le_to_le, !Z.mod_small in E by assumption. exact E. Qed.
Lemma to_be_inj n x y : 0 <= x < 256 ^ Z.of_nat n -> 0 <= y < 256 ^ Z.of_nat n -> to_be n x = to_be n y -> x = y.
Proof. intros Hx Hy E. apply (f_equal be) in E. rewrite !be_to_be, !Z.mod_small in E by assumption. exact E. Qed.
