(* ripemd160.c computes RIPEMD-160. *)
From Verif Require Import Prelude PreludeFacts BytesNum SpecBlock Word HashModel HashSpec HashFacts MdModel ShaModel RipemdModel SpecHash SpecRipemd MdHash Sha.

(* register holding variable k (A .. E = 0 .. 4) of the description before step j *)
Definition reg (j k : nat) : nat := ((k + 4 * j) mod 5)%nat.
Definition view (j : nat) (r : list Z) : Z * Z * Z * Z * Z :=
  (nth (reg j 0) r 0, nth (reg j 1) r 0, nth (reg j 2) r 0, nth (reg j 3) r 0, nth (reg j 4) r 0).
Definition instr_of (mac : nat -> macro) (idx : nat -> nat) (sh : nat -> Z) (j : nat) : instr :=
  I (mac (j / 16)%nat) (reg j 0) (reg j 1) (reg j 2) (reg j 3) (reg j 4) (idx j) (sh j).
Definition lmac (k : nat) : macro := nth k [FF; GG; HH; II; JJ] FF.
Definition rmac (k : nat) : macro := nth k [JJJ; III; HHH; GGG; FFF] FF.

Lemma rmd_left_ok : rmd_left = map (instr_of lmac rmd_r (fun j => rmd_shift j (rmd_r j))) (seq 0 80).
Proof. vm_compute. reflexivity. Qed.
Lemma rmd_right_ok : rmd_right = map (instr_of rmac rmd_r' (fun j => rmd_shift j (rmd_r' j))) (seq 0 80).
Proof. vm_compute. reflexivity. Qed.

Lemma reg_mod j k : reg j k = reg (j mod 5) k.
Proof. unfold reg. rewrite (Nat.div_mod j 5) at 1 by lia. replace (k + 4 * (5 * (j / 5) + j mod 5))%nat with (k + 4 * (j mod 5) + (4 * (j / 5)) * 5)%nat by lia. apply Nat.mod_add. lia. Qed.
Lemma regS_mod j k : reg (S j) k = reg (S (j mod 5)) k.
Proof. unfold reg. rewrite (Nat.div_mod j 5) at 1 by lia. replace (k + 4 * S (5 * (j / 5) + j mod 5))%nat with (k + 4 * S (j mod 5) + (4 * (j / 5)) * 5)%nat by lia. apply Nat.mod_add. lia. Qed.

Lemma macro_fun_ok m k x y z : (m = lmac k \/ m = rmac (4 - k)) -> (k < 5)%nat -> macro_fun m x y z = rmd_f k x y z.
Proof. intros Hm Hk. do 5 (destruct k as [|k]; [destruct Hm as [-> | ->]; reflexivity|]). lia. Qed.
Lemma word_f k x y z : word_ok 32 x -> word_ok 32 y -> word_ok 32 z -> word_ok 32 (rmd_f k x y z).
Proof.
  intros Hx Hy Hz. assert (H : forall a, word_ok 32 a -> word_ok 32 (notw a)) by (apply (word_ok_not 32)).
  assert (0 <= 32) by lia.
  do 4 (destruct k as [|k]; [cbn [rmd_f]; auto using word_ok_lxor, word_ok_lor, word_ok_land|]). cbn [rmd_f]. auto using word_ok_lxor, word_ok_lor.
Qed.

(* one line of C is one step of the description *)
Lemma exec_step data r j m idx s f : length r = 5%nat -> Forall (word_ok 32) r -> 0 <= s <= 32 ->
  (forall x y z, macro_fun m x y z = f x y z) ->
  let r' := exec data r (I m (reg j 0) (reg j 1) (reg j 2) (reg j 3) (reg j 4) idx s) in
  view (S j) r' = rmd_step f (nth idx data 0) (macro_const m) s (view j r) /\ length r' = 5%nat /\ Forall (word_ok 32) r'.
Proof.
  intros Hl Hr Hs Hf. cbn zeta. unfold view. rewrite !(regS_mod j), !(reg_mod j).
  destruct r as [|a [|b [|c [|d [|e [|]]]]]]; try discriminate Hl.
  repeat match goal with H : Forall _ (_ :: _) |- _ => apply Forall_cons_iff in H as (? & H) end. clear Hr Hl.
  assert (Hj : (j mod 5 < 5)%nat) by (apply Nat.mod_upper_bound; lia).
  assert (Hrot : forall x, word_ok 32 x -> c_rol 32 x 10 = rotl 32 10 x) by (intros; apply c_rol_rotl; [assumption|lia]).
  assert (Hstep : forall x1 x2 x3 x4, c_add 32 (c_rol 32 (c_add 32 x1 (c_add 32 (c_add 32 x2 x3) (macro_const m))) s) x4 =
    (rotl 32 s ((x1 + x2 + x3 + macro_const m) mod 2 ^ 32) + x4) mod 2 ^ 32).
  { intros. rewrite c_rol_rotl by (try apply word_ok_add; lia). unfold c_add at 1. rewrite !c_add_add, !c_add_add_r. unfold c_add.
    do 3 f_equal. apply (f_equal (fun t => t mod 2 ^ 32)). lia. }
  assert (H32 : 0 <= 32) by lia. assert (H10 : 0 <= 10 <= 32) by lia.
  generalize dependent (j mod 5)%nat. intros n Hn.
  do 5 (destruct n as [|n]; [
    cbv [reg Nat.modulo Nat.divmod Nat.add Nat.mul Nat.sub fst snd];
    cbv [exec nth set_reg firstn skipn app]; rewrite Hf, Hstep, Hrot by (try apply word_ok_mod; assumption);
    split; [reflexivity|split; [reflexivity|]];
    repeat first [apply Forall_nil | apply Forall_cons]; try assumption; try (apply word_ok_mod; lia); apply word_ok_rotl; assumption|]).
  lia.
Qed.

Lemma lines_ok data (mac : nat -> macro) idx sh (f : nat -> Z -> Z -> Z -> Z) n : forall j r,
  length r = 5%nat -> Forall (word_ok 32) r ->
  (forall i, (j <= i < j + n)%nat -> 0 <= sh i <= 32) ->
  (forall i, (j <= i < j + n)%nat -> forall x y z, macro_fun (mac (i / 16)%nat) x y z = f i x y z) ->
  let r' := fold_left (exec data) (map (instr_of mac idx sh) (seq j n)) r in
  view (j + n) r' = fold_left (fun v i => rmd_step (f i) (nth (idx i) data 0) (macro_const (mac (i / 16)%nat)) (sh i) v) (seq j n) (view j r) /\
  length r' = 5%nat /\ Forall (word_ok 32) r'.
Proof.
  induction n as [|n IH]; intros j r Hl Hr Hs Hf; cbn zeta; [cbn; rewrite Nat.add_0_r; auto|].
  cbn [seq map fold_left]. destruct (exec_step data r j (mac (j / 16)%nat) (idx j) (sh j) (f j) Hl Hr) as (E & Hl' & Hr'); [apply Hs; lia|apply Hf; lia|].
  unfold instr_of at 3. unfold instr_of at 1. rewrite <- E. replace (j + S n)%nat with (S j + n)%nat by lia.
  destruct (IH (S j) _ Hl' Hr') as (E' & H); [intros; apply Hs; lia|intros; apply Hf; lia|].
  split; [exact E'|exact H].
Qed.

Definition ltb_all (p : nat -> bool) := forallb p (seq 0 80).
Lemma seq80 (p : nat -> bool) : ltb_all p = true -> forall i, (0 <= i < 0 + 80)%nat -> p i = true.
Proof. intros H i Hi. unfold ltb_all in H. rewrite forallb_forall in H. apply H, in_seq. exact Hi. Qed.
Lemma K_left k : (k < 5)%nat -> macro_const (lmac k) = rmd_K k.
Proof. intros. do 5 (destruct k as [|k]; [vm_compute; reflexivity|]). lia. Qed.
Lemma K_right k : (k < 5)%nat -> macro_const (rmac k) = rmd_K' k.
Proof. intros. do 5 (destruct k as [|k]; [vm_compute; reflexivity|]). lia. Qed.

Lemma div16_lt i : (0 <= i < 0 + 80)%nat -> (i / 16 < 5)%nat.
Proof. intros. apply Nat.div_lt_upper_bound; lia. Qed.

Lemma fold_seq_ext {T} (f g : T -> nat -> T) n : forall j s, (forall s i, (j <= i < j + n)%nat -> f s i = g s i) -> fold_left f (seq j n) s = fold_left g (seq j n) s.
Proof. induction n as [|n IH]; intros j s H; [reflexivity|]. cbn. rewrite H by lia. apply IH. intros. apply H. lia. Qed.

Lemma rmd_compress_ok st b : ok5 st -> zlen b = 64 -> bytes_ok b ->
  rmd_compress st b = rmd160_compress st b /\ ok5 (rmd160_compress st b).
Proof.
  intros (Hl & Hst) Hb Hok.
  assert (HE : rmd_compress st b = rmd160_compress st b).
  { unfold rmd_compress, rmd160_compress. change (load_words 4 b) with (le_words 4 b). set (X := le_words 4 b). clearbody X.
    cbv zeta. replace (firstn 5 st) with st by (symmetry; apply firstn_all2; lia). rewrite rmd_left_ok, rmd_right_ok.
    destruct (lines_ok X lmac rmd_r (fun j => rmd_shift j (rmd_r j)) (fun i => rmd_f (i / 16)%nat) 80 0 st Hl Hst) as (EL & HLl & _).
    { intros i Hi. assert (E := seq80 (fun j => (0 <=? rmd_shift j (rmd_r j)) && (rmd_shift j (rmd_r j) <=? 32)) ltac:(vm_compute; reflexivity) i Hi). lia. }
    { intros i Hi x y z. apply macro_fun_ok; [left; reflexivity|apply div16_lt; exact Hi]. }
    destruct (lines_ok X rmac rmd_r' (fun j => rmd_shift j (rmd_r' j)) (fun i => rmd_f (4 - i / 16)%nat) 80 0 st Hl Hst) as (ER & HRl & _).
    { intros i Hi. assert (E := seq80 (fun j => (0 <=? rmd_shift j (rmd_r' j)) && (rmd_shift j (rmd_r' j) <=? 32)) ltac:(vm_compute; reflexivity) i Hi). lia. }
    { intros i Hi x y z. pose proof (div16_lt i Hi). apply macro_fun_ok; [right; f_equal; lia|lia]. }
    match type of EL with view _ ?l = _ => set (L := l) in * end. clearbody L.
    match type of ER with view _ ?l = _ => set (R := l) in * end. clearbody R.
    set (v := (nth 0 st 0, nth 1 st 0, nth 2 st 0, nth 3 st 0, nth 4 st 0)).
    assert (EL2 : rmd_left_line X v = view (0 + 80) L).
    { rewrite EL. apply fold_seq_ext. intros s i Hi. rewrite K_left by (apply div16_lt; exact Hi). reflexivity. }
    assert (ER2 : rmd_right_line X v = view (0 + 80) R).
    { rewrite ER. apply fold_seq_ext. intros s i Hi. rewrite K_right by (apply div16_lt; exact Hi). reflexivity. }
    rewrite EL2, ER2. change (view (0 + 80)) with (view 0). unfold view, reg. cbn [Nat.modulo Nat.divmod Nat.add Nat.mul Nat.sub fst snd].
    rewrite !c_add_add, ?c_add_add_r. unfold c_add.
    assert (F5 : forall a b c d e a' b' c' d' e' : Z, a = a' -> b = b' -> c = c' -> d = d' -> e = e' -> [a; b; c; d; e] = [a'; b'; c'; d'; e']) by (intros; subst; reflexivity).
    apply F5; apply (f_equal (fun t => t mod 2 ^ 32)); lia. }
  split; [exact HE|]. unfold rmd160_compress.
  destruct (rmd_left_line _ _) as [[[[A B] C] D] E]. destruct (rmd_right_line _ _) as [[[[A' B'] C'] D'] E'].
  split; [reflexivity|]. repeat first [apply Forall_nil | apply Forall_cons]; apply word_ok_mod; lia.
Qed.

Lemma to_le_app a b : forall x, to_le (a + b) x = to_le a x ++ to_le b (x / 256 ^ Z.of_nat a).
Proof.
  induction a as [|a IH]; intros x; [cbn [Nat.add to_le app]; rewrite Z.div_1_r; reflexivity|].
  cbn [Nat.add to_le app]. rewrite IH, Z.div_div by (try lia; apply Z.pow_pos_nonneg; lia).
  rewrite Nat2Z.inj_succ, Z.pow_succ_r by lia. reflexivity.
Qed.
Lemma enc_length_le_ok hi lo : word_ok 32 hi -> word_ok 32 lo -> enc_length_le 4 hi lo = to_le 8 (hi * 2 ^ 32 + lo).
Proof.
  intros Hhi Hlo. unfold enc_length_le, store_words. cbn [map concat]. rewrite app_nil_r.
  change (Z.to_nat 4) with 4%nat. change 8%nat with (4 + 4)%nat. 
  rewrite to_le_app. change (256 ^ Z.of_nat 4) with (2 ^ 32). rewrite Z.div_add_l, (Z.div_small lo), Z.add_0_r by (try lia; apply Hlo).
  f_equal. rewrite <- (to_le_mod 4 (hi * 2 ^ 32 + lo)). change (256 ^ Z.of_nat 4) with (2 ^ 32).
  rewrite Z.add_comm, Z_mod_plus_full. rewrite Z.mod_small by apply Hlo. reflexivity.
Qed.
Lemma enc_le_mod x : to_le 8 (x mod (2 ^ 32 * 2 ^ 32)) = to_le 8 x.
Proof. rewrite <- (to_le_mod 8 x). reflexivity. Qed.

Definition rmd_R := md_inv 64 32 rmd160_compress ok5 rmd_iv.
Lemma rmd_himpl : himpl (fun _ => True) ripemd160_class (fun m => Ret (ripemd160 m)) rmd_R.
Proof.
  assert (I : himpl (fun _ => True) ripemd160_class
     (fun m => Ret (store_words 4 (firstn 5 (md_digest 64 (2 * (32 / 8)) to_le rmd_iv rmd160_compress m)))) rmd_R).
  { apply (md_himpl 64 32 rmd_compress rmd160_compress ok5 (enc_length_le 4) to_le) with (iv := rmd_iv) (size := 32) (output := fun st => store_words 4 (firstn 5 st)); try lia.
    - exact rmd_compress_ok.
    - intros. apply enc_length_le_ok; assumption.
    - exact enc_le_mod.
    - intros x. rewrite zlen_to_le. reflexivity.
    - intros x. apply bytes_ok_to_le. }
  refine (himpl_ext _ _ _ _ _ I _). intros s m HR _. apply md_inv_bytes in HR.
  assert (H5 : ok5 (md_digest 64 (2 * (32 / 8)) to_le rmd_iv rmd160_compress m)).
  { apply (md_digest_ok 64 32 rmd_compress rmd160_compress ok5 (enc_length_le 4) to_le); try lia.
    - exact rmd_compress_ok.
    - intros. apply enc_length_le_ok; assumption.
    - exact enc_le_mod.
    - intros x. rewrite zlen_to_le. reflexivity.
    - intros x. apply bytes_ok_to_le.
    - exact ok5_iv.
    - assumption.
    - intros k Hk. exists (zeros k). apply zlen_zeros. assumption. }
  rewrite firstn_all2 by (rewrite (proj1 H5); lia). reflexivity.
Qed.
Lemma rmd_init fresh : (forall n, 0 <= n -> zlen (fresh n) = n) -> rmd_R (md_init rmd_iv (fresh 64)) [].
Proof. intros H. apply md_init_inv; try lia; [exact ok5_iv|apply H; lia]. Qed.
Lemma ripemd160_computes fresh : (forall n, 0 <= n -> zlen (fresh n) = n) -> computes (ripemd160_obj fresh) ripemd160.
Proof. intros H. eapply himpl_computes; [exact rmd_himpl|]. apply rmd_init, H. Qed.
