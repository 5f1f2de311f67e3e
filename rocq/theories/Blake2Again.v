(* Results of a BLAKE2 object called again. *)
From Verif Require Import Prelude PreludeFacts BytesNum SpecBlock BlockTotal Word WordIO SpecHash HashModel HashSpec HashFacts MdModel MdHash ShaModel Sha KeccakModel Keccak
  SpecBlake2 Blake2Model Blake2 SpecAgain SpecBlake2Again Again.

Section Blake2.
Variable w : Z.
Variable kb : nat.
Variable rounds : nat.
Variables r1 r2 r3 r4 : Z.
Variable iv : list Z.
Hypothesis w_kb : w = 8 * Z.of_nat kb.
Hypothesis kb_pos : (0 < kb)%nat.
Hypothesis r1_ok : 0 <= r1 <= w.
Hypothesis r2_ok : 0 <= r2 <= w.
Hypothesis r3_ok : 0 <= r3 <= w.
Hypothesis r4_ok : 0 <= r4 <= w.
Hypothesis rounds_le : (rounds <= 12)%nat.
Hypothesis iv_len : length iv = 8%nat.
Hypothesis iv_ok : Forall (word_ok w) iv.
Hypothesis B_small : 16 * (w / 8) < 2 ^ w.
Hypothesis w_small : 64 <= 16 * (w / 8).
Hypothesis w_cases : w = 64 \/ w = 32.
Notation P := (Blake2 w rounds r1 r2 r3 r4 iv).
Notation B := (16 * (w / 8)).

Lemma kb_nat : Z.to_nat (w / 8) = kb.
Proof. rewrite w_kb, Z.mul_comm, Z.div_mul; lia. Qed.
(* the context before a call: t bytes counted, the state h, the last block in
   the buffer *)
Definition b2_at (t : Z) (h : list Z) (tail : bytes) (c : b2_ctx) : Prop :=
  exists rest, 0 <= t /\ ok8 w h /\ b2_h c = h /\ b2_len0 c = t mod 2 ^ w /\ b2_len1 c = (t / 2 ^ w) mod 2 ^ w /\
    b2_num c = zlen tail /\ b2_buf c = tail ++ rest /\ zlen (b2_buf c) = B /\ bytes_ok tail.

Lemma final_step t h tail c n : b2_at t h tail c -> zlen tail <= B -> 0 < n <= w ->
  exists c', b2_final w rounds r1 r2 r3 r4 iv n c = (c', Ret (firstn (Z.to_nat n) (concat (map (to_le kb) (b_F P h (b_pad P tail) (t + zlen tail) true))))) /\
    b2_at (t + zlen tail) (b_F P h (b_pad P tail) (t + zlen tail) true) tail c'.
Proof.
  intros (rest & Ht & Hok & Hh & H0 & H1 & Hn & Hbuf & Hz & Hbt) Htl Hn0. pose proof (zlen_nonneg tail) as Ht0.
  assert (HB : 0 < B) by lia.
  assert (Hzr : zlen rest = B - zlen tail) by (rewrite Hbuf, zlen_app in Hz; lia).
  unfold b2_final. rewrite Hn, c_memset0_ok by lia.
  assert (Eb : splice (b2_buf c) (zlen tail) (zeros (B - zlen tail)) = b_pad P tail).
  { rewrite Hbuf, splice_app_mid by reflexivity. unfold b_pad, b_bb, b_n. cbn [b_w]. rewrite skipn_all2; [rewrite app_nil_r; reflexivity|].
    unfold zeros. rewrite repeat_length. unfold zlen in *. lia. }
  rewrite Eb, H0, H1, Hh.
  assert (Hzp : zlen (b_pad P tail) = B).
  { unfold b_pad, b_bb, b_n. cbn [b_w]. rewrite zlen_app, zlen_zeros by lia. lia. }
  assert (Hbp : bytes_ok (b_pad P tail)).
  { apply Forall_app. split; [assumption|]. apply bytes_ok_zeros. }
  destruct (compress_ok w kb rounds r1 r2 r3 r4 iv w_kb kb_pos r1_ok r2_ok r3_ok r4_ok rounds_le iv_len iv_ok h t (b_pad P tail) (zlen tail) true) as (-> & Hok'); [assumption|assumption|lia|assumption|assumption|].
  eexists. split.
  - f_equal. f_equal. rewrite kb_nat. apply store_bytes; [assumption|]. rewrite (proj1 Hok'). lia.
  - exists (zeros (B - zlen tail)). cbn [b2_h b2_len0 b2_len1 b2_num b2_buf]. repeat (split; [first [assumption|reflexivity|lia]|]). assumption.
Qed.

Lemma final_iter n tail : zlen tail <= B -> 0 < n <= w -> forall k t h c, b2_at t h tail c ->
  nth_result (c_hash b2_ctx n (b2_add_data w rounds r1 r2 r3 r4 iv) (b2_final w rounds r1 r2 r3 r4 iv n) b2_wipe) c k =
  Ret (firstn (Z.to_nat n) (concat (map (to_le kb)
    (fold_left (fun h j => b_F P h (b_pad P tail) (t + zlen tail + Z.of_nat j * zlen tail) true) (seq 0 (S k)) h)))).
Proof.
  intros Htl Hn. induction k as [|k IH]; intros t h c Hc.
  - destruct (final_step t h tail c n Hc Htl Hn) as (c' & E & _). cbn [nth_result c_hash h_result]. rewrite E. cbn [snd seq fold_left].
    replace (t + zlen tail + Z.of_nat 0 * zlen tail) with (t + zlen tail) by lia. reflexivity.
  - destruct (final_step t h tail c n Hc Htl Hn) as (c' & E & Hc'). cbn [nth_result]. cbn [c_hash h_result]. rewrite E. cbn [fst].
    refine (eq_trans (IH _ _ _ Hc') _). do 4 f_equal.
    assert (Es : seq 0 (S (S k)) = 0%nat :: map S (seq 0 (S k))) by (rewrite seq_shift; reflexivity). rewrite Es. cbn [fold_left].
    replace (t + zlen tail + Z.of_nat 0 * zlen tail) with (t + zlen tail) by lia.
    generalize (b_F P h (b_pad P tail) (t + zlen tail) true). generalize (seq 0 (S k)). clear.
    induction l as [|j l IH]; intros x; [reflexivity|]. cbn [map fold_left]. rewrite IH. do 2 f_equal. lia.
Qed.

Lemma blake2_nth fresh sz key ops k : (forall n, 0 <= n -> zlen (fresh n) = n) -> 8 <= sz <= 8 * w -> sz mod 8 = 0 -> zlen key <= w -> bytes_ok key -> Forall hop_valid ops ->
  exists o, blake2_new w rounds r1 r2 r3 r4 iv fresh sz key = Ret o /\ results_from o ops k = Ret (blake2_results P (sz / 8) key (added ops) k).
Proof.
  intros Hf Hsz Hm Hk Hb Hv.
  assert (Hi0 : exists c, b2_init w iv (sz / 8) key (fresh B) = Ret c /\ b2_inv w rounds r1 r2 r3 r4 iv (b_h0 iv (zlen key) (sz / 8)) c (b_data P key [])).
  { apply (init_ok w kb); try assumption; [apply Hf; lia|lia]. }
  destruct Hi0 as (c & E & Hi).
  exists (HObj (blake2_class w rounds r1 r2 r3 r4 iv sz) c). split.
  { unfold blake2_new. assert ((sz >=? 8) && (sz <=? 8 * w) && (sz mod 8 =? 0) && (zlen key <=? w) = true) as -> by lia. rewrite E. reflexivity. }
  unfold results_from. cbn [ho_class ho_st].
  assert (HI : himpl (fun _ => True) (blake2_class w rounds r1 r2 r3 r4 iv sz) (fun m => Ret (blake2_digest P (sz / 8) key m))
    (fun c m => b2_inv w rounds r1 r2 r3 r4 iv (b_h0 iv (zlen key) (sz / 8)) c (b_data P key m))) by (apply (blake2_himpl w kb); assumption).
  pose proof (himpl_state _ _ _ _ HI c ops Hi Hv Logic.I) as HR.
  destruct HR as (blks & tail & rest & Ed & Hbl & Hne & Htl & Hbd & Hh & Hok & H0 & H1 & Hn & Hbuf & Hz).
  assert (El : match concat blks ++ tail with [] => [[]] | _ => chunks B (concat blks ++ tail) end = blks ++ [tail]) by (apply (last_blocks w kb rounds r1 iv); assumption).
  unfold blake2_results. cbv zeta. rewrite Ed. unfold b_bb, b_n. cbn [b_w b_IV]. rewrite El, removelast_last, last_last, kb_nat, zlen_app.
  apply (final_iter (sz / 8) tail Htl ltac:(lia)). exists rest. rewrite Ed in Hbd. apply Forall_app in Hbd as (_ & Hbt).
  split; [apply zlen_nonneg|]. rewrite Hh in Hok. repeat (split; [assumption|]). assumption.
Qed.
End Blake2.

Lemma blake2b_again fresh sz key ops k : (forall n, 0 <= n -> zlen (fresh n) = n) -> 8 <= sz <= 512 -> sz mod 8 = 0 -> zlen key <= 64 -> bytes_ok key -> Forall hop_valid ops ->
  exists o, blake2b_obj fresh sz key = Ret o /\ results_from o ops k = Ret (blake2_results blake2b_params (sz / 8) key (added ops) k).
Proof.
  intros Hf Hsz Hm Hk Hb Hv. unfold blake2b_params. rewrite iv2b_ok.
  apply (blake2_nth 64 8); try assumption; try lia; try reflexivity.
  repeat (apply Forall_cons; [unfold word_ok; lia|]). constructor.
Qed.
Lemma blake2s_again fresh sz key ops k : (forall n, 0 <= n -> zlen (fresh n) = n) -> 8 <= sz <= 256 -> sz mod 8 = 0 -> zlen key <= 32 -> bytes_ok key -> Forall hop_valid ops ->
  exists o, blake2s_obj fresh sz key = Ret o /\ results_from o ops k = Ret (blake2_results blake2s_params (sz / 8) key (added ops) k).
Proof.
  intros Hf Hsz Hm Hk Hb Hv. unfold blake2s_params. rewrite iv2s_ok.
  apply (blake2_nth 32 4); try assumption; try lia; try reflexivity.
  repeat (apply Forall_cons; [unfold word_ok; lia|]). constructor.
Qed.
