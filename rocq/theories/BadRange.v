(* put_substring of block cipher transforms on ranges outside the array. *)
From Verif Require Import Prelude PreludeFacts BufOutModel BufOut SpecTransducer SpecBlock
  TransformModel BlockModel BlockCipher.

Section Bad.
Variable fresh : Z -> bytes.
Hypothesis fresh_len : forall n, 0 <= n -> zlen (fresh n) = n.
Variables (C : block_cipher) (f : blockfn) (rel : bc_st C -> bf_st f -> Prop).
Let bs := bc_blocksize C.
Hypothesis bs_range : 0 < bs < 2 ^ 50.
Hypothesis HC : bc_implements C f rel.

Lemma put_loop_bad fuel : forall s sg q src ofs len,
  cR C f rel s sg q -> bytes_ok src -> zlen src <= max_string_length ->
  is_int ofs -> is_int len -> 0 < len -> in_range src ofs len = false ->
  (0 <= ofs -> zlen q + c_used C s + (zlen src - ofs) + bs <= max_string_length) ->
  (0 <= ofs -> ofs <= zlen src -> (Z.to_nat (zlen src - ofs) + (if (c_used C s =? bs)%Z then 1 else 0) < fuel)%nat) ->
  (0 < fuel)%nat ->
  exists e, snd (put_loop fresh C fuel s src ofs len) = Raise e /\
    (e = Invalid_argument \/ e = Error Message_too_long).
Proof.
  induction fuel as [|fuel IH]; intros s [sg pend] q src ofs len HR Hb Hsrc Ho Hl Hlp Hir Hcap Hfuel Hf0; [lia|].
  pose proof HR as (Hrel & Hinv & Hq & Hqok & Hib & Hused & Hpend & Hpok). cbn [fst snd] in *.
  cbn [put_loop]. replace (len <=? 0) with false by lia. fold bs in Hib, Hused |- *.
  assert (Hraise : forall d n, in_range src ofs n = false -> blit src ofs (c_ibuf C s) d n = Raise Invalid_argument).
  { intros d n H. unfold blit. rewrite H. reflexivity. }
  destruct (wrap63 (c_used C s + len) <=? bs) eqn:Eu.
  - rewrite Hraise by exact Hir. cbn. eauto.
  - set (n := bs - c_used C s) in *.
    destruct (in_range src ofs n) eqn:Er; [|rewrite Hraise by exact Er; cbn; eauto].
    apply in_range_true in Er.
    assert (Hlong : zlen src < ofs + len).
    { destruct (Z.lt_ge_cases (zlen src) (ofs + len)) as [H|H]; [exact H|].
      assert (in_range src ofs len = true) by (apply in_range_true; lia). congruence. }
    rewrite blit_ok by (fold bs; lia). cbn [to_ibuf bind].
    set (ib := splice (c_ibuf C s) (c_used C s) (sub src ofs n)).
    assert (Hzn : zlen (sub src ofs n) = n) by (apply zlen_sub; lia).
    assert (Hibl : zlen ib = bs) by (unfold ib; rewrite zlen_splice; lia).
    assert (Hibv : ib = pend ++ sub src ofs n).
    { rewrite Hpend. rewrite <- (sub_0_all ib bs) by lia.
      replace bs with (c_used C s + n) at 1 by lia.
      rewrite sub_app_split by lia. unfold ib. rewrite sub_splice_before by lia.
      replace (0 + c_used C s) with (c_used C s) by lia.
      rewrite sub_splice_same by lia. reflexivity. }
    assert (Hibok : bytes_ok ib).
    { rewrite Hibv. apply bytes_ok_app. split; [exact Hpok|]. apply Forall_firstn, Forall_skipn, Hb. }
    destruct (process_block_ok fresh fresh_len C f rel bs_range HC (set_ibuf C s ib) sg q) as (s1 & Hp & Hblk); try assumption.
    { fold bs. lia. }
    rewrite Hp. cbn [set_ibuf c_ibuf] in *.
    destruct (snd (bf_step f sg ib)) as [blk|] eqn:Es; [|cbn; eauto].
    destruct (Hblk blk eq_refl) as (B1 & B2 & B3 & B4 & B5 & B6 & B7). fold bs in B1.
    cbn [bind]. unfold is_int in *. pose proof max_small as Hms.
    rewrite (wrap63_id (ofs + n)) by (unfold is_int; lia).
    rewrite (wrap63_id (len - n)) by (unfold is_int; lia).
    apply (IH (set_used C s1 0) (fst (bf_step f sg ib), []) (q ++ blk)); try assumption; try (unfold is_int; lia).
    + unfold cR. cbn [set_used c_c c_bo c_ibuf c_used fst snd].
      repeat split; try assumption; try apply B4; try (rewrite B6; exact Hibl); try lia; try constructor.
      apply bytes_ok_app. split; assumption.
    + destruct (in_range src (ofs + n) (len - n)) eqn:Er2; [|reflexivity].
      apply in_range_true in Er2. lia.
    + intros _. rewrite zlen_app. cbn [set_used c_used]. lia.
    + intros _ _. cbn [set_used c_used]. replace (0 =? bs) with false by lia.
      specialize (Hfuel ltac:(lia) ltac:(lia)). destruct (c_used C s =? bs) eqn:E2; lia.
    + specialize (Hfuel ltac:(lia) ltac:(lia)). destruct (c_used C s =? bs) eqn:E2; lia.
Qed.

(* put_substring with a range outside the array: an exception if len > 0, no
   effect at all if len <= 0 *)
Lemma put_substring_bad s sg q src ofs len :
  cR C f rel s sg q -> bytes_ok src -> is_int ofs -> is_int len -> in_range src ofs len = false ->
  zlen q + zlen src + 2 * bs <= max_string_length ->
  if len <=? 0 then cipher_put_substring fresh C s src ofs len = (s, Ret tt)
  else exists e, snd (cipher_put_substring fresh C s src ofs len) = Raise e /\
    (e = Invalid_argument \/ e = Error Message_too_long).
Proof.
  intros HR Hb Ho Hl Hir Hcap. destruct (len <=? 0) eqn:E.
  - unfold cipher_put_substring. cbn [put_loop]. rewrite E. reflexivity.
  - pose proof HR as (_ & _ & _ & _ & _ & Hused & _). fold bs in Hused. pose proof (zlen_nonneg q).
    unfold cipher_put_substring. apply (put_loop_bad _ s sg q); try assumption; try lia.
    + intros H0 H1. unfold zlen. destruct (c_used C s =? bs); lia.
Qed.
End Bad.
