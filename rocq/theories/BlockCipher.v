(* The transform classes of Block implement the block transducer. *)
From Verif Require Import Prelude PreludeFacts BufOutModel BufOut SpecTransducer SpecBlock
  TransformModel Transform BlockModel.
Ltac Zify.zify_post_hook ::= Z.div_mod_to_equations.

(* A block_cipher object behaves as the block function f on valid ranges. *)
Definition bc_implements (C : block_cipher) (f : blockfn) (rel : bc_st C -> bf_st f -> Prop) : Prop :=
  forall s sg src so dst d,
    rel s sg -> in_range src so (bc_blocksize C) = true ->
    in_range dst d (bc_blocksize C) = true ->
    bytes_ok (sub src so (bc_blocksize C)) ->
    let r := bf_step f sg (sub src so (bc_blocksize C)) in
    exists s' dst',
      bc_transform C s src so dst d =
        ((s', dst'), match snd r with Some _ => Ret tt | None => Raise (Error Message_too_long) end) /\
      rel s' (fst r) /\ zlen dst' = zlen dst /\
      (forall blk, snd r = Some blk ->
         dst' = splice dst d blk /\ zlen blk = bc_blocksize C /\ bytes_ok blk).

(* ---- transducer facts ---- *)
Section Mealy.
Variables (bs : Z) (f : blockfn).
Hypothesis bs_pos : 0 < bs.
Variable fin : bf_st f * bytes -> (bf_st f * bytes) * bytes * option exn.
Let M := block_mealy bs f fin.

Lemma bm_run_acc l : forall sg pend, zlen pend + zlen l <= bs ->
  m_run M (sg, pend) l = ((sg, pend ++ l), [], None).
Proof.
  induction l as [|c l IH]; intros sg pend H; cbn [m_run].
  - rewrite app_nil_r. reflexivity.
  - rewrite zlen_cons in H. pose proof (zlen_nonneg l).
    cbn [M block_mealy m_byte]. unfold block_byte.
    replace (zlen pend =? bs) with false by lia.
    change {| m_st := _; m_byte := _; m_flush := _; m_finish := _ |} with M.
    rewrite IH by (rewrite zlen_app, zlen_cons, zlen_nil; lia).
    rewrite <- app_assoc. reflexivity.
Qed.

Lemma bm_run_full c l sg pend : zlen pend = bs ->
  m_run M (sg, pend) (c :: l) =
  match bf_step f sg pend with
  | (sg', Some o) => let '(s2, o2, e2) := m_run M (sg', []) (c :: l) in (s2, o ++ o2, e2)
  | (sg', None) => ((sg', pend), [], Some (Error Message_too_long))
  end.
Proof.
  intros H. cbn [m_run]. cbn [M block_mealy m_byte]. unfold block_byte at 1.
  replace (zlen pend =? bs) with true by lia. unfold emit_block.
  destruct (bf_step f sg pend) as [sg' [o|]]; [|reflexivity].
  unfold block_byte at 1. rewrite zlen_nil. replace (0 =? bs) with false by lia.
  cbn [app]. change {| m_st := _; m_byte := _; m_flush := _; m_finish := _ |} with M.
  destruct (m_run M (sg', [c]) l) as [[s2 o2] e2]. reflexivity.
Qed.

End Mealy.

Section BlockCipher.
Variable fresh : Z -> bytes.
Hypothesis fresh_len : forall n, 0 <= n -> zlen (fresh n) = n.
Variables (C : block_cipher) (f : blockfn) (rel : bc_st C -> bf_st f -> Prop).
Let bs := bc_blocksize C.
Hypothesis bs_range : 0 < bs < 2 ^ 50.
Hypothesis HC : bc_implements C f rel.

Definition cR (s : cs C) (sg : bf_st f * bytes) (q : bytes) : Prop :=
  rel (c_c C s) (fst sg) /\ bo_inv (c_bo C s) /\ bo_contents (c_bo C s) = q /\ bytes_ok q /\
  zlen (c_ibuf C s) = bs /\ 0 <= c_used C s <= bs /\
  snd sg = sub (c_ibuf C s) 0 (c_used C s) /\ bytes_ok (snd sg).

Lemma cipher_new_R c0 sg : rel c0 sg -> cR (cipher_new fresh C c0) (sg, []) [].
Proof.
  intros H. unfold cR, cipher_new. cbn [c_c c_bo c_ibuf c_used fst snd].
  unfold max_string_length in *.
  repeat split; try assumption; try constructor; try lia.
  - apply bo_new_inv; [exact fresh_len|]. unfold max_string_length. lia.
  - apply bo_new_inv; [exact fresh_len|]. unfold max_string_length. lia.
  - apply bo_new_inv; [exact fresh_len|]. unfold max_string_length. lia.
  - apply bo_new_inv; [exact fresh_len|]. unfold max_string_length. lia.
  - apply bo_new_inv; [exact fresh_len|]. unfold max_string_length. lia.
  - apply fresh_len; unfold bs in *; lia.
Qed.

(* [process_block] on a full ibuf *)
Lemma process_block_ok s sg q :
  rel (c_c C s) sg -> bo_inv (c_bo C s) -> bo_contents (c_bo C s) = q -> bytes_ok q ->
  zlen (c_ibuf C s) = bs -> bytes_ok (c_ibuf C s) ->
  zlen q + bs <= max_string_length ->
  exists s', process_block fresh C s =
     (s', match snd (bf_step f sg (c_ibuf C s)) with
          | Some _ => Ret tt | None => Raise (Error Message_too_long) end) /\
   (forall blk, snd (bf_step f sg (c_ibuf C s)) = Some blk ->
     zlen blk = bs /\ bytes_ok blk /\
     rel (c_c C s') (fst (bf_step f sg (c_ibuf C s))) /\ bo_inv (c_bo C s') /\
     bo_contents (c_bo C s') = q ++ blk /\ c_ibuf C s' = c_ibuf C s /\ c_used C s' = c_used C s).
Proof.
  intros Hrel Hinv Hq Hqok Hib Hibok Hfit. unfold process_block.
  destruct (ensure_capacity_ok fresh fresh_len (c_bo C s) bs Hinv) as (b' & He & Hinv' & Hc' & Hroom);
    [lia | rewrite Hq; lia |].
  fold bs. rewrite He. unfold lift. cbn [fst snd bind set_bo c_c c_ibuf c_bo c_used].
  pose proof (HC (c_c C s) sg (c_ibuf C s) 0 (obuf b') (oend b') Hrel) as H.
  fold bs in H.
  assert (Hs : sub (c_ibuf C s) 0 bs = c_ibuf C s) by (apply sub_0_all; lia).
  rewrite Hs in H. pose proof Hinv' as (Hi1 & Hi2 & Hi3).
  specialize (H ltac:(apply in_range_true; lia) ltac:(apply in_range_true; lia) Hibok).
  cbn zeta in H. destruct H as (c' & dst' & Ht & Hrel' & Hlen & Hblk).
  rewrite Ht. cbn [fst snd].
  destruct (snd (bf_step f sg (c_ibuf C s))) as [blk|] eqn:Eb; cbn [bind].
  - eexists; split; [reflexivity|]. intros blk' Hb'. injection Hb' as <-.
    destruct (Hblk blk eq_refl) as (Hd & Hlb & Hbok).
    cbn [c_c c_bo set_bo c_ibuf c_used obuf obeg oend].
    destruct (bo_append b' blk dst' Hinv') as (Ha1 & Ha2).
    { unfold bs in *; lia. } { exact Hd. }
    fold bs in Hlb. rewrite Hlb in Ha1, Ha2.
    split; [exact Hlb|]. split; [exact Hbok|]. split; [exact Hrel'|]. split; [exact Ha1|].
    split; [rewrite Ha2, Hc', Hq; reflexivity|]. split; reflexivity.
  - eexists; split; [reflexivity|]. discriminate.
Qed.

(* ---- transducer facts ---- *)
Section Fin.
Variable fin : bf_st f * bytes -> (bf_st f * bytes) * bytes * option exn.
Let M := block_mealy bs f fin.

Lemma run_acc l sg pend : zlen pend + zlen l <= bs ->
  m_run M (sg, pend) l = ((sg, pend ++ l), [], None).
Proof. apply bm_run_acc. Qed.
Lemma run_full c l sg pend : zlen pend = bs ->
  m_run M (sg, pend) (c :: l) =
  match bf_step f sg pend with
  | (sg', Some o) => let '(s2, o2, e2) := m_run M (sg', []) (c :: l) in (s2, o ++ o2, e2)
  | (sg', None) => ((sg', pend), [], Some (Error Message_too_long))
  end.
Proof. apply bm_run_full. apply bs_range. Qed.

Definition cfits : fits M := std_fits M bs.

Lemma put_loop_ok fuel : forall s sg q src ofs len,
  cR s sg q -> in_range src ofs len = true -> bytes_ok (sub src ofs len) ->
  zlen src <= max_string_length ->
  (Z.to_nat len + (if (c_used C s =? bs)%Z then 2 else 1) < fuel)%nat ->
  f_put cfits sg (sub src ofs len) q ->
  matches true cR q (m_run M sg (sub src ofs len)) (put_loop fresh C fuel s src ofs len).
Proof.
  induction fuel as [|fuel IH]; intros s [sg pend] q src ofs len HR Hir Hb Hsrc Hfuel Hf; [lia|].
  pose proof HR as (Hrel & Hinv & Hq & Hqok & Hib & Hused & Hpend & Hpok). cbn [fst snd] in *.
  apply in_range_true in Hir. cbn [put_loop]. pose proof max_small as Hms.
  destruct (len <=? 0) eqn:El.
  { replace len with 0 by lia. rewrite sub_0_len. cbn [m_run].
    unfold matches, r_exn, r_st, r_out. cbn [fst snd]. rewrite app_nil_r. split; [reflexivity|exact HR]. }
  fold bs. rewrite wrap63_id by (unfold is_int; lia).
  assert (Hlp : zlen pend = c_used C s) by (rewrite Hpend; apply zlen_sub; lia).
  destruct (c_used C s + len <=? bs) eqn:Eu.
  - rewrite blit_ok by lia. cbn [to_ibuf bind].
    rewrite run_acc by (rewrite zlen_sub; lia).
    unfold matches, r_exn, r_st, r_out. cbn [fst snd]. split; [reflexivity|].
    rewrite app_nil_r. unfold cR. cbn [set_used set_ibuf c_c c_bo c_ibuf c_used fst snd].
    assert (Hz : zlen (sub src ofs len) = len) by (apply zlen_sub; lia).
    split; [exact Hrel|]. split; [exact Hinv|]. split; [exact Hq|]. split; [exact Hqok|].
    split; [rewrite zlen_splice; lia|]. split; [lia|]. split.
    + rewrite sub_app_split by lia. rewrite sub_splice_before by lia.
      replace (0 + c_used C s) with (c_used C s) by lia.
      rewrite sub_splice_same by lia. rewrite Hpend. reflexivity.
    + apply bytes_ok_app; split; assumption.
  - set (n := bs - c_used C s) in *.
    rewrite blit_ok by lia. cbn [to_ibuf bind].
    set (ib := splice (c_ibuf C s) (c_used C s) (sub src ofs n)).
    assert (Hzn : zlen (sub src ofs n) = n) by (apply zlen_sub; lia).
    assert (Hibl : zlen ib = bs) by (unfold ib; rewrite zlen_splice; lia).
    assert (Hsplit : sub src ofs len = sub src ofs n ++ sub src (ofs + n) (len - n)).
    { rewrite <- sub_app_split by lia. f_equal; lia. }
    assert (Hibv : ib = pend ++ sub src ofs n).
    { rewrite Hpend. rewrite <- (sub_0_all ib bs) by lia.
      replace bs with (c_used C s + n) at 1 by lia.
      rewrite sub_app_split by lia. unfold ib. rewrite sub_splice_before by lia.
      replace (0 + c_used C s) with (c_used C s) by lia.
      rewrite sub_splice_same by lia. reflexivity. }
    rewrite Hsplit in Hb. apply bytes_ok_app in Hb. destruct Hb as (Hb1 & Hb2).
    assert (Hibok : bytes_ok ib) by (rewrite Hibv; apply bytes_ok_app; split; assumption).
    destruct (sub src (ofs + n) (len - n)) as [|c rest] eqn:Erest.
    { exfalso. assert (zlen (sub src (ofs + n) (len - n)) = len - n) by (apply zlen_sub; lia).
      rewrite Erest, zlen_nil in H. lia. }
    (* unfold the transducer up to the full block *)
    assert (Erun : m_run M (sg, pend) (sub src ofs len) =
      match bf_step f sg ib with
      | (sg', Some o) => let '(s2, o2, e2) := m_run M (sg', []) (c :: rest) in (s2, o ++ o2, e2)
      | (sg', None) => ((sg', ib), [], Some (Error Message_too_long))
      end).
    { rewrite Hsplit, m_run_app, run_acc by lia. unfold m_then. rewrite <- Hibv.
      rewrite run_full by exact Hibl.
      destruct (bf_step f sg ib) as [sg' [o|]]; [|reflexivity].
      destruct (m_run M (sg', []) (c :: rest)) as [[a b] e]. reflexivity. }
    unfold f_put in Hf. cbn [cfits std_fits] in Hf. rewrite Erun in Hf |- *.
    destruct (process_block_ok (set_ibuf C s ib) sg q) as (s1 & Hp & Hblk); try assumption.
    { cbn [set_ibuf c_ibuf] in *. unfold r_out in Hf. 
      pose proof (zlen_nonneg (snd (fst (match bf_step f sg ib with
      | (sg', Some o) => let '(s2, o2, e2) := m_run M (sg', []) (c :: rest) in (s2, o ++ o2, e2)
      | (sg', None) => ((sg', ib), [], Some (Error Message_too_long))
      end)))). lia. }
    rewrite Hp. cbn [set_ibuf c_ibuf] in *.
    destruct (bf_step f sg ib) as [sg' [o|]]; cbn [fst snd] in *.
    2:{ unfold matches, r_exn. cbn [fst snd bind]. eauto. }
    destruct (Hblk o eq_refl) as (Hlo & Hook & Hrel1 & Hinv1 & Hq1 & Hib1 & Hu1).
    cbn [bind]. rewrite !wrap63_id by (unfold is_int; lia).
    assert (HR1 : cR (set_used C s1 0) (sg', []) (q ++ o)).
    { unfold cR. cbn [set_used c_c c_bo c_ibuf c_used fst snd].
      repeat split; try assumption; try lia; try constructor; try (apply Hinv1).
      - apply bytes_ok_app; split; assumption.
      - rewrite Hib1. exact Hibl. }
    assert (Hfuel1 : (Z.to_nat (len - n) + (if (c_used C (set_used C s1 0) =? bs)%Z then 2 else 1) < fuel)%nat).
    { cbn [set_used c_used]. replace (0 =? bs) with false by lia. unfold n in *.
      destruct (c_used C s =? bs) eqn:E; lia. }
    specialize (IH (set_used C s1 0) (sg', []) (q ++ o) src (ofs + n) (len - n) HR1).
    rewrite Erest in IH.
    specialize (IH ltac:(apply in_range_true; lia) Hb2 Hsrc Hfuel1).
    unfold f_put in IH. cbn [cfits std_fits] in IH.
    destruct (m_run M (sg', []) (c :: rest)) as [[sg2 o2] e2].
    unfold r_out in Hf, IH. cbn [fst snd] in Hf, IH. rewrite zlen_app in Hf, IH.
    specialize (IH ltac:(lia)). unfold matches, r_exn, r_st, r_out in IH |- *. cbn [fst snd] in IH |- *.
    destruct e2; [exact IH|]. rewrite app_assoc. exact IH.
Qed.

Lemma cipher_put_substring_ok s sg q src ofs len :
  cR s sg q -> in_range src ofs len = true -> bytes_ok (sub src ofs len) ->
  zlen src <= max_string_length -> f_put cfits sg (sub src ofs len) q ->
  matches true cR q (m_run M sg (sub src ofs len)) (cipher_put_substring fresh C s src ofs len).
Proof.
  intros HR Hir Hb Hs Hf. unfold cipher_put_substring. apply put_loop_ok; try assumption.
  apply in_range_true in Hir. unfold zlen in *. destruct (c_used C s =? bs); lia.
Qed.

Lemma cipher_put_char_ok s sg q c :
  cR s sg q -> byte_ok c -> f_put cfits sg [c] q ->
  matches true cR q (m_run M sg [c]) (cipher_put_char fresh C s c).
Proof.
  destruct sg as [sg pend]. intros HR Hc Hf.
  pose proof HR as (Hrel & Hinv & Hq & Hqok & Hib & Hused & Hpend & Hpok). cbn [fst snd] in *.
  assert (Hlp : zlen pend = c_used C s) by (rewrite Hpend; apply zlen_sub; lia).
  unfold cipher_put_char. fold bs.
  destruct (c_used C s <? bs) eqn:Eu.
  - rewrite bytes_set_ok by lia. cbn [to_ibuf bind].
    rewrite run_acc by (rewrite zlen_one; lia).
    unfold matches, r_exn, r_st, r_out. cbn [fst snd]. split; [reflexivity|].
    rewrite app_nil_r. unfold cR. cbn [set_used set_ibuf c_c c_bo c_ibuf c_used fst snd].
    split; [exact Hrel|]. split; [exact Hinv|]. split; [exact Hq|]. split; [exact Hqok|].
    split; [rewrite zlen_splice; rewrite ?zlen_one; lia|]. split; [lia|]. split.
    + rewrite splice_1 by lia. rewrite Hpend. reflexivity.
    + apply bytes_ok_app; split; [assumption|]. constructor; [assumption|constructor].
  - assert (Eibuf : pend = c_ibuf C s) by (rewrite Hpend; apply sub_0_all; lia).
    unfold f_put in Hf. cbn [cfits std_fits] in Hf.
    rewrite run_full in Hf |- * by lia. rewrite Eibuf in Hf, Hpok |- *.
    destruct (process_block_ok s sg q) as (s1 & Hp & Hblk); try assumption.
    { unfold r_out in Hf. 
      match type of Hf with context [zlen (snd (fst ?x))] => pose proof (zlen_nonneg (snd (fst x))) end. lia. }
    rewrite Hp.
    destruct (bf_step f sg (c_ibuf C s)) as [sg' [o|]]; cbn [fst snd] in *.
    2:{ unfold matches, r_exn. cbn [fst snd bind]. eauto. }
    destruct (Hblk o eq_refl) as (Hlo & Hook & Hrel1 & Hinv1 & Hq1 & Hib1 & Hu1).
    cbn [bind]. rewrite Hib1, bytes_set_ok by lia. cbn [to_ibuf bind].
    rewrite run_acc by (unfold zlen; cbn [length]; lia).
    unfold matches, r_exn, r_st, r_out. cbn [fst snd app]. split; [reflexivity|].
    rewrite app_nil_r. unfold cR. cbn [set_used set_ibuf c_c c_bo c_ibuf c_used fst snd].
    split; [exact Hrel1|]. split; [exact Hinv1|]. split; [exact Hq1|].
    split; [apply bytes_ok_app; split; assumption|].
    split; [rewrite zlen_splice; rewrite ?zlen_one; lia|]. split; [lia|]. split.
    + change 1 with (0 + 1). rewrite splice_1 by lia. reflexivity.
    + constructor; [assumption|constructor].
Qed.

Lemma cipher_flush_ok s sg q :
  cR s sg q -> zlen q + zlen (r_out (block_flush bs f sg)) + bs <= max_string_length ->
  matches true cR q (block_flush bs f sg) (cipher_flush fresh C s).
Proof.
  destruct sg as [sg pend]. intros HR Hf.
  pose proof HR as (Hrel & Hinv & Hq & Hqok & Hib & Hused & Hpend & Hpok). cbn [fst snd] in *.
  assert (Hlp : zlen pend = c_used C s) by (rewrite Hpend; apply zlen_sub; lia).
  unfold cipher_flush, block_flush in *. fold bs. rewrite Hlp in *.
  destruct (c_used C s =? 0) eqn:E0.
  { unfold matches, r_exn, r_st, r_out. cbn [fst snd]. rewrite app_nil_r. split; [reflexivity|exact HR]. }
  destruct (c_used C s =? bs) eqn:E1.
  2:{ unfold matches, r_exn. cbn [snd]. eauto. }
  assert (Eibuf : pend = c_ibuf C s) by (rewrite Hpend; apply sub_0_all; lia).
  rewrite Eibuf in *. unfold emit_block in *.
  destruct (process_block_ok s sg q) as (s1 & Hp & Hblk); try assumption.
  { unfold r_out in Hf.
    match type of Hf with context [zlen (snd (fst ?x))] => pose proof (zlen_nonneg (snd (fst x))) end. lia. }
  rewrite Hp.
  destruct (bf_step f sg (c_ibuf C s)) as [sg' [o|]]; cbn [fst snd] in *.
  2:{ unfold matches, r_exn. cbn [fst snd bind]. eauto. }
  destruct (Hblk o eq_refl) as (Hlo & Hook & Hrel1 & Hinv1 & Hq1 & Hib1 & Hu1).
  cbn [bind]. unfold matches, r_exn, r_st, r_out. cbn [fst snd]. split; [reflexivity|].
  unfold cR. cbn [set_used c_c c_bo c_ibuf c_used fst snd].
  repeat split; try assumption; try lia; try constructor; try (apply Hinv1).
  - apply bytes_ok_app; split; assumption.
  - rewrite Hib1; assumption.
Qed.

(* everything but the finish method *)
Lemma cipher_implements_gen tfin :
  (forall s sg q, cR s sg q ->
     zlen q + zlen (r_out (fin sg)) + bs <= max_string_length ->
     matches true cR q (fin sg) (tfin s)) ->
  implements true (cipher_with_finish fresh C tfin) M cfits cR.
Proof.
  intros Hfin. constructor; cbn [cipher_with_finish t_st t_put_substring t_put_string t_put_char
    t_put_byte t_flush t_finish t_available t_get_string t_get_substring t_get_char t_get_byte t_wipe].
  - intros. apply cipher_put_substring_ok; assumption.
  - intros s sg q str HR Hb Hl Hf.
    assert (E : sub str 0 (zlen str) = str) by (apply sub_0_all; reflexivity).
    rewrite <- E at 1. apply cipher_put_substring_ok; try rewrite E; try assumption.
    apply in_range_true. pose proof (zlen_nonneg str). lia.
  - apply cipher_put_char_ok.
  - intros s sg q c HR Hc Hf. rewrite Z.mod_small by exact Hc. apply cipher_put_char_ok; assumption.
  - intros s sg q HR Hf. apply cipher_flush_ok; assumption.
  - intros s sg q HR Hf. apply Hfin; assumption.
  - intros s sg q HR. pose proof HR as (Hrel & Hinv & Hq & _). rewrite <- Hq.
    rewrite bo_contents_len by assumption. reflexivity.
  - intros s sg q (Hrel & Hinv & Hq & Hqok & H). 
    destruct (bo_get_string_ok _ Hinv) as (b' & -> & Hi & Hc). rewrite Hq.
    eexists; split; [reflexivity|]. unfold cR, lift. cbn [fst set_bo c_c c_bo c_ibuf c_used].
    repeat split; try tauto; try (apply Hi). constructor.
  - intros s sg q (Hrel & Hinv & Hq & Hqok & H).
    destruct (bo_get_substring_ok _ Hinv) as (b' & -> & H1 & H2 & Hi & Hc). rewrite Hq in *.
    do 3 eexists; split; [reflexivity|]. split; [exact H1|]. split; [exact H2|].
    split; [apply Hinv|].
    unfold cR, lift. cbn [fst set_bo c_c c_bo c_ibuf c_used].
    repeat split; try tauto; try (apply Hi). constructor.
  - intros s sg q (Hrel & Hinv & Hq & Hqok & H).
    pose proof (bo_get_char_ok _ Hinv) as Hg. rewrite Hq in Hg. destruct q as [|c q'].
    + rewrite Hg. unfold lift, set_bo. cbn [fst snd]. destruct s; reflexivity.
    + destruct Hg as (b' & -> & Hi & Hc). inversion Hqok; subst.
      eexists; split; [reflexivity|]. unfold cR, lift. cbn [fst set_bo c_c c_bo c_ibuf c_used].
      repeat split; try tauto; try (apply Hi).
  - intros s sg q (Hrel & Hinv & Hq & Hqok & H).
    pose proof (bo_get_char_ok _ Hinv) as Hg. rewrite Hq in Hg. destruct q as [|c q'].
    + rewrite Hg. unfold lift, set_bo. cbn [fst snd]. destruct s; reflexivity.
    + destruct Hg as (b' & -> & Hi & Hc). inversion Hqok; subst.
      eexists; split; [reflexivity|]. unfold cR, lift. cbn [fst set_bo c_c c_bo c_ibuf c_used].
      repeat split; try tauto; try (apply Hi).
  - intros. eexists; reflexivity.
  - intros s sg q (_ & _ & _ & Hqok & _). exact Hqok.
Qed.
End Fin.

(* class cipher *)
Lemma cipher_implements :
  implements true (cipher fresh C) (plain_mealy bs f) (cfits (block_flush bs f)) cR.
Proof. apply cipher_implements_gen. apply cipher_flush_ok. Qed.

(* ---- padded encryption ---- *)
Section PadEnc.
Variable p : scheme.
Variable padfn : Z -> option bytes.
Hypothesis pad_ok : forall buf used, zlen buf = bs -> 0 <= used < bs ->
  match padfn used with
  | Some l => pad p buf used = Ret (sub buf 0 used ++ l) /\ used + zlen l = bs /\ bytes_ok l
  | None => pad p buf used = Raise Assert_failure
  end.

Lemma padded_encrypt_finish_ok s sg q :
  cR s sg q -> zlen q + zlen (r_out (padenc_fin bs padfn f sg)) + bs <= max_string_length ->
  matches true cR q (padenc_fin bs padfn f sg) (padded_encrypt_finish fresh C p s).
Proof.
  (* last block *)
  assert (Last : forall s sg pend q, cR s (sg, pend) q -> zlen pend < bs ->
    zlen q + bs <= max_string_length ->
    matches true cR q
      (match padfn (zlen pend) with
      | None => ((sg, pend), [], Some Assert_failure)
      | Some l => let '(sg2, o2, e2) := emit_block f sg (pend ++ l) in ((sg2, pend), o2, e2)
      end)
      (let! (s, u) := to_ibuf C s (pad p (c_ibuf C s) (c_used C s)) in process_block fresh C s)).
  { clear s sg q. intros s sg pend q HR Hlt Hroom.
    pose proof HR as (Hrel & Hinv & Hq & Hqok & Hib & Hused & Hpend & Hpok). cbn [fst snd] in *.
    assert (Hlp : zlen pend = c_used C s) by (rewrite Hpend; apply zlen_sub; lia).
    rewrite Hlp. pose proof (pad_ok (c_ibuf C s) (c_used C s) Hib ltac:(lia)) as Hp.
    destruct (padfn (c_used C s)) as [l|].
    2:{ rewrite Hp. unfold matches, r_exn. cbn [fst snd to_ibuf bind]. eauto. }
    destruct Hp as (-> & Hl & Hlok). rewrite <- Hpend. cbn [to_ibuf bind].
    destruct (process_block_ok (set_ibuf C s (pend ++ l)) sg q) as (s1 & Hp & Hblk);
      cbn [set_ibuf c_c c_bo c_ibuf c_used] in *; try assumption.
    { rewrite zlen_app; lia. }
    { apply bytes_ok_app; split; assumption. }
    rewrite Hp. unfold emit_block.
    destruct (bf_step f sg (pend ++ l)) as [sg' [o|]]; cbn [fst snd] in *.
    2:{ unfold matches, r_exn. cbn [fst snd]. eauto. }
    destruct (Hblk o eq_refl) as (Hlo & Hook & Hrel1 & Hinv1 & Hq1 & Hib1 & Hu1).
    unfold matches, r_exn, r_st, r_out. cbn [fst snd]. split; [reflexivity|].
    unfold cR. cbn [fst snd].
    split; [exact Hrel1|]. split; [exact Hinv1|]. split; [exact Hq1|].
    split; [apply bytes_ok_app; split; assumption|].
    rewrite Hib1, Hu1.
    split; [rewrite zlen_app; lia|]. split; [lia|]. split; [|assumption].
    rewrite sub_app_l by lia. symmetry; apply sub_0_all; lia. }
  destruct sg as [sg pend]. intros HR Hf.
  pose proof HR as (Hrel & Hinv & Hq & Hqok & Hib & Hused & Hpend & Hpok). cbn [fst snd] in *.
  assert (Hlp : zlen pend = c_used C s) by (rewrite Hpend; apply zlen_sub; lia).
  unfold padded_encrypt_finish, padenc_fin in *. fold bs. rewrite Hlp in *.
  destruct (c_used C s >=? bs) eqn:Eu.
  - assert (Eibuf : pend = c_ibuf C s) by (rewrite Hpend; apply sub_0_all; lia).
    rewrite Eibuf in *.
    assert (E1 : emit_block f sg (c_ibuf C s) =
      match bf_step f sg (c_ibuf C s) with
      | (a, Some o) => (a, o, None)
      | (a, None) => (a, [], Some (Error Message_too_long)) end) by reflexivity.
    rewrite E1 in Hf |- *.
    destruct (process_block_ok s sg q) as (s1 & Hp & Hblk); try assumption.
    { match type of Hf with context [zlen (r_out ?x)] => pose proof (zlen_nonneg (r_out x)) end. lia. }
    rewrite Hp.
    destruct (bf_step f sg (c_ibuf C s)) as [sg' [o|]]; cbn [fst snd] in *.
    2:{ unfold matches, r_exn. cbn [fst snd bind]. eauto. }
    destruct (Hblk o eq_refl) as (Hlo & Hook & Hrel1 & Hinv1 & Hq1 & Hib1 & Hu1).
    cbn [bind]. change (zlen (@nil Z)) with 0 in *.
    assert (HR1 : cR (set_used C s1 0) (sg', []) (q ++ o)).
    { unfold cR. cbn [set_used c_c c_bo c_ibuf c_used fst snd].
      repeat split; try assumption; try lia; try constructor; try (apply Hinv1).
      - apply bytes_ok_app; split; assumption.
      - rewrite Hib1. assumption. }
    assert (Hroom : zlen (q ++ o) + bs <= max_string_length).
    { rewrite zlen_app. destruct (padfn 0) as [l|].
      - destruct (emit_block f sg' ([] ++ l)) as [[a b] c]. unfold r_out in Hf. cbn [fst snd] in Hf.
        rewrite zlen_app in Hf. pose proof (zlen_nonneg b). lia.
      - unfold r_out in Hf. cbn [fst snd] in Hf. lia. }
    specialize (Last _ sg' [] (q ++ o) HR1 ltac:(unfold zlen; cbn; lia) Hroom).
    change (zlen (@nil Z)) with 0 in Last.
    destruct (padfn 0) as [l|].
    + destruct (emit_block f sg' ([] ++ l)) as [[a b] [e|]]; unfold matches, r_exn, r_st, r_out in *;
        cbn [fst snd] in *; [exact Last|]. rewrite app_assoc. exact Last.
    + exact Last.
  - cbn [bind]. rewrite Hlp in *.
    assert (Hroom : zlen q + bs <= max_string_length).
    { match type of Hf with context [zlen (r_out ?x)] => pose proof (zlen_nonneg (r_out x)) end. lia. }
    specialize (Last s sg pend q HR ltac:(lia) Hroom). rewrite Hlp in Last.
    destruct (padfn (c_used C s)) as [l|]; [|exact Last].
    destruct (emit_block f sg (pend ++ l)) as [[a b] e]. exact Last.
Qed.

Lemma cipher_padded_encrypt_implements :
  implements true (cipher_padded_encrypt fresh C p)
    (block_mealy bs f (padenc_fin bs padfn f)) (cfits (padenc_fin bs padfn f)) cR.
Proof. apply cipher_implements_gen. apply padded_encrypt_finish_ok. Qed.
End PadEnc.

(* ---- padded decryption ---- *)
Section PadDec.
Variable p : scheme.
Variable unpadfn : bytes -> option Z.
Hypothesis strip_ok : forall buf, zlen buf = bs -> bytes_ok buf ->
  match unpadfn buf with
  | Some v => strip p buf = Ret v /\ 0 <= v <= bs
  | None => strip p buf = Raise (Error Bad_padding)
  end.

Lemma padded_decrypt_finish_ok s sg q :
  cR s sg q -> zlen q + zlen (r_out (paddec_fin bs unpadfn f sg)) + bs <= max_string_length ->
  matches true cR q (paddec_fin bs unpadfn f sg) (padded_decrypt_finish fresh C p s).
Proof.
  destruct sg as [sg pend]. intros HR Hf.
  pose proof HR as (Hrel & Hinv & Hq & Hqok & Hib & Hused & Hpend & Hpok). cbn [fst snd] in *.
  assert (Hlp : zlen pend = c_used C s) by (rewrite Hpend; apply zlen_sub; lia).
  unfold padded_decrypt_finish, paddec_fin in *. fold bs. rewrite Hlp in *.
  destruct (c_used C s =? bs) eqn:Eu; cbn [negb].
  2:{ unfold matches, r_exn. cbn [fst snd]. eauto. }
  assert (Eibuf : pend = c_ibuf C s) by (rewrite Hpend; apply sub_0_all; lia).
  rewrite Eibuf in *.
  pose proof (HC (c_c C s) sg (c_ibuf C s) 0 (c_ibuf C s) 0 Hrel) as H. fold bs in H.
  rewrite sub_0_all in H by lia.
  specialize (H ltac:(apply in_range_true; lia) ltac:(apply in_range_true; lia) Hpok).
  cbn zeta in H. destruct H as (c' & dst' & Ht & Hrel' & Hlen & Hblk).
  rewrite Ht. cbn [fst snd]. unfold emit_block in *.
  destruct (bf_step f sg (c_ibuf C s)) as [sg' [o|]]; cbn [fst snd] in *.
  2:{ unfold matches, r_exn. cbn [fst snd bind]. eauto. }
  destruct (Hblk o eq_refl) as (Hd & Hlo & Hook). fold bs in Hlo.
  cbn [bind c_ibuf c_bo].
  assert (dst' = o) as -> by (rewrite Hd; apply splice_all; lia).
  pose proof (strip_ok o ltac:(lia) Hook) as Hs.
  destruct (unpadfn o) as [v|].
  2:{ rewrite Hs. unfold matches, r_exn. cbn [fst snd bind]. eauto. }
  destruct Hs as (-> & Hv). cbn [bind].
  assert (Hzs : zlen (sub o 0 v) = v) by (apply zlen_sub; lia).
  unfold r_out in Hf. cbn [negb fst snd] in Hf.
  destruct (ensure_capacity_ok fresh fresh_len (c_bo C s) v Hinv) as (b' & He & Hinv' & Hc' & Hroom);
    [lia | rewrite Hq; lia |].
  rewrite He. unfold lift. cbn [fst snd bind set_bo c_c c_ibuf c_bo c_used].
  pose proof Hinv' as (Hi1 & Hi2 & Hi3).
  rewrite blit_ok by lia. cbn [bind].
  destruct (bo_append b' (sub o 0 v) _ Hinv' ltac:(lia) eq_refl) as (Ha1 & Ha2).
  rewrite Hzs in Ha1, Ha2.
  unfold matches, r_exn, r_st, r_out. cbn [fst snd]. split; [reflexivity|].
  unfold cR. cbn [fst snd c_c c_bo c_ibuf c_used set_bo].
  split; [exact Hrel'|]. split; [exact Ha1|]. split; [rewrite Ha2, Hc', Hq; reflexivity|].
  split; [apply bytes_ok_app; split; [assumption|apply bytes_ok_sub; assumption]|].
  split; [lia|]. split; [lia|]. split; [|assumption].
  symmetry; apply sub_0_all; lia.
Qed.

Lemma cipher_padded_decrypt_implements :
  implements true (cipher_padded_decrypt fresh C p)
    (block_mealy bs f (paddec_fin bs unpadfn f)) (cfits (paddec_fin bs unpadfn f)) cR.
Proof. apply cipher_implements_gen. apply padded_decrypt_finish_ok. Qed.
End PadDec.
End BlockCipher.
