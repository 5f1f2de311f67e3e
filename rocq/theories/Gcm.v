(* AES-GCM as modelled computes SP 800-38D. *)
From Verif Require Import Prelude PreludeFacts BytesNum BufOutModel BufOut SpecTransducer TransformModel Transform TransformTotal
  SpecBlock BlockModel BlockCipher BlockFits BlockTotal Modes SpecModes CipherModel EncModel CipherFacts Lawful BlockObj
  AesField MdHash SpecGhash GhashModel Ghash AuthModel AeadModel Auth SpecAead.
Ltac Zify.zify_post_hook ::= Z.div_mod_to_equations.

Lemma blk_block_mult x y : blk (block_mult x y).
Proof. split; [apply zlen_to_be|apply bytes_ok_to_be]. Qed.

Lemma xorb_zeros a n : zlen a = n -> xorb a (zeros n) = a.
Proof.
  intros <-. unfold zeros, zlen. rewrite Nat2Z.id. induction a as [|x a IH]; [reflexivity|].
  cbn [length repeat]. rewrite xorb_cons, IH, Z.lxor_0_r. reflexivity.
Qed.
Lemma zlen_zeros n : 0 <= n -> zlen (zeros n) = n.
Proof. intros. unfold zeros, zlen. rewrite repeat_length. lia. Qed.
Lemma bytes_ok_zeros n : bytes_ok (zeros n).
Proof. apply Forall_forall. intros x Hx. apply repeat_spec in Hx. subst. split; lia. Qed.

Lemma pad16_full x : zlen x mod 16 = 0 -> pad16 x = x.
Proof.
  intros H. unfold pad16. replace ((- zlen x) mod 16) with 0 by (clear - H; lia). apply app_nil_r.
Qed.
Lemma zlen_pad16 x : zlen (pad16 x) mod 16 = 0.
Proof. unfold pad16. rewrite zlen_app, zlen_zeros by lia. lia. Qed.
Lemma pad16_short x : 0 < zlen x <= 16 -> zlen (pad16 x) = 16 /\ pad16 x = x ++ zeros (16 - zlen x).
Proof.
  intros H. unfold pad16. replace ((- zlen x) mod 16) with (16 - zlen x) by (clear - H; lia).
  split; [rewrite zlen_app, zlen_zeros by lia; lia|reflexivity].
Qed.
Lemma blk_pad16 x : 0 < zlen x <= 16 -> bytes_ok x -> blk (pad16 x).
Proof.
  intros H Hb. destruct (pad16_short x H) as (E & _). split; [exact E|]. apply bytes_ok_app. split; [exact Hb|apply bytes_ok_zeros].
Qed.

(* the chunks of a string *)
Lemma chunks_last l : l <> [] -> exists bl b, chunks 16 l = bl ++ [b] /\ l = concat bl ++ b /\
  Forall (fun b => zlen b = 16) bl /\ 0 < zlen b <= 16 /\ (bytes_ok l -> Forall bytes_ok bl /\ bytes_ok b).
Proof.
  intros Hl. destruct (split_blocks 16 l ltac:(lia)) as (blks & tail & E & H1 & H2 & H3 & H4).
  pose proof (zlen_nonneg tail). destruct tail as [|x tail].
  - rewrite app_nil_r in E. destruct (last_block 16 blks H1) as [->|(bl & b & -> & H5 & H6)].
    + cbn in E. congruence.
    + exists bl, b. rewrite E, chunks_concat0 by (assumption || lia).
      split; [reflexivity|]. split; [rewrite concat_app; cbn [concat]; rewrite app_nil_r; reflexivity|].
      split; [exact H5|]. split; [lia|]. intros Hb. rewrite <- E in Hb. destruct (H4 Hb) as (H7 & _). apply Forall_app in H7.
      destruct H7 as (H7 & H8). apply Forall_cons_iff in H8. tauto.
  - exists blks, (x :: tail). rewrite zlen_cons in *. pose proof (zlen_nonneg tail).
    rewrite E, chunks_concat by (assumption || lia). rewrite (chunks_short 16 (x :: tail)) by (rewrite zlen_cons; lia).
    split; [reflexivity|]. split; [reflexivity|]. split; [exact H1|]. split; [lia|]. rewrite <- E. exact H4.
Qed.
Lemma chunks_sizes l : Forall (fun b => 0 < zlen b <= 16) (chunks 16 l) /\ (bytes_ok l -> Forall bytes_ok (chunks 16 l)) /\ concat (chunks 16 l) = l.
Proof.
  destruct l as [|x l]; [repeat split; constructor|].
  destruct (chunks_last (x :: l) ltac:(discriminate)) as (bl & b & -> & E & H1 & H2 & H3). rewrite E.
  split; [apply Forall_app; split; [eapply Forall_impl; [|exact H1]; cbn; lia|constructor; [exact H2|constructor]]|].
  split; [rewrite <- E; intros Hb; destruct (H3 Hb); apply Forall_app; split; [assumption|constructor; [assumption|constructor]]|].
  rewrite concat_app. cbn [concat]. rewrite app_nil_r. reflexivity.
Qed.

(* GHASH of a padded string, chunk by chunk *)
Definition ghf (H : bytes) (y : bytes) (l : list bytes) : bytes := fold_left (fun y x => block_mult (xorb y (pad16 x)) H) l y.
Lemma chunks_pad16 x t : chunks 16 (pad16 x ++ t) = map pad16 (chunks 16 x) ++ chunks 16 t.
Proof.
  destruct x as [|c x]; [reflexivity|].
  destruct (chunks_last (c :: x) ltac:(discriminate)) as (bl & b & E1 & E & H1 & H2 & H3). rewrite E1. clear H3.
  assert (Ep : pad16 (c :: x) = concat (bl ++ [pad16 b])).
  { rewrite E, concat_app. cbn [concat]. rewrite app_nil_r. unfold pad16 at 1. rewrite <- app_assoc. f_equal.
    destruct (pad16_short b H2) as (_ & ->). f_equal. f_equal. rewrite zlen_app, (zlen_concat 16) by exact H1. clear - H2. lia. }
  assert (Hf : Forall (fun b => zlen b = 16) (bl ++ [pad16 b])).
  { apply Forall_app. split; [exact H1|]. constructor; [apply pad16_short; exact H2|constructor]. }
  rewrite Ep, chunks_concat by (exact Hf || lia). rewrite map_app. cbn [map]. f_equal. f_equal.
  clear -H1. induction H1 as [|a l Ha H IH]; [reflexivity|]. cbn [map]. rewrite <- IH, pad16_full by (rewrite Ha; reflexivity). reflexivity.
Qed.
Lemma ghf_map H l : forall y, fold_left (fun y x => block_mult (xorb y x) H) (map pad16 l) y = ghf H y l.
Proof. unfold ghf. induction l as [|b l IH]; intros y; [reflexivity|]. cbn [map fold_left]. apply IH. Qed.
Lemma blk_ghf H l : forall y, blk y -> blk (ghf H y l).
Proof. induction l as [|b l IH]; intros y Hy; [exact Hy|]. apply IH, blk_block_mult. Qed.
Lemma ghash_str_pad H x t y : fold_left (fun y x => block_mult (xorb y x) H) (chunks 16 (pad16 x ++ t)) y =
  fold_left (fun y x => block_mult (xorb y x) H) (chunks 16 t) (ghf H y (chunks 16 x)).
Proof. rewrite chunks_pad16, fold_left_app, ghf_map. reflexivity. Qed.

Lemma xor_bytes_ok_at src so dst d n : 0 <= n -> 0 <= so -> so + n <= zlen src -> 0 <= d -> d + n <= zlen dst ->
  xor_bytes src so dst d n = Ret (splice dst d (xorb (sub src so n) (sub dst d n))).
Proof.
  intros. unfold xor_bytes. replace (in_range src so n) with true by (symmetry; apply in_range_true; lia).
  replace (in_range dst d n) with true by (symmetry; apply in_range_true; lia). reflexivity.
Qed.

(* the counter *)
Lemma inc32_ok c : blk c -> increment_counter c 12 15 = Ret (inc32 c) /\ blk (inc32 c).
Proof.
  intros (H1 & H2).
  assert (E : ctr_block 4 c 1 = inc32 c).
  { unfold ctr_block, inc32. replace (length c - 4)%nat with 12%nat by (unfold zlen in H1; lia). f_equal.
    change (2 ^ 32) with (256 ^ Z.of_nat 4). symmetry. apply to_be_mod. }
  rewrite <- E. split.
  - rewrite <- (increment_counter_ok 4 c) by (assumption || (unfold zlen in H1; lia)). rewrite H1. reflexivity.
  - unfold ctr_block. split.
    + rewrite zlen_app, zlen_to_be. unfold zlen in *. rewrite firstn_length. lia.
    + apply bytes_ok_app. split; [apply Forall_firstn, H2|apply bytes_ok_to_be].
Qed.

Lemma set_two_be fr a b : zlen fr = 16 ->
  (olet buf := set_int64_be fr 0 a in set_int64_be buf 8 b) = Ret (to_be 8 (a mod 2 ^ 64) ++ to_be 8 (b mod 2 ^ 64)).
Proof.
  intros Hf. unfold set_int64_be. replace (in_range fr 0 8) with true by (symmetry; apply in_range_true; lia). cbn [obind].
  set (x := to_be 8 (a mod 2 ^ 64)). set (y := to_be 8 (b mod 2 ^ 64)).
  assert (Hx : zlen x = 8) by apply zlen_to_be. assert (Hy : zlen y = 8) by apply zlen_to_be.
  replace (in_range (splice fr 0 x) 8 8) with true by (symmetry; apply in_range_true; rewrite zlen_splice; lia).
  f_equal. unfold splice. cbn [Z.to_nat firstn app]. unfold zlen in *.
  rewrite firstn_app, firstn_all2 by lia. replace (Pos.to_nat 8 - length x)%nat with O by lia. cbn [firstn]. rewrite app_nil_r.
  f_equal. rewrite skipn_all2; [apply app_nil_r|]. rewrite app_length, skipn_length. lia.
Qed.

Section Stub.
Variables (h : ghash_ctx) (H : bytes).
Hypothesis HH : blk H.
Hypothesis Hh : forall x, blk x -> ghash_mult h x = Ret (block_mult x H).

Lemma ghash_block_ok mac buf ofs len : blk mac -> 0 < len <= 16 -> 0 <= ofs -> ofs + len <= zlen buf -> bytes_ok (sub buf ofs len) ->
  ghash_block h mac buf ofs len = Ret (block_mult (xorb mac (pad16 (sub buf ofs len))) H).
Proof.
  intros Hm Hl Ho Hb Hbo. unfold ghash_block. destruct Hm as (Hm1 & Hm2).
  rewrite (xor_bytes_ok_at buf ofs mac 0 len) by lia. cbn [obind].
  assert (Hz : zlen (sub buf ofs len) = len) by (apply zlen_sub; lia).
  set (x := sub buf ofs len) in *.
  assert (E : splice mac 0 (xorb x (sub mac 0 len)) = xorb mac (pad16 x)).
  { destruct (pad16_short x ltac:(lia)) as (_ & ->). rewrite Hz. unfold splice, sub. cbn [Z.to_nat firstn app skipn].
    rewrite xorb_length by (rewrite firstn_length; unfold zlen in *; lia).
    rewrite <- (firstn_skipn (Z.to_nat len) mac) at 3. rewrite xorb_app by (rewrite firstn_length; unfold zlen in *; lia).
    f_equal; [apply xorb_comm|]. rewrite xorb_zeros by (unfold zlen in *; rewrite skipn_length; lia).
    f_equal. unfold zlen in Hz. lia. }
  rewrite E. apply Hh. apply blk_xor; [split; assumption|apply blk_pad16; [lia|exact Hbo]].
Qed.

Lemma ghash_string_loop_ok msg : bytes_ok msg -> forall fuel mac pre rest, msg = pre ++ rest -> blk mac -> (length rest < fuel)%nat ->
  ghash_string_loop fuel h mac msg (zlen pre) = Ret (ghf H mac (chunks 16 rest)).
Proof.
  intros Hok. induction fuel as [|fuel IH]; intros mac pre rest E Hm Hf; [lia|]. cbn [ghash_string_loop].
  assert (Hlen : zlen msg = zlen pre + zlen rest) by (rewrite E; apply zlen_app). pose proof (zlen_nonneg pre). pose proof (zlen_nonneg rest).
  destruct (zlen pre + 16 <=? zlen msg) eqn:E1.
  - set (b := firstn 16 rest). set (r := skipn 16 rest). assert (Er : rest = b ++ r) by (symmetry; apply firstn_skipn).
    assert (Hb : zlen b = 16) by (unfold b, zlen; rewrite firstn_length; unfold zlen in *; lia).
    assert (Hsub : sub msg (zlen pre) 16 = b).
    { rewrite E, Er, app_assoc. unfold sub. rewrite <- app_assoc. rewrite skipn_app, skipn_all2 by (unfold zlen; lia).
      replace (Z.to_nat (zlen pre) - length pre)%nat with O by (unfold zlen; lia). cbn [app skipn].
      rewrite firstn_app, firstn_all2 by (unfold zlen in Hb; lia). replace (Z.to_nat 16 - length b)%nat with O by (unfold zlen in Hb; lia).
      apply app_nil_r. }
    rewrite ghash_block_ok by (try assumption; try lia; apply bytes_ok_sub, Hok). rewrite Hsub. cbn [obind].
    replace (zlen pre + 16) with (zlen (pre ++ b)) by (rewrite zlen_app; lia).
    rewrite (IH _ (pre ++ b) r).
    + rewrite Er. rewrite chunks_cons by (lia || exact Hb). reflexivity.
    + rewrite <- app_assoc, <- Er. exact E.
    + apply blk_block_mult.
    + unfold r. rewrite skipn_length. unfold zlen in *. lia.
  - destruct (zlen pre <? zlen msg) eqn:E2.
    + assert (Hsub : sub msg (zlen pre) (zlen msg - zlen pre) = rest).
      { rewrite E at 1. unfold sub. rewrite skipn_app, skipn_all2 by (unfold zlen; lia).
        replace (Z.to_nat (zlen pre) - length pre)%nat with O by (unfold zlen; lia). cbn [app skipn]. apply firstn_all2. unfold zlen in *. lia. }
      rewrite ghash_block_ok by (try assumption; try lia; apply bytes_ok_sub, Hok). rewrite Hsub.
      rewrite chunks_short by lia. reflexivity.
    + destruct rest; [reflexivity|]. rewrite zlen_cons in *. pose proof (zlen_nonneg rest). lia.
Qed.
Lemma blk_zeros : blk (zeros 16).
Proof. split; [reflexivity|apply bytes_ok_zeros]. Qed.
Lemma ghash_string_ok msg : bytes_ok msg -> ghash_string h msg = Ret (ghf H (zeros 16) (chunks 16 msg)).
Proof.
  intros Hb. apply (ghash_string_loop_ok msg Hb (S (length msg)) (zeros 16) [] msg); [reflexivity|apply blk_zeros|lia].
Qed.

Lemma counter0_ok iv E : H = E (zeros 16) -> bytes_ok iv -> zlen iv < 2 ^ 60 -> counter0 h iv = Ret (gcm_J0 E iv) /\ blk (gcm_J0 E iv).
Proof.
  intros HE Hb Hl. unfold counter0, gcm_J0. destruct (zlen iv =? 12) eqn:E1.
  - split; [reflexivity|]. split; [rewrite zlen_app; change (zlen [0; 0; 0; 1]) with 4; lia|].
    apply bytes_ok_app. split; [exact Hb|repeat constructor; lia].
  - rewrite ghash_string_ok by exact Hb. cbn [obind].
    assert (Eb : set_int64_be (zeros 16) 8 (zlen iv * 8) = Ret (zeros 8 ++ to_be 8 (8 * zlen iv))).
    { unfold set_int64_be. change (in_range (zeros 16) 8 8) with true. cbn match. f_equal. unfold splice. rewrite skipn_all2.
      - rewrite app_nil_r. change (firstn (Z.to_nat 8) (zeros 16)) with (zeros 8). do 2 f_equal. rewrite Z.mod_small; [lia|]. pose proof (zlen_nonneg iv). clear -Hl H0. change (2 ^ 64) with (16 * 2 ^ 60). lia.
      - pose proof (zlen_to_be 8 ((zlen iv * 8) mod 2 ^ 64)) as Ht. unfold zlen in Ht at 1. change (length (zeros 16)) with 16%nat. lia. }
    rewrite Eb. cbn [obind]. set (B := zeros 8 ++ to_be 8 (8 * zlen iv)).
    assert (HB : zlen B = 16) by (unfold B; rewrite zlen_app, zlen_to_be; reflexivity).
    assert (HBb : bytes_ok B) by (apply bytes_ok_app; split; [apply bytes_ok_zeros|apply bytes_ok_to_be]).
    rewrite ghash_block_ok.
    + rewrite (sub_0_all B 16) by lia. rewrite pad16_full by (rewrite HB; reflexivity). unfold ghash_str, ghash, gcm_H. fold B. rewrite <- HE.
      rewrite ghash_str_pad. rewrite (chunks_short 16 B) by lia. split; [reflexivity|apply blk_block_mult].
    + apply blk_ghf, blk_zeros.
    + lia.
    + lia.
    + lia.
    + apply bytes_ok_sub, HBb.
Qed.
End Stub.

(* ------------------------------------------------------------------ *)
(* One step of GCM on a block, or on the last partial block.  [gcm_lim] is
   the limit of the code. *)
Definition gcm_lim : Z := 0xfffffffe0.
Section Step.
Variables (E : bytes -> bytes) (H : bytes) (enc : bool).
Definition gstep (s : bytes * bytes * Z) (b : bytes) : (bytes * bytes * Z) * option bytes :=
  let '(c, y, n) := s in
  let c' := inc32 c in
  let x := xorb b (firstn (length b) (E c')) in
  let n' := (n + zlen b) mod 2 ^ 64 in
  ((c', block_mult (xorb y (pad16 (if enc then x else b))) H, n'),
   if enc && (signed64 n' >? gcm_lim) then None else Some x).
Definition gfn : blockfn := BF (bytes * bytes * Z) gstep.
Definition gtag (hl : Z) (e0 : bytes) (s : bytes * bytes * Z) : bytes :=
  let '(c, y, n) := s in
  xorb e0 (block_mult (xorb y (to_be 8 ((hl * 8) mod 2 ^ 64) ++ to_be 8 ((n * 8) mod 2 ^ 64))) H).
Definition gfin (hl : Z) (e0 : bytes) (s : (bytes * bytes * Z) * bytes) : out (bytes * bytes) :=
  if zlen (snd s) =? 0 then Ret ([], gtag hl e0 (fst s))
  else match gstep (fst s) (snd s) with
       | (s', Some x) => Ret (x, gtag hl e0 s')
       | (_, None) => Raise (Error Message_too_long)
       end.

Lemma signed64_small n : 0 <= n < 2 ^ 63 -> signed64 (n mod 2 ^ 64) = n.
Proof.
  intros Hn. unfold signed64. rewrite Z.mod_small; [|change (2 ^ 64) with (2 * 2 ^ 63); clear - Hn; lia].
  replace (n <? 2 ^ 63) with true; [reflexivity|]. symmetry. apply Z.ltb_lt. apply Hn.
Qed.

(* running over all the chunks *)
Definition gtotal (l : list bytes) : Z := zlen (concat l).
Lemma gtotal_cons b l : gtotal (b :: l) = zlen b + gtotal l.
Proof. unfold gtotal. cbn [concat]. apply zlen_app. Qed.
Fixpoint inc32n (k : nat) (c : bytes) : bytes := match k with O => c | S k => inc32n k (inc32 c) end.
Lemma gfn_run l : forall c y n, 0 <= n -> n + gtotal l < 2 ^ 63 -> (enc = true -> n <= gcm_lim) ->
  if enc && (n + gtotal l >? gcm_lim) then snd (bf_run gfn (c, y, n) l) = None
  else bf_run gfn (c, y, n) l =
    ((inc32n (length l) c, ghf H y (if enc then gctr_blocks E (inc32 c) l else l), n + gtotal l), Some (gctr_blocks E (inc32 c) l)).
Proof.
  assert (M : 2 ^ 63 < 2 ^ 64) by reflexivity.
  induction l as [|b l IH]; intros c y n Hn Hs Hl.
  - change (gtotal []) with 0 in *. rewrite Z.add_0_r in *. destruct enc; cbn [andb].
    + replace (n >? gcm_lim) with false by (specialize (Hl eq_refl); lia). reflexivity.
    + reflexivity.
  - rewrite gtotal_cons in *. pose proof (zlen_nonneg b). pose proof (zlen_nonneg (concat l)) as Hc. fold (gtotal l) in Hc.
    cbn [bf_run gfn bf_step bf_st]. change (BF (bytes * bytes * Z) gstep) with gfn. cbn [gstep].
    rewrite signed64_small by (clear - Hn Hs H0 Hc; lia).
    rewrite (Z.mod_small (n + zlen b) (2 ^ 64)) by (clear - Hn Hs H0 Hc M; lia).
    set (x := xorb b (firstn (length b) (E (inc32 c)))).
    destruct (enc && (n + zlen b >? gcm_lim)) eqn:E1.
    + apply andb_true_iff in E1. destruct E1 as (-> & E1). cbn [andb].
      replace (n + (zlen b + gtotal l) >? gcm_lim) with true by (clear - E1 Hc; lia). reflexivity.
    + specialize (IH (inc32 c) (block_mult (xorb y (pad16 (if enc then x else b))) H) (n + zlen b) ltac:(clear -Hn H0; lia) ltac:(clear -Hs; lia)).
      assert (Hl' : enc = true -> n + zlen b <= gcm_lim) by (intros ->; clear - E1; cbn [andb] in E1; lia).
      specialize (IH Hl'). rewrite <- Z.add_assoc in IH. destruct (enc && (n + (zlen b + gtotal l) >? gcm_lim)).
      * destruct (bf_run gfn _ l) as [s [os|]]; [discriminate IH|reflexivity].
      * rewrite IH. cbn [gctr_blocks length inc32n]. fold x. destruct enc; reflexivity.
Qed.

(* the transducer, with the final step, on a whole message *)
Lemma g_result fin hl e0 c y msg : zlen msg < 2 ^ 63 ->
  auth_result (block_mealy 16 gfn fin) (gfin hl e0) ((c, y, 0), []) msg =
  if enc && (zlen msg >? gcm_lim) then Raise (Error Message_too_long)
  else Ret (gctr E (inc32 c) msg,
            gtag hl e0 (inc32n (length (chunks 16 msg)) c, ghf H y (if enc then gctr_blocks E (inc32 c) (chunks 16 msg) else chunks 16 msg), zlen msg)).
Proof.
  intros Hlen. unfold auth_result. destruct msg as [|z msg].
  { change (zlen (@nil Z) >? gcm_lim) with false. rewrite andb_false_r. destruct enc; reflexivity. }
  destruct (chunks_last (z :: msg) ltac:(discriminate)) as (bl & b & E1 & E2 & H1 & H2 & _).
  remember (z :: msg) as m0 eqn:Em. clear Em z msg.
  unfold gctr. rewrite E1. subst m0.
  pose proof (gfn_run (bl ++ [b]) c y 0 ltac:(lia)) as G.
  assert (Gt : gtotal (bl ++ [b]) = zlen (concat bl ++ b)).
  { unfold gtotal. rewrite concat_app. cbn [concat]. rewrite app_nil_r. reflexivity. }
  rewrite Gt, Z.add_0_l in G. specialize (G Hlen ltac:(intros; unfold gcm_lim; lia)).
  rewrite bf_run_app in G.
  pose proof (run_blocks 16 gfn ltac:(lia) fin bl (c, y, 0) b H1 ltac:(right; lia) ltac:(lia)) as Rb.
  match goal with |- context [m_run ?a ?b ?c] => set (mr := m_run a b c) end.
  match type of Rb with context [m_run ?a ?b ?c] => change (m_run a b c) with mr in Rb end.
  destruct (bf_run gfn (c, y, 0) bl) as [s' [os|]].
  - rewrite Rb. unfold gfin. cbn [fst snd]. replace (zlen b =? 0) with false by lia.
    cbn [bf_run gfn bf_step bf_st] in G. change (BF (bytes * bytes * Z) gstep) with gfn in G.
    destruct (gstep s' b) as [s'' [x|]].
    + destruct (enc && (zlen (concat bl ++ b) >? gcm_lim)); [discriminate G|].
      injection G as G1 G2. cbn [obind fst snd]. rewrite G1, <- G2, concat_app. cbn [concat]. rewrite app_nil_r. reflexivity.
    + destruct (enc && (zlen (concat bl ++ b) >? gcm_lim)); [reflexivity|discriminate G].
  - destruct (enc && (zlen (concat bl ++ b) >? gcm_lim)); [|discriminate G].
    destruct mr as [[s1 o1] [e|]]; unfold r_exn in Rb; cbn [fst snd] in Rb; [injection Rb as ->; reflexivity|discriminate].
Qed.
End Step.

(* ------------------------------------------------------------------ *)
Section Obj.
Variable fresh : Z -> bytes.
Hypothesis fresh_len : forall n, 0 <= n -> zlen (fresh n) = n.
Variables (aes : bobj) (E : bytes -> bytes).
Hypothesis Haes : block_computes aes 16 E.
Hypothesis HE : forall b, blk b -> blk (E b).
Notation A := (b_bc aes).
Variables (h : ghash_ctx) (H : bytes).
Hypothesis Hh : forall x, blk x -> ghash_mult h x = Ret (block_mult x H).

Definition grel (g : gst A) (s : bytes * bytes * Z) : Prop :=
  g_aes g = b_st aes /\ g_ctr g = fst (fst s) /\ blk (fst (fst s)) /\ zlen (g_buf g) = 16 /\
  g_mac g = snd (fst s) /\ blk (snd (fst s)) /\ g_clen g = snd s.

Lemma ctr_enc_dec_ok ctr buf mac n src so dst d len : blk ctr -> zlen buf = 16 -> 0 < len <= 16 ->
  0 <= so -> so + len <= zlen src -> 0 <= d -> d + len <= zlen dst ->
  exists buf', zlen buf' = 16 /\
  ctr_enc_dec A (GST (b_st aes) ctr buf mac n, dst) src so d len =
  ((GST (b_st aes) (inc32 ctr) buf' mac n, splice dst d (xorb (sub src so len) (firstn (Z.to_nat len) (E (inc32 ctr))))), Ret tt).
Proof.
  intros Hc Hb Hl Hso Hsrc Hd Hdst. unfold ctr_enc_dec. cbn [fst snd g_aes g_ctr g_buf g_mac g_clen].
  destruct (inc32_ok ctr Hc) as (-> & Hc'). cbn [to_ctr bind fst snd g_aes g_ctr g_buf g_mac g_clen].
  destruct Haes as (Hbs & Ha). pose proof Hc' as (Hc1 & Hc2). destruct (HE _ Hc') as (He1 & He2).
  assert (Es : sub (inc32 ctr) 0 16 = inc32 ctr) by (apply sub_0_all; lia).
  rewrite (Ha (inc32 ctr) 0 buf 0) by (rewrite ?Es; assumption || lia). rewrite Es.
  cbn [to_ctr bind fst snd g_aes g_ctr g_buf g_mac g_clen]. rewrite splice_all by lia.
  rewrite (xor_bytes_ok_at src so (E (inc32 ctr)) 0 len) by lia. cbn [to_buf bind fst snd g_aes g_ctr g_buf g_mac g_clen].
  assert (Hx : zlen (xorb (sub src so len) (sub (E (inc32 ctr)) 0 len)) = len) by (rewrite zlen_xorb; rewrite ?zlen_sub; lia).
  rewrite blit_ok by (rewrite ?zlen_splice; lia). cbn [to_dst fst snd].
  eexists. split; [|do 3 f_equal; rewrite (sub_splice_same (E (inc32 ctr)) 0 _ len) by lia; reflexivity].
  rewrite zlen_splice; lia.
Qed.

Lemma step_len b c : 0 < zlen b <= 16 -> bytes_ok b -> blk c -> zlen (xorb b (firstn (length b) (E (inc32 c)))) = zlen b /\ bytes_ok (xorb b (firstn (length b) (E (inc32 c)))).
Proof.
  intros Hl Hb Hc. destruct (HE _ (proj2 (inc32_ok c Hc))) as (He1 & He2). split.
  - apply zlen_xorb. unfold zlen in *. rewrite firstn_length. lia.
  - apply bytes_ok_xorb; [exact Hb|apply Forall_firstn, He2].
Qed.

Lemma to_nat_sub (src : bytes) so len : 0 <= len -> 0 <= so -> so + len <= zlen src -> Z.to_nat len = length (sub src so len).
Proof. intros. pose proof (zlen_sub src so len). unfold zlen in *. lia. Qed.

Lemma gcm_enc_implements : bc_implements (gcm_enc_wrapped A h) (gfn E H true) grel.
Proof.
  intros g [[c y] n] src so dst d (G1 & G2 & G3 & G4 & G5 & G6 & G7) Hs Hd Hok. cbn [gcm_enc_wrapped bc_blocksize bc_transform gfn bf_step] in *.
  apply in_range_true in Hs. apply in_range_true in Hd. destruct g as [ga gc gb gm gn]. cbn [g_aes g_ctr g_buf g_mac g_clen fst snd] in *. subst.
  destruct (ctr_enc_dec_ok c gb y n src so dst d 16 G3 G4 ltac:(lia)) as (buf' & Hb' & ->); try lia. cbn [bind fst snd g_aes g_ctr g_buf g_mac g_clen].
  assert (Hz : zlen (sub src so 16) = 16) by (apply zlen_sub; lia). rewrite (to_nat_sub src so 16) by lia. unfold gstep.
  destruct (step_len (sub src so 16) c ltac:(lia) Hok G3) as (L1 & L2).
  set (x := xorb (sub src so 16) (firstn (length (sub src so 16)) (E (inc32 c)))) in *.
  assert (Hsd : sub (splice dst d x) d 16 = x) by (apply sub_splice_same; lia).
  rewrite (ghash_block_ok h H Hh y (splice dst d x) d 16) by (rewrite ?Hsd, ?zlen_splice; try assumption; lia). rewrite Hsd.
  cbn [to_mac bind fst snd g_aes g_ctr g_buf g_mac g_clen add_clen]. unfold gcm_check, add_clen. cbn [fst snd g_aes g_ctr g_buf g_mac g_clen]. rewrite Hz. change 0xfffffffe0 with gcm_lim. cbn [andb].
  eexists _, _. split.
  { destruct (signed64 ((n + 16) mod 2 ^ 64) >? gcm_lim); reflexivity. }
  split; [repeat split; cbn [fst snd g_aes g_ctr g_buf g_mac g_clen]; try assumption; try apply blk_block_mult; apply (inc32_ok c G3)|].
  split; [apply zlen_splice; lia|]. intros b Hb. destruct (signed64 _ >? gcm_lim); [discriminate|]. injection Hb as <-. split; [reflexivity|]. split; [lia|assumption].
Qed.

Lemma gcm_dec_implements : bc_implements (gcm_dec_wrapped A h) (gfn E H false) grel.
Proof.
  intros g [[c y] n] src so dst d (G1 & G2 & G3 & G4 & G5 & G6 & G7) Hs Hd Hok. cbn [gcm_dec_wrapped bc_blocksize bc_transform gfn bf_step] in *.
  apply in_range_true in Hs. apply in_range_true in Hd. destruct g as [ga gc gb gm gn]. cbn [g_aes g_ctr g_buf g_mac g_clen fst snd] in *. subst.
  rewrite (ghash_block_ok h H Hh y src so 16) by (assumption || lia). cbn [to_mac bind fst snd g_aes g_ctr g_buf g_mac g_clen].
  destruct (ctr_enc_dec_ok c gb (block_mult (xorb y (pad16 (sub src so 16))) H) n src so dst d 16 G3 G4 ltac:(lia)) as (buf' & Hb' & ->); try lia.
  cbn [bind fst snd g_aes g_ctr g_buf g_mac g_clen].
  assert (Hz : zlen (sub src so 16) = 16) by (apply zlen_sub; lia). rewrite (to_nat_sub src so 16) by lia. unfold gstep. cbn [andb].
  destruct (step_len (sub src so 16) c ltac:(lia) Hok G3) as (L1 & L2). rewrite Hz.
  eexists _, _. split; [reflexivity|].
  split; [repeat split; cbn [fst snd add_clen g_aes g_ctr g_buf g_mac g_clen]; try assumption; try apply blk_block_mult; apply (inc32_ok c G3)|].
  split; [apply zlen_splice; lia|]. intros b Hb. injection Hb as <-. split; [reflexivity|]. split; [lia|assumption].
Qed.

Variables (hl : Z) (e0 : bytes).
Hypothesis He0 : blk e0.

Lemma ghash_final_ok mac n : blk mac ->
  exists mac', ghash_final fresh h mac hl n e0 = Ret (mac', gtag H hl e0 ([], mac, n)) /\ blk mac'.
Proof.
  intros Hm. unfold ghash_final. pose proof (set_two_be (fresh 16) (hl * 8) (n * 8) ltac:(apply fresh_len; lia)) as Hs.
  destruct (set_int64_be (fresh 16) 0 (hl * 8)) as [b0| | |]; cbn [obind] in Hs |- *; try discriminate. rewrite Hs. cbn [obind].
  set (B := to_be 8 ((hl * 8) mod 2 ^ 64) ++ to_be 8 ((n * 8) mod 2 ^ 64)).
  assert (HB : zlen B = 16) by (unfold B; rewrite zlen_app, !zlen_to_be; reflexivity).
  assert (HBb : bytes_ok B) by (apply bytes_ok_app; split; apply bytes_ok_to_be).
  rewrite (ghash_block_ok h H Hh mac B 0 16) by (try assumption; try lia; apply bytes_ok_sub, HBb). cbn [obind].
  rewrite (sub_0_all B 16) by lia. rewrite pad16_full by (rewrite HB; reflexivity).
  set (m' := block_mult (xorb mac B) H). assert (Hm' : blk m') by apply blk_block_mult. destruct Hm' as (M1 & M2). destruct He0 as (E1 & E2).
  rewrite blit_ok by lia. cbn [obind]. rewrite (sub_0_all m' 16) by lia. rewrite splice_all by lia.
  rewrite xor_bytes_ok_at by lia. cbn [obind]. rewrite !sub_0_all by lia. rewrite splice_all by (rewrite zlen_xorb; lia).
  exists m'. split; [reflexivity|split; assumption].
Qed.

Section Fin.
Variable C : block_cipher.
Variable getp : bc_st C -> gst A.
Variable putp : gst A -> bc_st C.
Hypothesis gp : forall x, getp (putp x) = x.
Variable enc : bool.
Definition crel (s : bc_st C) (sg : bytes * bytes * Z) := grel (getp s) sg.
Notation R := (cR C (gfn E H enc) crel).

Lemma gcm_tag_ok s sg q pend : R s (sg, pend) q ->
  exists s1 sg1, gcm_tag fresh A C getp putp h hl e0 s = (s1, Ret (gtag H hl e0 sg)) /\ R s1 (sg1, pend) q.
Proof.
  intros (Hr & Hrest). destruct Hr as (G1 & G2 & G3 & G4 & G5 & G6 & G7). cbn [fst snd] in *. unfold gcm_tag. rewrite G5, G7.
  destruct sg as [[c y] n]. cbn [fst snd] in *. destruct (ghash_final_ok y n G6) as (mac' & -> & Hm').
  eexists _, (c, mac', n). split; [reflexivity|]. split; [|exact Hrest].
  unfold crel, grel. cbn [c_c]. rewrite gp. cbn [fst snd g_aes g_ctr g_buf g_mac g_clen]. repeat split; try assumption; apply G3 || apply Hm'.
Qed.
End Fin.

Notation idg := (fun x => x).
Lemma gcm_enc_fin_ok s sg q : cR (gcm_enc_wrapped A h) (gfn E H true) grel s sg q -> zlen q + 16 <= max_string_length ->
  match gfin E H true hl e0 sg with
  | Ret (o, tag) => exists s1 sg1, gcm_enc_finish fresh A (gcm_enc_wrapped A h) idg idg h hl e0 s = (s1, Ret tag) /\
      cR (gcm_enc_wrapped A h) (gfn E H true) grel s1 sg1 (q ++ o)
  | Raise e => snd (gcm_enc_finish fresh A (gcm_enc_wrapped A h) idg idg h hl e0 s) = Raise e
  | _ => False
  end.
Proof.
  set (C := gcm_enc_wrapped A h). destruct sg as [sg pend]. intros HR Hf.
  pose proof HR as (Hrel & Hinv & Hq & Hqok & Hib & Hused & Hpend & Hpok). cbn [fst snd] in *.
  change (bc_blocksize C) with 16 in *. unfold gfin, gcm_enc_finish. cbn [fst snd].
  assert (Hlp : zlen pend = c_used C s) by (rewrite Hpend; apply zlen_sub; lia). rewrite Hlp.
  assert (Tg := fun s1 sg1 q1 p1 => gcm_tag_ok C idg idg (fun x => eq_refl) true s1 sg1 q1 p1).
  change (crel C idg) with grel in Tg.
  destruct (c_used C s =? 0) eqn:E0.
  - replace (c_used C s >? 0) with false by lia. cbn [bind]. destruct (Tg _ _ _ _ HR) as (s1 & sg1 & E1 & R1).
    exists s1, (sg1, pend). rewrite app_nil_r. split; assumption.
  - replace (c_used C s >? 0) with true by lia.
    destruct (ensure_capacity_ok fresh fresh_len (c_bo C s) (c_used C s) Hinv ltac:(lia) ltac:(rewrite Hq; lia)) as (b' & He & Hinv' & Hc' & Hroom).
    rewrite He. unfold lift. cbn [fst snd bind set_bo c_c c_ibuf c_bo c_used].
    pose proof Hinv' as (Hi1 & Hi2 & Hi3). destruct sg as [[c y] n]. destruct Hrel as (G1 & G2 & G3 & G4 & G5 & G6 & G7). cbn [fst snd] in *.
    destruct (step_len pend c ltac:(lia) Hpok G3) as (L1 & L2). set (x := xorb pend (firstn (length pend) (E (inc32 c)))) in *.
    match goal with |- context [on_obuf fresh A C idg idg (set_bo C s b') ?f] =>
      assert (O1 : on_obuf fresh A C idg idg (set_bo C s b') f =
        (CS C (c_ibuf C s) (c_used C s) (BO (splice (obuf b') (oend b') x) (obeg b') (oend b'))
          (GST (b_st aes) (inc32 c) (g_buf (c_c C s)) (block_mult (xorb y (pad16 x)) H) n), Ret tt)) end.
    { unfold on_obuf, set_bo. cbn [c_c c_ibuf c_bo c_used]. rewrite G1, G2, G5, G7.
      destruct (ctr_enc_dec_ok c (fresh 16) y n (c_ibuf C s) 0 (obuf b') (oend b') (c_used C s) G3 ltac:(apply fresh_len; lia) ltac:(lia)) as (buf' & Hb' & ->); try lia.
      cbn [bind fst snd g_aes g_ctr g_buf g_mac g_clen]. rewrite (to_nat_sub (c_ibuf C s) 0 (c_used C s)) by lia. rewrite <- Hpend. fold x.
      assert (Hsd : sub (splice (obuf b') (oend b') x) (oend b') (c_used C s) = x) by (apply sub_splice_same; lia).
      rewrite (ghash_block_ok h H Hh y (splice (obuf b') (oend b') x) (oend b') (c_used C s)) by (rewrite ?Hsd, ?zlen_splice; try assumption; lia). rewrite Hsd.
      reflexivity. }
    rewrite O1. clear O1. cbn [bind]. unfold gstep. cbn [andb]. fold x.
    unfold on_obuf, adv_oend, set_bo. cbn [bind fst snd g_aes g_ctr g_buf g_mac g_clen c_c c_ibuf c_bo c_used obuf obeg oend].
    unfold gcm_check, add_clen. cbn [fst snd g_aes g_ctr g_buf g_mac g_clen]. rewrite Hlp. change 0xfffffffe0 with gcm_lim.
    destruct (signed64 ((n + c_used C s) mod 2 ^ 64) >? gcm_lim) eqn:Eg.
    + cbn [bind fst snd]. reflexivity.
    + cbn [bind fst snd g_aes g_ctr g_buf g_mac g_clen].
      destruct (bo_append b' x _ Hinv' ltac:(lia) eq_refl) as (B1 & B2). rewrite L1, Hlp in B1, B2.
      match goal with |- exists s1 sg1, gcm_tag _ _ _ _ _ _ _ _ ?S = _ /\ _ =>
        destruct (Tg S (inc32 c, block_mult (xorb y (pad16 x)) H, (n + c_used C s) mod 2 ^ 64) (q ++ x) pend) as (s1 & sg1 & T1 & T2) end.
      * split; [|split; [exact B1|split; [etransitivity; [exact B2|rewrite Hc', Hq; reflexivity]|]]].
        -- unfold grel. cbn [c_c fst snd g_aes g_ctr g_buf g_mac g_clen]. repeat split; try assumption; try apply blk_block_mult; apply (inc32_ok c G3).
        -- cbn [fst snd c_ibuf c_used]. split; [apply bytes_ok_app; split; assumption|]. change (bc_blocksize C) with 16. repeat split; assumption || lia.
      * exists s1, (sg1, pend). split; assumption.
Qed.

Lemma gcm_dec_fin_ok s sg q : cR (gcm_dec_wrapped A h) (gfn E H false) grel s sg q -> zlen q + 16 <= max_string_length ->
  match gfin E H false hl e0 sg with
  | Ret (o, tag) => exists s1 sg1, gcm_dec_finish fresh A (gcm_dec_wrapped A h) idg idg h hl e0 s = (s1, Ret tag) /\
      cR (gcm_dec_wrapped A h) (gfn E H false) grel s1 sg1 (q ++ o)
  | Raise e => snd (gcm_dec_finish fresh A (gcm_dec_wrapped A h) idg idg h hl e0 s) = Raise e
  | _ => False
  end.
Proof.
  set (C := gcm_dec_wrapped A h). destruct sg as [sg pend]. intros HR Hf.
  pose proof HR as (Hrel & Hinv & Hq & Hqok & Hib & Hused & Hpend & Hpok). cbn [fst snd] in *.
  change (bc_blocksize C) with 16 in *. unfold gfin, gcm_dec_finish. cbn [fst snd].
  assert (Hlp : zlen pend = c_used C s) by (rewrite Hpend; apply zlen_sub; lia). rewrite Hlp.
  assert (Tg := fun s1 sg1 q1 p1 => gcm_tag_ok C idg idg (fun x => eq_refl) false s1 sg1 q1 p1).
  change (crel C idg) with grel in Tg.
  destruct (c_used C s =? 0) eqn:E0.
  - replace (c_used C s >? 0) with false by lia. cbn [bind]. destruct (Tg _ _ _ _ HR) as (s1 & sg1 & E1 & R1).
    exists s1, (sg1, pend). rewrite app_nil_r. split; assumption.
  - replace (c_used C s >? 0) with true by lia. destruct sg as [[c y] n]. destruct Hrel as (G1 & G2 & G3 & G4 & G5 & G6 & G7). cbn [fst snd] in *.
    destruct (step_len pend c ltac:(lia) Hpok G3) as (L1 & L2). set (x := xorb pend (firstn (length pend) (E (inc32 c)))) in *.
    set (y' := block_mult (xorb y (pad16 pend)) H).
    match goal with |- context [on_obuf fresh A C idg idg s ?f] =>
      assert (O1 : on_obuf fresh A C idg idg s f = (CS C (c_ibuf C s) (c_used C s) (c_bo C s) (GST (b_st aes) c (g_buf (c_c C s)) y' n), Ret tt)) end.
    { unfold on_obuf. cbn [fst snd g_aes g_ctr g_buf g_mac g_clen]. rewrite G1, G2, G5, G7.
      rewrite (ghash_block_ok h H Hh y (c_ibuf C s) 0 (c_used C s)) by (rewrite <- ?Hpend; try assumption; lia). rewrite <- Hpend.
      cbn [to_mac bind fst snd g_aes g_ctr g_buf g_mac g_clen c_c c_ibuf c_bo c_used]. destruct (c_bo C s); reflexivity. }
    rewrite O1. clear O1. cbn [bind fst snd c_c c_ibuf c_bo c_used].
    destruct (ensure_capacity_ok fresh fresh_len (c_bo C s) (c_used C s) Hinv ltac:(lia) ltac:(rewrite Hq; lia)) as (b' & He & Hinv' & Hc' & Hroom).
    rewrite He. unfold lift. cbn [fst snd bind c_c c_ibuf c_bo c_used].
    pose proof Hinv' as (Hi1 & Hi2 & Hi3).
    match goal with |- context [on_obuf fresh A C idg idg (set_bo C ?s1 b') ?f] =>
      assert (O1 : on_obuf fresh A C idg idg (set_bo C s1 b') f =
        (CS C (c_ibuf C s) (c_used C s) (BO (splice (obuf b') (oend b') x) (obeg b') (oend b'))
          (GST (b_st aes) (inc32 c) (g_buf (c_c C s)) y' n), Ret tt)) end.
    { unfold on_obuf, set_bo. cbn [c_c c_ibuf c_bo c_used g_aes g_ctr g_buf g_mac g_clen].
      destruct (ctr_enc_dec_ok c (fresh 16) y' n (c_ibuf C s) 0 (obuf b') (oend b') (c_used C s) G3 ltac:(apply fresh_len; lia) ltac:(lia)) as (buf' & Hb' & ->); try lia.
      cbn [bind fst snd g_aes g_ctr g_buf g_mac g_clen]. rewrite (to_nat_sub (c_ibuf C s) 0 (c_used C s)) by lia. rewrite <- Hpend. reflexivity. }
    rewrite O1. clear O1. cbn [bind]. unfold gstep. cbn [andb]. fold x y'.
    unfold on_obuf, adv_oend, set_bo. cbn [bind fst snd g_aes g_ctr g_buf g_mac g_clen c_c c_ibuf c_bo c_used obuf obeg oend].
    unfold add_clen. cbn [fst snd g_aes g_ctr g_buf g_mac g_clen]. rewrite Hlp.
    destruct (bo_append b' x _ Hinv' ltac:(lia) eq_refl) as (B1 & B2). rewrite L1, Hlp in B1, B2.
    match goal with |- exists s1 sg1, gcm_tag _ _ _ _ _ _ _ _ ?S = _ /\ _ =>
      destruct (Tg S (inc32 c, y', (n + c_used C s) mod 2 ^ 64) (q ++ x) pend) as (s1 & sg1 & T1 & T2) end.
    + split; [|split; [exact B1|split; [etransitivity; [exact B2|rewrite Hc', Hq; reflexivity]|]]].
      * unfold grel. cbn [c_c fst snd g_aes g_ctr g_buf g_mac g_clen]. repeat split; try assumption; try apply blk_block_mult; apply (inc32_ok c G3).
      * cbn [fst snd c_ibuf c_used]. split; [apply bytes_ok_app; split; assumption|]. change (bc_blocksize C) with 16. repeat split; assumption || lia.
    + exists s1, (sg1, pend). split; assumption.
Qed.
End Obj.
