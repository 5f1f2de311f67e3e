(* Proofs for C108. *)
From Verif Require Import Prelude PreludeFacts BufOutModel BufOut BufHistory BufWordModel SpecBufWord.
Ltac Zify.zify_post_hook ::= Z.div_mod_to_equations.

Section Word.
Variables width max_len : Z.
Hypothesis Hw : 2 <= width.
Hypothesis Hm : 4 * max_len <= 2 ^ (width - 1).
Hypothesis Hm2 : max_len <= max_string_length.
Variable fresh : Z -> bytes.
Hypothesis fresh_len : forall n, 0 <= n -> zlen (fresh n) = n.
Notation wrap_int := (wrap_int width).

Definition bo_inv_w (b : bo) : Prop := bo_inv b /\ zlen (obuf b) <= max_len.

Lemma pow_1 : 2 ^ (width - 1) = 2 * 2 ^ (width - 2).
Proof. replace (width - 1) with (Z.succ (width - 2)) by lia. apply Z.pow_succ_r. lia. Qed.
Lemma pow_0 : 2 ^ width = 2 * 2 ^ (width - 1).
Proof. replace width with (Z.succ (width - 1)) at 1 by lia. apply Z.pow_succ_r. lia. Qed.

Lemma wrap_w_id x : - 2 ^ (width - 1) <= x < 2 ^ (width - 1) -> wrap_int x = x.
Proof. intros H. unfold BufWordModel.wrap_int. rewrite Z.mod_small; [lia|]. rewrite pow_0. lia. Qed.

Lemma fuel_enough need l : 0 <= need <= 2 ^ (width - 2) -> 0 < l -> need <= l * 2 ^ Z.of_nat (S (Z.to_nat width)).
Proof.
  intros H1 H2. assert (2 ^ (width - 2) <= 2 ^ Z.of_nat (S (Z.to_nat width))) by (apply Z.pow_le_mono_r; lia). nia.
Qed.

Lemma bo_new_inv_w n : 0 < n <= max_len -> bo_inv_w (bo_new fresh n).
Proof.
  intros H. split; [apply bo_new_inv; [assumption|lia]|]. unfold bo_new. cbn [obuf]. rewrite fresh_len; lia.
Qed.

Lemma glw_ok need : 0 <= need <= 2 ^ (width - 2) ->
  forall fuel newlen, 0 < newlen -> newlen < 2 ^ (width - 1) -> 
  need <= newlen * 2 ^ (Z.of_nat fuel) ->
  exists r, grow_loop_w width (S fuel) need newlen = Some r /\ need <= r /\ newlen <= r /\
            (r < 2 * need \/ r = newlen).
Proof.
  pose proof pow_1 as P1. intros Hneed. induction fuel as [|fuel IH]; intros newlen Hpos Hlt Hfuel.
  - cbn [grow_loop_w]. rewrite Z.pow_0_r in Hfuel.
    replace (need >? newlen) with false by lia. exists newlen. repeat split; lia.
  - cbn [grow_loop_w]. destruct (need >? newlen) eqn:E.
    + assert (newlen * 2 < 2 ^ (width - 1)) by lia.
      rewrite wrap_w_id by (lia).
      destruct (IH (newlen * 2)) as (r & Hr & H1 & H2 & H3); try lia.
      { rewrite Nat2Z.inj_succ, Z.pow_succ_r in Hfuel by lia. lia. }
      exists r. cbn [grow_loop_w] in Hr. rewrite Hr. repeat split; lia.
    + exists newlen. repeat split; lia.
Qed.

(* The request fits: pending output is kept and there is room for n bytes. *)
Lemma ensure_capacity_w_ok b n : bo_inv_w b -> 0 <= n ->
  zlen (bo_contents b) + n <= max_len ->
  exists b', ensure_capacity_w width max_len fresh b n = (b', Ret tt) /\ bo_inv_w b' /\
             bo_contents b' = bo_contents b /\ oend b' + n <= zlen (obuf b').
Proof.
  pose proof pow_1 as P1. intros Hinv Hn Hfit. rewrite bo_contents_len in Hfit by apply Hinv.
  pose proof Hinv as ((H1 & H2 & H3) & H4).
  unfold ensure_capacity_w.
  rewrite (wrap_w_id (oend b + n)) by (lia).
  destruct (oend b + n >? zlen (obuf b)) eqn:E1.
  2:{ exists b. repeat split; try assumption; try lia. }
  rewrite (wrap_w_id (oend b - obeg b + n)) by (lia).
  destruct (oend b - obeg b + n <? zlen (obuf b)) eqn:E2.
  - rewrite blit_ok by lia.
    eexists; split; [reflexivity|].
    assert (Hl : zlen (splice (obuf b) 0 (sub (obuf b) (obeg b) (oend b - obeg b)))
            = zlen (obuf b)).
    { apply zlen_splice; rewrite ?zlen_sub; lia. }
    unfold bo_inv_w, bo_inv, bo_contents; cbn [obuf obeg oend]. rewrite Hl, Z.sub_0_r.
    repeat split; try lia.
    apply sub_splice_same; rewrite ?zlen_sub; lia.
  - set (need := oend b - obeg b + n) in *.
    rewrite (wrap_w_id (2 * zlen (obuf b))) by (lia).
    destruct (glw_ok need ltac:(lia) (S (Z.to_nat width)) (2 * zlen (obuf b))) as (r & Hr & Hr1 & Hr2 & Hr3);
      [lia|lia|apply fuel_enough; lia|].
    replace (S (S (Z.to_nat width))) with (grow_fuel_w width) in Hr by (unfold grow_fuel_w; lia). rewrite Hr.
    assert (Halloc : forall len', need <= len' <= max_len -> 
      exists b', match blit (obuf b) (obeg b) (fresh len') 0 (oend b - obeg b) with
          | Ret ob => (BO ob 0 (oend b - obeg b), Ret tt)
          | Raise e => (b, Raise e)
          | Undef => (b, Undef)
          | Hang => (b, Hang)
          end = (b', Ret tt) /\ bo_inv_w b' /\
             bo_contents b' = bo_contents b /\ oend b' + n <= zlen (obuf b')).
    { intros len' Hlen'. assert (Hf : zlen (fresh len') = len') by (apply fresh_len; lia).
      rewrite blit_ok by lia.
      eexists; split; [reflexivity|].
      assert (Hl : zlen (splice (fresh len') 0 (sub (obuf b) (obeg b) (oend b - obeg b)))
              = len').
      { rewrite zlen_splice; rewrite ?zlen_sub; lia. }
      unfold bo_inv_w, bo_inv, bo_contents; cbn [obuf obeg oend]. rewrite Hl, Z.sub_0_r.
      repeat split; try lia.
      apply sub_splice_same; rewrite ?zlen_sub; lia. }
    destruct (r >? max_len) eqn:E3.
    + replace (need <=? max_len) with true by lia.
      apply Halloc; lia.
    + apply Halloc; lia.
Qed.

(* The request does not fit: clean failure, nothing changed. *)
Lemma ensure_capacity_w_overflow b n : bo_inv_w b -> 0 <= n -> oend b - obeg b + n <= 2 ^ (width - 2) ->
  zlen (bo_contents b) + n > max_len ->
  ensure_capacity_w width max_len fresh b n = (b, Raise (Error Output_buffer_overflow)).
Proof.
  pose proof pow_1 as P1. intros Hinv Hn Hn2 Hfit. rewrite bo_contents_len in Hfit by apply Hinv.
  pose proof Hinv as ((H1 & H2 & H3) & H4).
  unfold ensure_capacity_w.
  rewrite (wrap_w_id (oend b + n)) by (lia).
  replace (oend b + n >? zlen (obuf b)) with true by lia.
  rewrite (wrap_w_id (oend b - obeg b + n)) by (lia).
  replace (oend b - obeg b + n <? zlen (obuf b)) with false by lia.
  set (need := oend b - obeg b + n) in *.
  rewrite (wrap_w_id (2 * zlen (obuf b))) by (lia).
  destruct (glw_ok need ltac:(lia) (S (Z.to_nat width)) (2 * zlen (obuf b))) as (r & Hr & Hr1 & Hr2 & Hr3);
    [lia|lia|apply fuel_enough; lia|].
  replace (S (S (Z.to_nat width))) with (grow_fuel_w width) in Hr by (unfold grow_fuel_w; lia). rewrite Hr.
  replace (r >? max_len) with true by lia.
  replace (need <=? max_len) with false by lia.
  reflexivity.
Qed.

Lemma bstep_w_ok b o : bo_inv_w b -> bop_fits max_len o ->
  snd (bstep_w width max_len fresh b o) = snd (bounded_step max_len (bo_contents b) o) /\
  bo_inv_w (fst (bstep_w width max_len fresh b o)) /\
  bo_contents (fst (bstep_w width max_len fresh b o)) = fst (bounded_step max_len (bo_contents b) o).
Proof.
  intros Hi Ho. pose proof pow_1 as P1. pose proof Hi as (Hi0 & Hcap).
  destruct o as [l| | | |]; cbn [bstep_w bounded_step].
  - unfold produce_w. pose proof (zlen_nonneg l). cbn [bop_fits] in Ho.
    destruct (zlen (bo_contents b) + zlen l <=? max_len) eqn:E.
    + destruct (ensure_capacity_w_ok b (zlen l) Hi ltac:(lia) ltac:(lia)) as (b' & -> & (Hi' & Hcap') & Hc & Hr).
      cbn [bind]. destruct Hi' as (I1 & I2 & I3). rewrite blit_ok by lia.
      rewrite sub_0_all by lia. cbn [fst snd obs_of].
      destruct (bo_append b' l _ (conj I1 (conj I2 I3)) Hr eq_refl) as (A1 & A2). rewrite A2, Hc.
      repeat split; try apply A1. cbn [obuf]. rewrite zlen_splice; lia.
    + pose proof (bo_contents_len b Hi0) as Hl. pose proof Hi0 as (H1 & H2 & H3).
      rewrite (ensure_capacity_w_overflow b (zlen l)); try assumption; try lia.
      cbn [bind fst snd obs_of]. auto.
  - cbn [fst snd]. rewrite (bo_contents_len b Hi0). auto.
  - destruct (bo_get_string_ok b Hi0) as (b' & E & H1 & H2). 
    assert (G : obuf b' = obuf b) by (unfold bo_get_string in E; destruct (bytes_sub _ _ _); inversion E; reflexivity).
    rewrite E. cbn [fst snd obs_of]. unfold bo_inv_w. rewrite G. auto.
  - destruct (bo_get_substring_ok b Hi0) as (b' & E & H1 & H2 & H3 & H4). 
    assert (G : obuf b' = obuf b) by (unfold bo_get_substring in E; inversion E; reflexivity).
    rewrite E. cbn [fst snd obs_of].
    rewrite H1, H2. unfold bo_inv_w. rewrite G. auto.
  - assert (G : obuf (fst (bo_get_char b)) = obuf b).
    { unfold bo_get_char. destruct (obeg b >=? oend b); [reflexivity|]. destruct (bytes_get _ _); reflexivity. }
    pose proof (bo_get_char_ok b Hi0) as H. destruct (bo_contents b) as [|c q] eqn:E.
    + rewrite H in *. cbn [fst snd obs_of] in *. auto.
    + destruct H as (b' & E' & H1 & H2). rewrite E' in *. cbn [fst snd obs_of] in *.
      unfold bo_inv_w. rewrite G. auto.
Qed.

Lemma brun_w_ok ops : forall b, bo_inv_w b -> Forall (bop_fits max_len) ops ->
  brun_w width max_len fresh b ops = bounded_run max_len (bo_contents b) ops.
Proof.
  induction ops as [|o ops IH]; intros b Hi Ho; [reflexivity|].
  apply Forall_cons_iff in Ho. destruct Ho as (Ho1 & Ho2). cbn [brun_w bounded_run].
  destruct (bstep_w_ok b o Hi Ho1) as (H1 & H2 & H3). rewrite H1, IH, H3 by assumption. reflexivity.
Qed.

Lemma buffer_is_queue_w n ops : 0 < n <= max_len -> Forall (bop_fits max_len) ops ->
  brun_w width max_len fresh (bo_new fresh n) ops = bounded_run max_len [] ops.
Proof.
  intros Hn Ho. rewrite brun_w_ok; [|apply bo_new_inv_w; assumption|assumption].
  rewrite bo_new_contents. reflexivity.
Qed.
End Word.

Lemma len_32 : 4 * max_len_32 <= 2 ^ (31 - 1) /\ max_len_32 <= max_string_length.
Proof. unfold max_len_32, max_string_length. lia. Qed.
Lemma len_64 : max_len_64 = max_string_length.
Proof. reflexivity. Qed.

Definition len_is (fresh : Z -> bytes) : Prop := forall n, 0 <= n -> zlen (fresh n) = n.

Lemma queue_32 fresh n ops : len_is fresh -> 0 < n <= max_len_32 -> Forall (bop_fits max_len_32) ops ->
  brun_w 31 max_len_32 fresh (bo_new fresh n) ops = bounded_run max_len_32 [] ops.
Proof. intros Hf Hn Ho. apply buffer_is_queue_w; try assumption; try apply len_32; lia. Qed.

Lemma queue_64 fresh n ops : len_is fresh -> 0 < n <= max_len_64 -> Forall (bop_fits max_len_64) ops ->
  brun_w 63 max_len_64 fresh (bo_new fresh n) ops = bounded_run max_len_64 [] ops.
Proof.
  intros Hf Hn Ho. apply buffer_is_queue_w; try assumption; try lia; unfold max_len_64, max_string_length; lia.
Qed.

Lemma bounded_q ops : forall q, bounded_run max_len_64 q ops = qrun q ops.
Proof.
  induction ops as [|o ops IH]; intros q; [reflexivity|]. cbn [bounded_run qrun]. rewrite IH. destruct o; reflexivity.
Qed.

Lemma bounded_same n n' ops : n <= n' -> forall q,
  ~ In (BExn (Error Output_buffer_overflow)) (bounded_run n q ops) ->
  bounded_run n q ops = bounded_run n' q ops.
Proof.
  intros Hn. induction ops as [|o ops IH]; intros q H; [reflexivity|]. cbn [bounded_run] in *.
  assert (E : bounded_step n q o = bounded_step n' q o).
  { destruct o as [l| | | |]; try reflexivity. cbn [bounded_step] in *.
    destruct (zlen q + zlen l <=? n) eqn:E.
    - replace (zlen q + zlen l <=? n') with true by lia. reflexivity.
    - exfalso. apply H. left. reflexivity. }
  rewrite <- E. f_equal. apply IH. intros G. apply H. right. exact G.
Qed.

Lemma same_32_64 fresh n ops : len_is fresh -> 0 < n <= max_len_32 -> Forall (bop_fits max_len_32) ops ->
  ~ In (BExn (Error Output_buffer_overflow)) (bounded_run max_len_32 [] ops) ->
  brun_w 31 max_len_32 fresh (bo_new fresh n) ops = brun fresh (bo_new fresh n) ops.
Proof.
  intros Hf Hn Ho Hno. pose proof (proj2 len_32) as L. rewrite queue_32, (bounded_same _ max_len_64), bounded_q by assumption.
  symmetry. apply buffer_is_queue; [assumption|lia|].
  eapply Forall_impl; [|exact Ho]. intros [l| | | |] H; cbn in *; lia.
Qed.

Lemma model_64 fresh n ops : len_is fresh -> 0 < n <= max_len_64 -> Forall bop_ok ops ->
  brun_w 63 max_len_64 fresh (bo_new fresh n) ops = brun fresh (bo_new fresh n) ops.
Proof.
  intros Hf Hn Ho. rewrite queue_64, bounded_q by assumption. symmetry.
  apply buffer_is_queue; assumption.
Qed.

Lemma differ_32_64 : exists ops, Forall (bop_fits max_len_32) ops /\ forall fresh n, len_is fresh -> 0 < n <= max_len_32 ->
  brun_w 31 max_len_32 fresh (bo_new fresh n) ops = [BUnit; BExn (Error Output_buffer_overflow); BInt max_len_32] /\
  brun fresh (bo_new fresh n) ops = [BUnit; BUnit; BInt (max_len_32 + 1)].
Proof.
  set (l := zeros max_len_32).
  assert (L : zlen l = max_len_32) by (apply zlen_zeros; discriminate).
  pose proof (proj2 len_32) as L2. clearbody l.
  assert (F : Forall (bop_fits max_len_32) [Produce l; Produce [7]; Available]).
  { repeat constructor; cbn [bop_fits]; [lia|discriminate]. }
  exists [Produce l; Produce [7]; Available]. split; [exact F|]. intros fresh n Hf Hn. split.
  - rewrite queue_32 by assumption. cbn [bounded_run bounded_step fst snd app].
    change (zlen (@nil Z)) with 0. change (zlen [7]) with 1. rewrite L.
    replace (0 + max_len_32 <=? max_len_32) with true by lia. cbn [fst snd]. rewrite L.
    replace (max_len_32 + 1 <=? max_len_32) with false by lia. cbn [fst snd]. rewrite L. reflexivity.
  - rewrite buffer_is_queue; [|assumption|lia|eapply Forall_impl; [|exact F]; intros [x| | | |] H; cbn in *; lia].
    cbn [qrun qstep fst snd app].
    change (zlen (@nil Z)) with 0. change (zlen [7]) with 1. rewrite L.
    replace (0 + max_len_32 <=? max_string_length) with true by lia. cbn [fst snd]. rewrite L.
    replace (max_len_32 + 1 <=? max_string_length) with true by (unfold max_len_32, max_string_length; lia).
    cbn [fst snd]. rewrite zlen_app, L. reflexivity.
Qed.
