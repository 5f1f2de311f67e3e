(* Facts about buffered_output: refinement to a FIFO queue. *)
From Verif Require Import Prelude PreludeFacts BufOutModel.
Ltac Zify.zify_post_hook ::= Z.div_mod_to_equations.

(* pending output *)
Definition bo_contents (b : bo) : bytes := sub (obuf b) (obeg b) (oend b - obeg b).

Definition bo_inv (b : bo) : Prop :=
  0 <= obeg b <= oend b /\ oend b <= zlen (obuf b) /\
  0 < zlen (obuf b) <= max_string_length.

Lemma bo_contents_len b : bo_inv b -> zlen (bo_contents b) = oend b - obeg b.
Proof. intros (H1 & H2 & H3). unfold bo_contents. apply zlen_sub; lia. Qed.

Lemma grow_loop_ok need : 0 <= need <= 2 ^ 61 ->
  forall fuel newlen, 0 < newlen -> newlen < 2 ^ 62 -> 
  need <= newlen * 2 ^ (Z.of_nat fuel) ->
  exists r, grow_loop (S fuel) need newlen = Some r /\ need <= r /\ newlen <= r /\
            (r < 2 * need \/ r = newlen).
Proof.
  intros Hneed. induction fuel as [|fuel IH]; intros newlen Hpos Hlt Hfuel.
  - cbn [grow_loop]. rewrite Z.pow_0_r in Hfuel.
    replace (need >? newlen) with false by lia. exists newlen. repeat split; lia.
  - cbn [grow_loop]. destruct (need >? newlen) eqn:E.
    + assert (newlen * 2 < 2 ^ 62) by lia.
      rewrite wrap63_id by (unfold is_int; lia).
      destruct (IH (newlen * 2)) as (r & Hr & H1 & H2 & H3); try lia.
      { rewrite Nat2Z.inj_succ, Z.pow_succ_r in Hfuel by lia. lia. }
      exists r. cbn [grow_loop] in Hr. rewrite Hr. repeat split; lia.
    + exists newlen. repeat split; lia.
Qed.

Lemma grow_loop_le_0 fuel need : 0 < need -> grow_loop fuel need 0 = None.
Proof.
  intros H. induction fuel as [|f IH]; cbn [grow_loop]; [reflexivity|].
  replace (need >? 0) with true by lia. exact IH.
Qed.

(* A request above 2^61 makes the doubling loop run forever when it starts
   from a power of two (the initial buffer sizes are 256, 512, ...). *)
Lemma grow_loop_hang need : 2 ^ 61 < need < 2 ^ 62 ->
  forall k fuel, 0 <= k <= 61 -> grow_loop fuel need (2 ^ k) = None.
Proof.
  intros Hn k fuel Hk.
  revert k Hk. induction fuel as [|f IH]; intros k Hk; [reflexivity|].
  cbn [grow_loop].
  assert (2 ^ k <= 2 ^ 61) by (apply Z.pow_le_mono_r; lia).
  replace (need >? 2 ^ k) with true by lia.
  destruct (Z.eq_dec k 61) as [->|Hk'].
  - replace (wrap63 (2 ^ 61 * 2)) with (- 2 ^ 62) by reflexivity.
    destruct f as [|f]; [reflexivity|]. cbn [grow_loop].
    replace (need >? - 2 ^ 62) with true by lia.
    replace (wrap63 (- 2 ^ 62 * 2)) with 0 by reflexivity.
    apply grow_loop_le_0. lia.
  - assert (2 ^ k * 2 <= 2 ^ 61).
    { replace (2 ^ k * 2) with (2 ^ (k + 1)) by (rewrite Z.pow_add_r by lia; lia).
      apply Z.pow_le_mono_r; lia. }
    rewrite wrap63_id by (unfold is_int; assert (0 < 2 ^ k) by (apply Z.pow_pos_nonneg; lia); lia).
    replace (2 ^ k * 2) with (2 ^ (k + 1)) by (rewrite Z.pow_add_r by lia; lia).
    apply IH; lia.
Qed.

Section BufOutFacts.
Variable fresh : Z -> bytes.
Hypothesis fresh_len : forall n, 0 <= n -> zlen (fresh n) = n.

Lemma bo_new_inv n : 0 < n <= max_string_length -> bo_inv (bo_new fresh n).
Proof.
  intros H. unfold bo_inv, bo_new. cbn [obuf obeg oend].
  rewrite fresh_len by lia. lia.
Qed.

Lemma bo_new_contents n : bo_contents (bo_new fresh n) = [].
Proof. reflexivity. Qed.

Lemma max_small : max_string_length < 2 ^ 57.
Proof. unfold max_string_length; lia. Qed.

(* The request fits: pending output is kept and there is room for n bytes. *)
Lemma ensure_capacity_ok b n : bo_inv b -> 0 <= n ->
  zlen (bo_contents b) + n <= max_string_length ->
  exists b', ensure_capacity fresh b n = (b', Ret tt) /\ bo_inv b' /\
             bo_contents b' = bo_contents b /\ oend b' + n <= zlen (obuf b').
Proof.
  intros Hinv Hn Hfit. rewrite bo_contents_len in Hfit by assumption.
  pose proof Hinv as (H1 & H2 & H3). pose proof max_small.
  unfold ensure_capacity.
  rewrite (wrap63_id (oend b + n)) by (unfold is_int; lia).
  destruct (oend b + n >? zlen (obuf b)) eqn:E1.
  2:{ exists b. repeat split; try assumption; try lia. }
  rewrite (wrap63_id (oend b - obeg b + n)) by (unfold is_int; lia).
  destruct (oend b - obeg b + n <? zlen (obuf b)) eqn:E2.
  - rewrite blit_ok by lia.
    eexists; split; [reflexivity|].
    assert (Hl : zlen (splice (obuf b) 0 (sub (obuf b) (obeg b) (oend b - obeg b)))
            = zlen (obuf b)).
    { apply zlen_splice; rewrite ?zlen_sub; lia. }
    unfold bo_inv, bo_contents; cbn [obuf obeg oend]. rewrite Hl, Z.sub_0_r.
    repeat split; try lia.
    apply sub_splice_same; rewrite ?zlen_sub; lia.
  - set (need := oend b - obeg b + n) in *.
    rewrite (wrap63_id (2 * zlen (obuf b))) by (unfold is_int; lia).
    destruct (grow_loop_ok need ltac:(lia) 127 (2 * zlen (obuf b))) as (r & Hr & Hr1 & Hr2 & Hr3);
      try lia.
    change (S 127) with grow_fuel in Hr. rewrite Hr.
    assert (Halloc : forall len', need <= len' <= max_string_length -> 
      exists b', match blit (obuf b) (obeg b) (fresh len') 0 (oend b - obeg b) with
          | Ret ob => (BO ob 0 (oend b - obeg b), Ret tt)
          | Raise e => (b, Raise e)
          | Undef => (b, Undef)
          | Hang => (b, Hang)
          end = (b', Ret tt) /\ bo_inv b' /\
             bo_contents b' = bo_contents b /\ oend b' + n <= zlen (obuf b')).
    { intros len' Hlen'. assert (Hf : zlen (fresh len') = len') by (apply fresh_len; lia).
      rewrite blit_ok by lia.
      eexists; split; [reflexivity|].
      assert (Hl : zlen (splice (fresh len') 0 (sub (obuf b) (obeg b) (oend b - obeg b)))
              = len').
      { rewrite zlen_splice; rewrite ?zlen_sub; lia. }
      unfold bo_inv, bo_contents; cbn [obuf obeg oend]. rewrite Hl, Z.sub_0_r.
      repeat split; try lia.
      apply sub_splice_same; rewrite ?zlen_sub; lia. }
    destruct (r >? max_string_length) eqn:E3.
    + replace (need <=? max_string_length) with true by lia.
      apply Halloc; lia.
    + apply Halloc; lia.
Qed.

(* The request does not fit: clean failure, nothing changed. *)
Lemma ensure_capacity_overflow b n : bo_inv b -> 0 <= n -> oend b - obeg b + n <= 2 ^ 61 ->
  zlen (bo_contents b) + n > max_string_length ->
  ensure_capacity fresh b n = (b, Raise (Error Output_buffer_overflow)).
Proof.
  intros Hinv Hn Hn2 Hfit. rewrite bo_contents_len in Hfit by assumption.
  pose proof Hinv as (H1 & H2 & H3). pose proof max_small.
  unfold ensure_capacity.
  rewrite (wrap63_id (oend b + n)) by (unfold is_int; lia).
  replace (oend b + n >? zlen (obuf b)) with true by lia.
  rewrite (wrap63_id (oend b - obeg b + n)) by (unfold is_int; lia).
  replace (oend b - obeg b + n <? zlen (obuf b)) with false by lia.
  set (need := oend b - obeg b + n) in *.
  rewrite (wrap63_id (2 * zlen (obuf b))) by (unfold is_int; lia).
  destruct (grow_loop_ok need ltac:(lia) 127 (2 * zlen (obuf b))) as (r & Hr & Hr1 & Hr2 & Hr3);
    try lia.
  change (S 127) with grow_fuel in Hr. rewrite Hr.
  replace (r >? max_string_length) with true by lia.
  replace (need <=? max_string_length) with false by lia.
  reflexivity.
Qed.

End BufOutFacts.

(* writing l at oend and advancing oend *)
Lemma bo_append b l ob : bo_inv b -> oend b + zlen l <= zlen (obuf b) ->
  ob = splice (obuf b) (oend b) l ->
  bo_inv (BO ob (obeg b) (oend b + zlen l)) /\
  bo_contents (BO ob (obeg b) (oend b + zlen l)) = bo_contents b ++ l.
Proof.
  intros (H1 & H2 & H3) Hroom ->. pose proof (zlen_nonneg l).
  split.
  - unfold bo_inv; cbn [obuf obeg oend]. rewrite zlen_splice by lia. lia.
  - unfold bo_contents; cbn [obuf obeg oend].
    replace (oend b + zlen l - obeg b) with ((oend b - obeg b) + zlen l) by lia.
    rewrite sub_app_split by lia.
    rewrite sub_splice_before by lia.
    replace (obeg b + (oend b - obeg b)) with (oend b) by lia.
    rewrite sub_splice_same by lia. reflexivity.
Qed.

Lemma bo_get_string_ok b : bo_inv b ->
  exists b', bo_get_string b = (b', Ret (bo_contents b)) /\ bo_inv b' /\ bo_contents b' = [].
Proof.
  intros (H1 & H2 & H3). unfold bo_get_string, bytes_sub.
  replace (in_range (obuf b) (obeg b) (oend b - obeg b)) with true
    by (symmetry; apply in_range_true; lia).
  eexists; split; [reflexivity|]. split; [|reflexivity].
  unfold bo_inv; cbn [obuf obeg oend]; lia.
Qed.

Lemma bo_get_substring_ok b : bo_inv b ->
  exists b', bo_get_substring b = (b', Ret (obuf b, obeg b, zlen (bo_contents b))) /\
   in_range (obuf b) (obeg b) (zlen (bo_contents b)) = true /\
   sub (obuf b) (obeg b) (zlen (bo_contents b)) = bo_contents b /\
   bo_inv b' /\ bo_contents b' = [].
Proof.
  intros Hinv. rewrite bo_contents_len by assumption. destruct Hinv as (H1 & H2 & H3).
  unfold bo_get_substring. eexists; split; [reflexivity|].
  repeat split; try (unfold bo_inv; cbn [obuf obeg oend]; lia).
  apply in_range_true; lia.
Qed.

Lemma bo_get_char_ok b : bo_inv b ->
  match bo_contents b with
  | [] => bo_get_char b = (b, Raise End_of_file)
  | c :: q => exists b', bo_get_char b = (b', Ret c) /\ bo_inv b' /\ bo_contents b' = q
  end.
Proof.
  intros Hinv. pose proof (bo_contents_len b Hinv) as Hlen. destruct Hinv as (H1 & H2 & H3).
  unfold bo_get_char. destruct (bo_contents b) as [|c q] eqn:E.
  - rewrite zlen_nil in Hlen. replace (obeg b >=? oend b) with true by lia. reflexivity.
  - rewrite zlen_cons in Hlen. pose proof (zlen_nonneg q).
    replace (obeg b >=? oend b) with false by lia.
    unfold bytes_get.
    replace ((0 <=? obeg b) && (obeg b <? zlen (obuf b))) with true by lia.
    assert (Hc : sub (obuf b) (obeg b) 1 ++ sub (obuf b) (obeg b + 1) (oend b - obeg b - 1) = c :: q).
    { rewrite <- sub_app_split by lia. rewrite <- E. unfold bo_contents. f_equal. lia. }
    assert (Hs : sub (obuf b) (obeg b) 1 = [nthZ (obuf b) (obeg b)]).
    { unfold sub, nthZ. unfold zlen in H2.
      assert (Hn : (Z.to_nat (obeg b) < length (obuf b))%nat) by (unfold zlen in *; lia).
      clear -Hn. revert Hn. generalize (Z.to_nat (obeg b)) as i, (obuf b) as l.
      induction i as [|i IH]; intros [|x l] Hn; cbn [length] in Hn; try lia; [reflexivity|].
      cbn [skipn nth]. apply IH; lia. }
    rewrite Hs in Hc. cbn [app] in Hc. injection Hc as Hc1 Hc2.
    eexists; split; [rewrite Hc1; reflexivity|].
    split; [unfold bo_inv; cbn [obuf obeg oend]; lia|].
    unfold bo_contents; cbn [obuf obeg oend].
    replace (oend b - (obeg b + 1)) with (oend b - obeg b - 1) by lia. exact Hc2.
Qed.
