(* Proofs: the schedules of TransformModel.v give every sequence of short reads that Stdlib.input allows. *)
From Verif Require Import Prelude PreludeFacts TransformModel.

(* the pieces that k successive calls input ic buf 0 n deliver *)
Fixpoint reads (sched : nat -> Z) (n : Z) (k : nat) (ch : channel) (buf : bytes) : list bytes :=
  match k with
  | O => []
  | S k => let '(ch', buf', r) := input sched ch buf n in firstn (Z.to_nat r) buf' :: reads sched n k ch' buf'
  end.

Lemma reads_all (l : list bytes) : forall n c buf rest, 0 < n -> zlen buf = n -> Forall (fun p => 1 <= zlen p <= n) l ->
  forall sched, (forall i, (i < length l)%nat -> sched (c + i)%nat = zlen (nth i l [])) ->
  reads sched n (length l) (Channel (concat l ++ rest) c) buf = l.
Proof.
  induction l as [|p l IH]; intros n c buf rest Hn Hb Hl sched Hs; [reflexivity|].
  apply Forall_cons_iff in Hl as (Hp & Hl). cbn [length reads concat]. unfold input, input_amount. cbn [ch_data ch_calls].
  pose proof (Hs 0%nat ltac:(cbn; lia)) as H0. rewrite Nat.add_0_r in H0. cbn [nth] in H0. rewrite H0.
  assert (Z.min (Z.min n (zlen ((p ++ concat l) ++ rest))) (Z.max 1 (zlen p)) = zlen p) as ->.
  { rewrite !zlen_app. pose proof (zlen_nonneg (concat l)). pose proof (zlen_nonneg rest). lia. }
  assert (Z.to_nat (zlen p) = length p) as -> by (unfold zlen; lia).
  rewrite <- app_assoc, firstn_app, Nat.sub_diag, firstn_all, firstn_O, app_nil_r, skipn_app, skipn_all, Nat.sub_diag. cbn [skipn app].
  f_equal.
  - unfold splice. cbn [Z.to_nat firstn app]. rewrite firstn_app, Nat.sub_diag, firstn_all, firstn_O, app_nil_r. reflexivity.
  - apply IH; [lia| |exact Hl|].
    + unfold splice. cbn [Z.to_nat firstn app]. unfold zlen in *. rewrite app_length, skipn_length. lia.
    + intros i Hi. replace (S c + i)%nat with (c + S i)%nat by lia. rewrite Hs by (cbn; lia). reflexivity.
Qed.
Lemma every_short_read n l rest buf : 0 < n -> zlen buf = n -> Forall (fun p => 1 <= zlen p <= n) l ->
  exists sched, reads sched n (length l) (Channel (concat l ++ rest) 0) buf = l.
Proof. intros Hn Hb Hl. exists (fun i => zlen (nth i l [])). apply reads_all; auto. Qed.
