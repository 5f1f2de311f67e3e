(* Proofs about the array lent by get_substring. *)
From Verif Require Import Prelude PreludeFacts BufOutModel BufOut BufHistory LentModel SpecLent.

Section Lent.
Variable fresh : Z -> bytes.
Hypothesis fresh_len : forall n, 0 <= n -> zlen (fresh n) = n.
Lemma lwrite_ok b x : bo_inv b -> bo_contents b = [] -> bo_inv (lwrite b x) /\ bo_contents (lwrite b x) = [].
Proof.
  intros Hi Hc. unfold lwrite. destruct (zlen x =? zlen (obuf b)) eqn:E; [|auto]. apply Z.eqb_eq in E.
  pose proof (bo_contents_len b Hi) as L. rewrite Hc in L. change (zlen (@nil Z)) with 0 in L. destruct Hi as (H1 & H2 & H3). split.
  - unfold bo_inv. cbn [obuf obeg oend]. rewrite E. auto.
  - unfold bo_contents. cbn [obuf obeg oend]. rewrite <- L. reflexivity.
Qed.
Lemma lrun_ok ops : forall b lent, bo_inv b -> (lent = true -> bo_contents b = []) -> Forall bop_ok (calls ops) -> polite lent ops = true ->
  lrun fresh b ops = qrun (bo_contents b) (calls ops).
Proof.
  induction ops as [|[o|x] ops IH]; intros b lent Hi Hl Ho Hp; [reflexivity|..]; cbn [lrun calls flat_map app].
  - cbn [calls flat_map app] in Ho. apply Forall_cons_iff in Ho. destruct Ho as (Ho1 & Ho). destruct (bstep_ok fresh fresh_len b o Hi Ho1) as (S1 & S2 & S3).
    cbn [qrun]. rewrite S1. f_equal. fold (calls ops). rewrite <- S3.
    apply (IH _ (match o with GetSub => true | Produce _ => false | _ => lent end) S2); [|exact Ho|destruct o; exact Hp].
    rewrite S3. destruct o; try discriminate; cbn [qstep fst]; intros Q; try reflexivity; rewrite ?(Hl Q); reflexivity.
  - cbn [polite] in Hp. apply andb_prop in Hp. destruct Hp as (-> & Hp). destruct (lwrite_ok b x Hi (Hl eq_refl)) as (W1 & W2).
    rewrite (IH (lwrite b x) true W1 (fun _ => W2) Ho Hp), W2, (Hl eq_refl). reflexivity.
Qed.
Theorem lent_writes n ops : 0 < n <= max_string_length -> Forall bop_ok (calls ops) -> polite false ops = true ->
  lrun fresh (bo_new fresh n) ops = qrun [] (calls ops).
Proof.
  intros Hn Ho Hp. rewrite <- (bo_new_contents fresh n). apply (lrun_ok ops _ false); [apply (bo_new_inv fresh fresh_len n Hn)|discriminate|exact Ho|exact Hp].
Qed.
(* the bytes stay in place until the next production *)
Lemma quiet_obuf b o : quiet o = true -> obuf (fst (bstep fresh b o)) = obuf b.
Proof.
  destruct o; try discriminate; intros _; cbn [bstep fst]; try reflexivity.
  - unfold bo_get_string. destruct (bytes_sub (obuf b) (obeg b) (oend b - obeg b)); reflexivity.
  - unfold bo_get_char. destruct (obeg b >=? oend b); [reflexivity|]. destruct (bytes_get (obuf b) (obeg b)); reflexivity.
Qed.
Theorem lent_reads b buf ofs len b1 ops : bo_inv b -> bo_get_substring b = (b1, Ret (buf, ofs, len)) -> forallb quiet ops = true ->
  sub buf ofs len = bo_contents b /\ obuf (bafter fresh b1 ops) = buf.
Proof.
  intros Hi Hg Hq. destruct (bo_get_substring_ok b Hi) as (b' & E & H1 & H2 & H3 & H4). rewrite Hg in E. injection E as -> -> -> ->. split; [exact H2|].
  unfold bafter. assert (G : obuf b' = obuf b) by (unfold bo_get_substring in Hg; injection Hg as <-; reflexivity). rewrite <- G. clear - Hq.
  revert b'. induction ops as [|o ops IH]; intros b'; [reflexivity|]. cbn [forallb] in Hq. apply andb_prop in Hq. destruct Hq as (Q1 & Q2). cbn [fold_left].
  rewrite (IH Q2), (quiet_obuf b' o Q1). reflexivity.
Qed.
(* wipe erases the lent array too *)
Theorem lent_wiped b buf ofs len b1 ops : bo_inv b -> bo_get_substring b = (b1, Ret (buf, ofs, len)) -> forallb quiet ops = true ->
  obuf (bo_wipe (bafter fresh b1 ops)) = zeros (zlen buf).
Proof. intros Hi Hg Hq. unfold bo_wipe. cbn [obuf]. rewrite (proj2 (lent_reads b buf ofs len b1 ops Hi Hg Hq)). reflexivity. Qed.
End Lent.
