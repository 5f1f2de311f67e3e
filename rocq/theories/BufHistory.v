(* Histories of the output buffer: a queue. *)
From Verif Require Import Prelude PreludeFacts BufOutModel BufOut.

(* What subclasses of buffered_output do to produce output l: ensure_capacity,
   store at oend, advance oend (e.g. cryptokit.ml 790-792, 1049-1052).  The
   other operations are the methods of the class. *)
Inductive bop := Produce (l : bytes) | Available | GetStr | GetSub | GetChr.
Inductive bobs := BUnit | BInt (z : Z) | BBytes (l : bytes) | BExn (e : exn) | BUndef | BHang.

Definition obs_of {A} (k : A -> bobs) (r : out A) : bobs :=
  match r with Ret a => k a | Raise e => BExn e | Undef => BUndef | Hang => BHang end.

Section Hist.
Variable fresh : Z -> bytes.

Definition produce (b : bo) (l : bytes) : bo * out unit :=
  let! (b, u) := ensure_capacity fresh b (zlen l) in
  match blit l 0 (obuf b) (oend b) (zlen l) with
  | Ret ob => (BO ob (obeg b) (oend b + zlen l), Ret tt)
  | Raise e => (b, Raise e) | Undef => (b, Undef) | Hang => (b, Hang)
  end.

Definition bstep (b : bo) (o : bop) : bo * bobs :=
  match o with
  | Produce l => let r := produce b l in (fst r, obs_of (fun _ => BUnit) (snd r))
  | Available => (b, BInt (bo_available b))
  | GetStr => let r := bo_get_string b in (fst r, obs_of BBytes (snd r))
  | GetSub => let r := bo_get_substring b in
      (fst r, obs_of (fun x => match x with (bf, o, n) =>
         if in_range bf o n then BBytes (sub bf o n) else BExn Invalid_argument end) (snd r))
  | GetChr => let r := bo_get_char b in (fst r, obs_of BInt (snd r))
  end.
Fixpoint brun (b : bo) (ops : list bop) : list bobs :=
  match ops with [] => [] | o :: ops' => snd (bstep b o) :: brun (fst (bstep b o)) ops' end.
End Hist.

(* Specification: a first-in first-out queue of bounded size. *)
Definition qstep (q : bytes) (o : bop) : bytes * bobs :=
  match o with
  | Produce l => if zlen q + zlen l <=? max_string_length then (q ++ l, BUnit)
                 else (q, BExn (Error Output_buffer_overflow))
  | Available => (q, BInt (zlen q))
  | GetStr | GetSub => ([], BBytes q)
  | GetChr => match q with [] => ([], BExn End_of_file) | c :: q' => (q', BInt c) end
  end.
Fixpoint qrun (q : bytes) (ops : list bop) : list bobs :=
  match ops with [] => [] | o :: ops' => snd (qstep q o) :: qrun (fst (qstep q o)) ops' end.

Definition bop_ok (o : bop) : Prop := match o with Produce l => zlen l <= max_string_length | _ => True end.

Section Proof.
Variable fresh : Z -> bytes.
Hypothesis fresh_len : forall n, 0 <= n -> zlen (fresh n) = n.

Lemma bstep_ok b o : bo_inv b -> bop_ok o ->
  snd (bstep fresh b o) = snd (qstep (bo_contents b) o) /\
  bo_inv (fst (bstep fresh b o)) /\ bo_contents (fst (bstep fresh b o)) = fst (qstep (bo_contents b) o).
Proof.
  intros Hi Ho. destruct o as [l| | | |]; cbn [bstep qstep].
  - unfold produce. pose proof (zlen_nonneg l). cbn [bop_ok] in Ho.
    destruct (zlen (bo_contents b) + zlen l <=? max_string_length) eqn:E.
    + destruct (ensure_capacity_ok fresh fresh_len b (zlen l) Hi ltac:(lia) ltac:(lia)) as (b' & -> & Hi' & Hc & Hr).
      cbn [bind]. destruct Hi' as (I1 & I2 & I3). rewrite blit_ok by lia.
      rewrite sub_0_all by lia. cbn [fst snd obs_of].
      destruct (bo_append b' l _ (conj I1 (conj I2 I3)) Hr eq_refl) as (A1 & A2). rewrite A2, Hc. auto.
    + pose proof (bo_contents_len b Hi) as Hl. pose proof Hi as (H1 & H2 & H3).
      rewrite (ensure_capacity_overflow fresh fresh_len b (zlen l)); try assumption; try lia.
      * cbn [bind fst snd obs_of]. auto.
      * unfold max_string_length in *. lia.
  - cbn [fst snd]. rewrite (bo_contents_len b Hi). auto.
  - destruct (bo_get_string_ok b Hi) as (b' & -> & H1 & H2). cbn [fst snd obs_of]. auto.
  - destruct (bo_get_substring_ok b Hi) as (b' & -> & H1 & H2 & H3 & H4). cbn [fst snd obs_of].
    rewrite H1, H2. auto.
  - pose proof (bo_get_char_ok b Hi) as H. destruct (bo_contents b) as [|c q] eqn:E.
    + rewrite H. cbn [fst snd obs_of]. auto.
    + destruct H as (b' & -> & H1 & H2). cbn [fst snd obs_of]. auto.
Qed.

Lemma brun_ok ops : forall b, bo_inv b -> Forall bop_ok ops ->
  brun fresh b ops = qrun (bo_contents b) ops.
Proof.
  induction ops as [|o ops IH]; intros b Hi Ho; [reflexivity|].
  apply Forall_cons_iff in Ho. destruct Ho as (Ho1 & Ho2). cbn [brun qrun].
  destruct (bstep_ok b o Hi Ho1) as (H1 & H2 & H3). rewrite H1, IH, H3 by assumption. reflexivity.
Qed.

Lemma buffer_is_queue n ops : 0 < n <= max_string_length -> Forall bop_ok ops ->
  brun fresh (bo_new fresh n) ops = qrun [] ops.
Proof.
  intros Hn Ho. rewrite brun_ok; [|apply bo_new_inv; assumption|assumption].
  rewrite bo_new_contents. reflexivity.
Qed.
End Proof.
