(* Lemmas for C69_exact and C48_seeds_exact. *)
From Verif Require Import Prelude PreludeFacts BytesNum SpecTransducer SpecBlock SpecModes TransformModel BlockModel CipherModel CipherSpec CipherFacts CipherApi SizeFacts SpecRng.

Lemma ctr_exact fresh : (forall n, 0 <= n -> zlen (fresh n) = n) ->
  forall nb key bs E D n iv d msg, block_family nb key bs E D -> 0 < n <= bs -> iv_ok bs (CTR_N n) iv -> bytes_ok msg -> zlen msg + 3 * bs <= max_string_length ->
  exists o, make_cipher fresh nb (Some (CTR_N n)) None iv key d = Ret o /\
  (run_string o msg = Raise (Error Message_too_long) <-> 256 ^ Z.min n 8 <= zlen msg / bs) /\
  ((exists r, run_string o msg = Ret r) <-> zlen msg / bs < 256 ^ Z.min n 8 /\ zlen msg mod bs = 0).
Proof.
  intros HF nb key bs E D n iv d msg Hf Hn Hi Hm Hs.
  destruct (plain_outcome fresh HF nb key bs E D (Some (CTR_N n)) iv Hf Hn Hi d msg Hm Hs) as (o & Mk & A & B & C). exists o. split; [exact Mk|].
  cbn [dmode] in *. change (mode_bs bs (CTR_N n)) with bs in *.
  assert (W : within_limit bs (CTR_N n) (zlen msg / bs) <-> zlen msg / bs < 256 ^ Z.min n 8).
  { unfold within_limit. cbn [mode_limit]. unfold ctr_limit. replace (Z.of_nat (Nat.min (Z.to_nat n) 8)) with (Z.min n 8) by lia. lia. }
  destruct (Z_lt_le_dec (zlen msg / bs) (256 ^ Z.min n 8)) as [L|L].
  - apply W in L as L'. destruct (Z.eq_dec (zlen msg mod bs) 0) as [M|M].
    + destruct (A L' M) as (r & R & _). split; [split; [congruence|lia]|]. split; [intros _; split; assumption|intros _; exists r; exact R].
    + pose proof (B L' M) as R. split; [split; [congruence|lia]|]. split; [intros (r & R'); congruence|intros (_ & M'); contradiction].
  - assert (NW : ~ within_limit bs (CTR_N n) (zlen msg / bs)) by (rewrite W; lia). pose proof (C NW) as R. split; [split; [intros _; exact L|intros _; exact R]|]. split; [intros (r & R'); congruence|lia].
Qed.

Lemma nth_pad s i : (16 < length s)%nat -> (i < 32)%nat -> nth i (firstn 32 (s ++ repeat 0 16)) 0 = nth i s 0.
Proof.
  intros L I. transitivity (nth i (s ++ repeat 0 16) 0).
  - symmetry. rewrite <- (firstn_skipn 32 (s ++ repeat 0 16)) at 1. apply app_nth1. rewrite firstn_length, app_length, repeat_length. lia.
  - destruct (Nat.lt_ge_cases i (length s)) as [H|H]; [apply app_nth1; exact H|]. rewrite app_nth2 by exact H. rewrite nth_repeat. symmetry. apply nth_overflow. exact H.
Qed.

Lemma seeds_exact s1 s2 : 16 <= zlen s1 -> 16 <= zlen s2 ->
  (seed_key s1 = seed_key s2 <-> s1 = s2 \/ zlen s1 <> 16 /\ zlen s2 <> 16 /\ forall i, (i < 32)%nat -> nth i s1 0 = nth i s2 0).
Proof.
  unfold zlen. intros L1 L2. unfold seed_key.
  assert (P : forall s, (16 < length s)%nat -> length (firstn 32 (s ++ repeat 0 16)) = 32%nat) by (intros s L; rewrite firstn_length, app_length, repeat_length; lia).
  destruct (Nat.eqb_spec (length s1) 16) as [A|A], (Nat.eqb_spec (length s2) 16) as [B|B].
  - split; [intros H; left; exact H|intros [H|(H & _)]; [exact H|lia]].
  - pose proof (P s2 ltac:(lia)) as Q. split; [intros H; apply (f_equal (@length Z)) in H; lia|intros [H|(H & _)]; [subst s2; lia|lia]].
  - pose proof (P s1 ltac:(lia)) as Q. split; [intros H; apply (f_equal (@length Z)) in H; lia|intros [H|(_ & H & _)]; [subst s2; lia|lia]].
  - split.
    + intros H. right. split; [lia|]. split; [lia|]. intros i I. rewrite <- (nth_pad s1 i), <- (nth_pad s2 i) by lia. rewrite H. reflexivity.
    + intros [->|(_ & _ & H)]; [reflexivity|]. apply (nth_ext _ _ 0 0); [rewrite !P by lia; reflexivity|]. rewrite P by lia. intros i I. rewrite !nth_pad by lia. apply H. exact I.
Qed.
