(* Simple sufficient conditions for no buffer overflow in block cipher
   transforms, in terms of the amount of data. *)
From Verif Require Import Prelude PreludeFacts BufOutModel BufOut SpecTransducer SpecBlock
  TransformModel Transform BlockModel BlockCipher.
Ltac Zify.zify_post_hook ::= Z.div_mod_to_equations.

(* bytes fed by a history, and number of finish calls *)
Definition fed (ops : list op) : bytes := flat_map op_data ops.
Fixpoint finishes (ops : list op) : Z :=
  match ops with
  | [] => 0
  | Finish :: l => 1 + finishes l
  | _ :: l => finishes l
  end.

Lemma finishes_nonneg l : 0 <= finishes l.
Proof. induction l as [|[] l IH]; cbn [finishes]; lia. Qed.

Section Fits.
Variables (C : block_cipher) (f : blockfn) (rel : bc_st C -> bf_st f -> Prop).
Let bs := bc_blocksize C.
Hypothesis bs_pos : 0 < bs.
Hypothesis HC : bc_implements C f rel.

Definition good (sg : bf_st f) : Prop := exists c, rel c sg.

Lemma step_good sg b : good sg -> zlen b = bs -> bytes_ok b ->
  good (fst (bf_step f sg b)) /\
  (forall o, snd (bf_step f sg b) = Some o -> zlen o = bs /\ bytes_ok o).
Proof.
  intros (c & Hr) Hl Hok. pose proof (HC c sg b 0 (zeros bs) 0 Hr) as H. fold bs in H.
  rewrite sub_0_all in H by lia.
  specialize (H ltac:(apply in_range_true; lia)
    ltac:(apply in_range_true; rewrite zlen_zeros; lia) Hok).
  cbn zeta in H. destruct H as (s' & dst' & _ & Hr' & _ & Hb).
  split; [exists s'; exact Hr'|]. intros o Ho. destruct (Hb o Ho). tauto.
Qed.

Definition okst (s : bf_st f * bytes) : Prop :=
  good (fst s) /\ zlen (snd s) <= bs /\ bytes_ok (snd s).

(* what a step may do: emit at most [extra] more than what was pending *)
Definition bounded (s : bf_st f * bytes) (extra : Z) (r : (bf_st f * bytes) * bytes * option exn) : Prop :=
  (r_exn r = None -> okst (r_st r) /\ zlen (r_out r) + zlen (snd (r_st r)) <= zlen (snd s) + extra) /\
  zlen (r_out r) <= zlen (snd s) + extra.

Lemma byte_bounded s c : okst s -> byte_ok c -> bounded s 1 (block_byte bs f s c).
Proof.
  intros (Hg & Hl & Hok) Hc. destruct s as [sg pend]. cbn [fst snd] in *.
  pose proof (zlen_nonneg pend).
  unfold block_byte. destruct (zlen pend =? bs) eqn:E.
  - destruct (step_good sg pend Hg ltac:(lia) Hok) as (Hg' & Ho). unfold emit_block.
    destruct (bf_step f sg pend) as [sg' [o|]]; cbn [fst snd] in *.
    + destruct (Ho o eq_refl). split.
      * intros _. unfold r_st, r_out, okst. cbn [fst snd]. rewrite zlen_one.
        repeat split; try assumption; try lia. constructor; [assumption|constructor].
      * unfold r_out. cbn [fst snd]. lia.
    + split; [discriminate|]. unfold r_out. cbn [fst snd]. change (zlen (@nil Z)) with 0. lia.
  - split.
    + intros _. unfold r_st, r_out, okst. cbn [fst snd]. rewrite zlen_app, zlen_one.
      change (zlen (@nil Z)) with 0.
      repeat split; try assumption; try lia.
      apply bytes_ok_app; split; [assumption|]. constructor; [assumption|constructor].
    + unfold r_out. cbn [fst snd]. change (zlen (@nil Z)) with 0. lia.
Qed.

Lemma run_bounded fin l : forall s, okst s -> bytes_ok l ->
  bounded s (zlen l) (m_run (block_mealy bs f fin) s l).
Proof.
  induction l as [|c l IH]; intros s Hs Hl.
  - change (zlen (@nil Z)) with 0. cbn [m_run]. unfold bounded, r_exn, r_st, r_out. cbn [fst snd].
    change (zlen (@nil Z)) with 0. pose proof (zlen_nonneg (snd s)).
    split; [intros _; split; [exact Hs|lia]|lia].
  - inversion Hl; subst. cbn [m_run].
    pose proof (byte_bounded s c Hs ltac:(assumption)) as (B1 & B2). cbn [block_mealy m_byte] in *.
    change {| m_st := _; m_byte := _; m_flush := _; m_finish := _ |} with (block_mealy bs f fin).
    rewrite zlen_cons. pose proof (zlen_nonneg l).
    destruct (block_byte bs f s c) as [[s1 o1] [e|]]; unfold bounded, r_exn, r_st, r_out in *; cbn [fst snd] in *.
    + split; [discriminate|lia].
    + destruct (B1 eq_refl) as (Hs1 & B3). specialize (IH s1 Hs1 ltac:(assumption)).
      destruct (m_run (block_mealy bs f fin) s1 l) as [[s2 o2] e2]. cbn [fst snd] in *.
      rewrite zlen_app. destruct IH as (I1 & I2). split; [|lia].
      intros E. destruct (I1 E). split; [assumption|lia].
Qed.

Lemma flush_bounded s : okst s -> bounded s 0 (block_flush bs f s).
Proof.
  intros (Hg & Hl & Hok). destruct s as [sg pend]. cbn [fst snd] in *.
  pose proof (zlen_nonneg pend). unfold block_flush.
  destruct (zlen pend =? 0); [|destruct (zlen pend =? bs) eqn:E].
  - unfold bounded, okst, r_st, r_out, r_exn. cbn [fst snd]. change (zlen (@nil Z)) with 0.
    repeat split; try assumption; lia.
  - destruct (step_good sg pend Hg ltac:(lia) Hok) as (Hg' & Ho). unfold emit_block.
    destruct (bf_step f sg pend) as [sg' [o|]]; cbn [fst snd] in *.
    + destruct (Ho o eq_refl). unfold bounded, okst, r_st, r_out, r_exn. cbn [fst snd].
      change (zlen (@nil Z)) with 0.
      repeat split; try assumption; try lia. constructor.
    + split; [discriminate|]. unfold r_out. cbn [fst snd]. change (zlen (@nil Z)) with 0. lia.
  - split; [discriminate|]. unfold r_out. cbn [fst snd]. change (zlen (@nil Z)) with 0. lia.
Qed.

Lemma bounded_weaken s x y r : bounded s x r -> x <= y -> bounded s y r.
Proof.
  intros (H1 & H2) Hxy. split; [|lia]. intros E. destruct (H1 E). split; [assumption|lia].
Qed.

Lemma padenc_bounded padfn s :
  (forall u l, 0 <= u < bs -> padfn u = Some l -> u + zlen l = bs /\ bytes_ok l) ->
  okst s -> bounded s (2 * bs) (padenc_fin bs padfn f s).
Proof.
  intros Hp (Hg & Hl & Hok). destruct s as [sg pend]. cbn [fst snd] in *.
  pose proof (zlen_nonneg pend). unfold padenc_fin.
  assert (L : forall sg1 pend1 o1, good sg1 -> zlen pend1 < bs -> bytes_ok pend1 ->
    zlen o1 + zlen pend1 <= zlen pend ->
    bounded (sg, pend) (2 * bs)
      match padfn (zlen pend1) with
      | Some p => let '(sg2, o2, e2) := emit_block f sg1 (pend1 ++ p) in (sg2, pend1, o1 ++ o2, e2)
      | None => (sg1, pend1, o1, Some Assert_failure)
      end).
  { intros sg1 pend1 o1 Hg1 Hl1 Hok1 Ho1. pose proof (zlen_nonneg pend1). pose proof (zlen_nonneg o1).
    destruct (padfn (zlen pend1)) as [p|] eqn:Ep.
    2:{ split; [discriminate|]. unfold r_out. cbn [fst snd]. lia. }
    destruct (Hp (zlen pend1) p ltac:(lia) Ep) as (P1 & P2).
    destruct (step_good sg1 (pend1 ++ p) Hg1) as (Hg' & Ho);
      [rewrite zlen_app; lia|apply bytes_ok_app; split; assumption|].
    unfold emit_block. destruct (bf_step f sg1 (pend1 ++ p)) as [sg' [o|]]; cbn [fst snd] in *.
    - destruct (Ho o eq_refl). unfold bounded, okst, r_st, r_out, r_exn. cbn [fst snd].
      rewrite zlen_app. repeat split; try assumption; try lia.
    - split; [discriminate|]. unfold r_out. cbn [fst snd]. rewrite app_nil_r. lia. }
  destruct (zlen pend >=? bs) eqn:E.
  - destruct (step_good sg pend Hg ltac:(lia) Hok) as (Hg' & Ho). unfold emit_block at 1.
    destruct (bf_step f sg pend) as [sg' [o|]]; cbn [fst snd] in *.
    + destruct (Ho o eq_refl). apply (L sg' [] o); try assumption; [constructor|change (zlen (@nil Z)) with 0; lia].
    + split; [discriminate|]. unfold r_out. cbn [fst snd]. change (zlen (@nil Z)) with 0. lia.
  - apply (L sg pend []); try assumption; [lia|change (zlen (@nil Z)) with 0; lia].
Qed.

Lemma paddec_bounded unpadfn s :
  (forall b v, zlen b = bs -> bytes_ok b -> unpadfn b = Some v -> 0 <= v <= bs) ->
  okst s -> bounded s (2 * bs) (paddec_fin bs unpadfn f s).
Proof.
  intros Hp (Hg & Hl & Hok). destruct s as [sg pend]. cbn [fst snd] in *.
  pose proof (zlen_nonneg pend). unfold paddec_fin.
  destruct (zlen pend =? bs) eqn:E; cbn [negb].
  2:{ split; [discriminate|]. unfold r_out. cbn [fst snd]. change (zlen (@nil Z)) with 0. lia. }
  destruct (step_good sg pend Hg ltac:(lia) Hok) as (Hg' & Ho). unfold emit_block.
  destruct (bf_step f sg pend) as [sg' [o|]]; cbn [fst snd] in *.
  2:{ split; [discriminate|]. unfold r_out. cbn [fst snd]. change (zlen (@nil Z)) with 0. lia. }
  destruct (Ho o eq_refl) as (O1 & O2).
  destruct (unpadfn o) as [v|] eqn:Ev.
  2:{ split; [discriminate|]. unfold r_out. cbn [fst snd]. change (zlen (@nil Z)) with 0. lia. }
  specialize (Hp o v O1 O2 Ev).
  unfold bounded, okst, r_st, r_out, r_exn. cbn [fst snd]. rewrite zlen_sub by lia.
  repeat split; try assumption; lia.
Qed.

Section Fin.
Variable fin : bf_st f * bytes -> (bf_st f * bytes) * bytes * option exn.
Hypothesis fin_bounded : forall s, okst s -> bounded s (2 * bs) (fin s).
Let M := block_mealy bs f fin.

Lemma op_cost_fed ops : zlen (fed ops) >= 0.
Proof. pose proof (zlen_nonneg (fed ops)). lia. Qed.

Lemma run_fits_ok ops : forall s q, okst s -> Forall op_valid ops ->
  zlen q + zlen (snd s) + zlen (fed ops) + 2 * bs * finishes ops + bs <= max_string_length ->
  run_fits (cfits C f fin) s q ops.
Proof.
  assert (Hf0 : forall ops, 0 <= finishes ops).
  { intros l. apply finishes_nonneg. }
  induction ops as [|o ops IH]; intros s q Hs Hv Hsz; [exact I|].
  inversion Hv as [|? ? Hv1 Hv2]; subst.
  specialize (Hf0 ops). pose proof (zlen_nonneg (snd s)). pose proof (zlen_nonneg (fed ops)).
  pose proof (zlen_nonneg q).
  assert (Hstep : forall extra r, bounded s extra r -> 
     zlen q + zlen (snd s) + extra + zlen (fed ops) + 2 * bs * finishes ops + bs <= max_string_length ->
     (zlen q + zlen (r_out r) + bs <= max_string_length) /\
     (let '(sg', q', ob) := emit_obs q r in
      if match ob with OExn _ | OUndef | OHang => true | _ => false end then True
      else run_fits (cfits C f fin) sg' q' ops)).
  { intros extra r (B1 & B2) Hle. split; [nia|]. unfold emit_obs.
    destruct (r_exn r) as [e|] eqn:Ee; [exact I|]. destruct (B1 eq_refl) as (B3 & B4).
    apply IH; try assumption. rewrite zlen_app. lia. }
  assert (Hput : forall l, bytes_ok l ->
     zlen q + zlen (snd s) + zlen l + zlen (fed ops) + 2 * bs * finishes ops + bs <= max_string_length ->
     (zlen q + zlen (r_out (m_run M s l)) + bs <= max_string_length) /\
     (let '(sg', q', ob) := emit_obs q (m_run M s l) in
      if match ob with OExn _ | OUndef | OHang => true | _ => false end then True
      else run_fits (cfits C f fin) sg' q' ops)).
  { intros l Hl Hle. apply (Hstep (zlen l)); [apply run_bounded; assumption|exact Hle]. }
  cbn [fed flat_map] in Hsz. fold (fed ops) in Hsz. rewrite zlen_app in Hsz.
  destruct o; cbn [op_data finishes] in Hsz; cbn [run_fits op_fits spec_step op_data ends];
    unfold f_put, f_flush, f_finish; cbn [cfits std_fits op_valid] in *; fold bs; fold M.
  - apply (Hput (sub b ofs len)); [apply bytes_ok_sub; tauto|lia].
  - apply (Hput s0); [tauto|lia].
  - apply (Hput [c]); [constructor; [exact Hv1|constructor]|lia].
  - apply (Hput [n]); [constructor; [exact Hv1|constructor]|lia].
  - change (zlen (@nil Z)) with 0 in Hsz.
    apply (Hstep 0 (block_flush bs f s)); [apply flush_bounded, Hs|lia].
  - change (zlen (@nil Z)) with 0 in Hsz.
    apply (Hstep (2 * bs) (fin s)); [apply fin_bounded, Hs|lia].
  - split; [exact I|]. apply IH; try assumption; change (zlen (@nil Z)) with 0 in *; lia.
  - split; [exact I|]. apply IH; try assumption; change (zlen (@nil Z)) with 0 in *; lia.
  - split; [exact I|]. apply IH; try assumption; change (zlen (@nil Z)) with 0 in *; lia.
  - split; [exact I|]. change (zlen (@nil Z)) with 0 in *. destruct q as [|c q'].
    + apply IH; try assumption; change (zlen (@nil Z)) with 0 in *; lia.
    + rewrite zlen_cons in *. apply IH; try assumption; lia.
  - split; [exact I|]. change (zlen (@nil Z)) with 0 in *. destruct q as [|c q'].
    + apply IH; try assumption; change (zlen (@nil Z)) with 0 in *; lia.
    + rewrite zlen_cons in *. apply IH; try assumption; lia.
Qed.
End Fin.
End Fits.
