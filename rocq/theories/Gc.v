(* A stub that uses, after an allocation, only registered variables does not see the garbage collector *)
From Verif Require Import Prelude PreludeFacts GcModel.

Definition inb (n : nat) (l : list nat) : bool := existsb (Nat.eqb n) l.
Lemma inb_In n l : inb n l = true <-> In n l.
Proof.
  unfold inb. rewrite existsb_exists. split.
  - intros (x & H & E). apply Nat.eqb_eq in E. now subst.
  - intros H. exists n. split; [exact H|apply Nat.eqb_refl].
Qed.

(* W: the variables whose contents are up to date; R: the roots; D: the variables that hold an address *)
Definition uses (W : nat -> bool) (D : list nat) (rs : list var) : bool :=
  forallb (fun v => match v with P n => W n && inb n D | C _ => true end) rs.
Fixpoint safe (W : nat -> bool) (R D : list nat) (l : list instr) (res : list var) : bool :=
  match l with
  | [] => uses W D res
  | Root n :: l' => W n && safe W (n :: R) D l' res
  | Alloc n rs _ :: l' => uses W D rs && safe (fun m => Nat.eqb m n || inb m R) R (n :: D) l' res
  | Write n rs _ :: l' => uses W D rs && (W n && inb n D) && safe W R D l' res
  | Assign n rs _ :: l' => uses W D rs && safe W R D l' res
  end.
Definition safe_stub (st : stub) : bool :=
  Nat.leb (nparams st) 1000 && safe (fun _ => true) [] (seq 0 (nparams st)) (body st) (result st).

Lemma find_in h a v : find h a = Some v -> In a (map fst h).
Proof.
  induction h as [|[b w] h IH]; cbn [find map fst]; [discriminate|].
  destruct (Z.eqb_spec b a) as [->|]; [now left|]. intros H. right. now apply IH.
Qed.

Lemma no_gc_new k l : ~ In (g_new no_gc k l) l.
Proof.
  cbn [g_new no_gc]. assert (forall x, In x l -> x <= fold_right Z.max 0 l) as H.
  { induction l as [|y l IH]; cbn [fold_right]; [contradiction|]. intros x [->|Hx]; [lia|]. specialize (IH x Hx). lia. }
  intros F. specialize (H _ F). lia.
Qed.

Section Sim.
Variable g : gc.
Hypothesis g_ok : gc_ok g.
Variable fresh : Z -> bytes.

Definition matches (phi : list (Z * Z)) (o1 o2 : option Z) : Prop :=
  match o1, o2 with None, None => True | Some a, Some b => In (a, b) phi | _, _ => False end.

Definition bij (phi : list (Z * Z)) : Prop := forall a b a' b', In (a, b) phi -> In (a', b') phi -> (a = a' <-> b = b').

Definition rel (W : nat -> bool) (s1 s2 : gstate) : Prop :=
  exists phi, bij phi /\
    (forall a b, In (a, b) phi -> exists v, find (mem s1) a = Some v /\ find (mem s2) b = Some v) /\
    (forall n, W n = true \/ In n (roots s1) -> matches phi (penv s1 n) (penv s2 n)) /\
    roots s1 = roots s2 /\ (forall n, cenv s1 n = cenv s2 n).

Definition has (s : gstate) (n : nat) : Prop := exists a v, penv s n = Some a /\ find (mem s) a = Some v.

Lemma read_rel W s1 s2 v : rel W s1 s2 -> (match v with P n => W n = true \/ In n (roots s1) | C _ => True end) -> read s1 v = read s2 v.
Proof.
  intros (phi & Hb & Hm & Hv & Hr & Hc) HW. destruct v as [n|n]; cbn [read].
  - specialize (Hv n HW). unfold matches in Hv.
    destruct (penv s1 n) as [a|], (penv s2 n) as [b|]; try contradiction; [|reflexivity].
    destruct (Hm _ _ Hv) as (v & -> & ->). reflexivity.
  - now rewrite Hc.
Qed.

Lemma reads_rel W s1 s2 rs : rel W s1 s2 ->
  (forall v, In v rs -> match v with P n => W n = true \/ In n (roots s1) | C _ => True end) -> reads s1 rs = reads s2 rs.
Proof.
  intros HR. induction rs as [|v rs IH]; intros H; [reflexivity|]. cbn [reads].
  rewrite (read_rel W s1 s2 v HR (H v (or_introl eq_refl))), IH; [reflexivity|]. intros w Hw. apply H. now right.
Qed.

Lemma uses_ok W D rs s1 s2 : uses W D rs = true -> rel W s1 s2 -> reads s1 rs = reads s2 rs.
Proof.
  intros H HR. apply (reads_rel W _ _ _ HR). intros v Hv. unfold uses in H. rewrite forallb_forall in H.
  specialize (H v Hv). destruct v; [|exact I]. apply andb_true_iff in H. left. apply H.
Qed.

Lemma reads_defined s rs : (forall v, In v rs -> match v with P n => has s n | C _ => True end) -> exists bs, reads s rs = Ret bs.
Proof.
  induction rs as [|v rs IH]; intros H; [eexists; reflexivity|]. cbn [reads].
  assert (exists b, read s v = Ret b) as (b & ->).
  { specialize (H v (or_introl eq_refl)). destruct v as [n|n]; cbn [read]; [|eexists; reflexivity].
    destruct H as (a & w & -> & ->). eexists; reflexivity. }
  cbn [obind]. destruct IH as (bs & ->); [intros w Hw; apply H; now right|]. eexists; reflexivity.
Qed.

(* -------- collections -------- *)
Lemma find_collect k (keep : Z -> bool) h a :
  find (flat_map (fun p : Z * bytes => if keep (fst p) then [(g_move g k (fst p), snd p)] else []) h) (g_move g k a) = if keep a then find h a else None.
Proof.
  induction h as [|[b v] h IH]; cbn [flat_map find]; [destruct (keep a); reflexivity|]. cbn [fst snd].
  destruct (Z.eqb_spec b a) as [->|n].
  - destruct (keep a) eqn:E; cbn [app find]; [now rewrite Z.eqb_refl|]. now rewrite IH.
  - destruct (keep b); cbn [app find]; [|exact IH].
    destruct (Z.eqb_spec (g_move g k b) (g_move g k a)) as [e|_]; [|exact IH].
    apply (proj1 g_ok) in e. contradiction.
Qed.

Lemma rooted_iff s a : rooted s a = true <-> exists n, In n (roots s) /\ penv s n = Some a.
Proof.
  unfold rooted. rewrite existsb_exists. split; intros (n & H & E); exists n; (split; [exact H|]).
  - destruct (penv s n) as [b|]; [|discriminate]. apply Z.eqb_eq in E. now subst.
  - rewrite E. apply Z.eqb_refl.
Qed.

Lemma rel_collect W s1 s2 : rel W s1 s2 -> rel (fun _ => false) (collect g s1) s2.
Proof.
  intros (phi & Hb & Hm & Hv & Hr & Hc).
  exists (map (fun p => (g_move g (count s1) (fst p), snd p)) (filter (fun p => rooted s1 (fst p)) phi)).
  split; [|split; [|split; [|split; [exact Hr|exact Hc]]]].
  - intros a b a' b' H1 H2. apply in_map_iff in H1 as ((c & d) & E1 & F1). apply in_map_iff in H2 as ((c' & d') & E2 & F2).
    apply filter_In in F1 as [F1 _]. apply filter_In in F2 as [F2 _]. cbn [fst snd] in *. inversion E1; subst. inversion E2; subst.
    specialize (Hb _ _ _ _ F1 F2). rewrite <- Hb. split; [intros E; now apply (proj1 g_ok) in E|now intros ->].
  - intros a b H. apply in_map_iff in H as ((c & d) & E & F). apply filter_In in F as [F Hk]. cbn [fst snd] in *. inversion E; subst.
    destruct (Hm _ _ F) as (v & F1 & F2). exists v. split; [|exact F2]. cbn [collect mem].
    etransitivity; [exact (find_collect (count s1) (fun x => rooted s1 x || g_keep g (count s1) x) (mem s1) c)|].
    cbv beta. now rewrite Hk.
  - intros n [F|H]; [discriminate|]. cbn [collect roots] in H. cbn [collect penv].
    pose proof (proj2 (inb_In n (roots s1)) H) as Hi. unfold inb in Hi. rewrite Hi.
    specialize (Hv n (or_intror H)). unfold matches in *.
    destruct (penv s1 n) as [a|] eqn:E; destruct (penv s2 n) as [b|]; try contradiction; cbn [option_map]; [|exact I].
    apply in_map_iff. exists (a, b). split; [reflexivity|]. apply filter_In. split; [exact Hv|]. apply rooted_iff. exists n. now split.
Qed.

Lemma rel_alloc W W' s1 s2 n v : rel W s1 s2 -> (forall m, W' m = true -> m = n \/ W m = true \/ In m (roots s1)) ->
  let a := g_new g (count s1) (map fst (mem s1)) in let b := g_new no_gc (count s2) (map fst (mem s2)) in
  rel W' (GState (set (penv s1) n (Some a)) (cenv s1) (roots s1) ((a, v) :: mem s1) (S (count s1)))
    (GState (set (penv s2) n (Some b)) (cenv s2) (roots s2) ((b, v) :: mem s2) (S (count s2))).
Proof.
  intros (phi & Hb & Hm & Hv & Hr & Hc) HW a b.
  assert (~ In a (map fst (mem s1))) as Na by apply (proj2 g_ok). assert (~ In b (map fst (mem s2))) as Nb by apply no_gc_new.
  assert (forall c d, In (c, d) phi -> c <> a /\ d <> b) as Hne.
  { intros c d H. destruct (Hm _ _ H) as (w & F1 & F2). apply find_in in F1. apply find_in in F2. split; intros ->; contradiction. }
  exists ((a, b) :: phi). split; [|split; [|split; [|split; [exact Hr|exact Hc]]]].
  - intros c d c' d' [E1|H1] [E2|H2].
    + inversion E1; inversion E2; subst. now split.
    + inversion E1; subst c d. destruct (Hne _ _ H2). split; intros; subst; contradiction.
    + inversion E2; subst c' d'. destruct (Hne _ _ H1). split; intros; subst; contradiction.
    + exact (Hb _ _ _ _ H1 H2).
  - intros c d [E|H]; cbn [mem find].
    + inversion E; subst c d. rewrite !Z.eqb_refl. now exists v.
    + destruct (Hne _ _ H) as [N1 N2]. rewrite (proj2 (Z.eqb_neq a c)), (proj2 (Z.eqb_neq b d)) by congruence. exact (Hm _ _ H).
  - intros m Hm'. cbn [penv roots] in *. unfold set. destruct (Nat.eqb_spec m n) as [->|N]; [now left|].
    assert (W m = true \/ In m (roots s1)) as Hx. { destruct Hm' as [H|H]; [destruct (HW m H) as [|]; [contradiction|assumption]|now right]. }
    specialize (Hv m Hx). unfold matches in *. destruct (penv s1 m), (penv s2 m); try contradiction; [now right|exact I].
Qed.

Lemma find_update h a v b : find (update h a v) b = if a =? b then (match find h a with Some _ => Some v | None => None end) else find h b.
Proof.
  induction h as [|[c w] h IH]; cbn [update find]; [destruct (a =? b); reflexivity|].
  destruct (Z.eqb_spec c a) as [->|N]; cbn [find].
  - destruct (Z.eqb_spec a b) as [->|N']; [reflexivity|reflexivity].
  - destruct (Z.eqb_spec c b) as [->|N'].
    + rewrite (proj2 (Z.eqb_neq a b)) by congruence. reflexivity.
    + exact IH.
Qed.

Lemma rel_write W s1 s2 a b v : rel W s1 s2 ->
  (exists n, (W n = true \/ In n (roots s1)) /\ penv s1 n = Some a /\ penv s2 n = Some b) ->
  rel W (GState (penv s1) (cenv s1) (roots s1) (update (mem s1) a v) (count s1))
    (GState (penv s2) (cenv s2) (roots s2) (update (mem s2) b v) (count s2)).
Proof.
  intros (phi & Hb & Hm & Hv & Hr & Hc) (n & HW & E1 & E2).
  pose proof (Hv n HW) as Hin. rewrite E1, E2 in Hin. cbn [matches] in Hin.
  exists phi. split; [exact Hb|split; [|split; [exact Hv|split; [exact Hr|exact Hc]]]].
  intros c d H. cbn [mem]. rewrite !find_update. specialize (Hb _ _ _ _ Hin H).
  destruct (Hm _ _ Hin) as (w & F1 & F2). rewrite F1, F2. destruct (Hm _ _ H) as (w' & G1 & G2).
  destruct (Z.eqb_spec a c) as [e|N]; destruct (Z.eqb_spec b d) as [e'|N']; try tauto.
  - now exists v.
  - now exists w'.
Qed.

(* -------- one direction: the run without collection is defined, and the other one agrees -------- *)
Definition good (D : list nat) (s : gstate) : Prop := (forall n, In n D -> has s n) /\ (forall n, In n (roots s) -> penv s n = None \/ has s n).

Lemma uses_defined W D rs s : uses W D rs = true -> (forall n, In n D -> has s n) -> exists bs, reads s rs = Ret bs.
Proof.
  intros H HD. apply reads_defined. intros v Hv. unfold uses in H. rewrite forallb_forall in H. specialize (H v Hv).
  destruct v; [|exact I]. apply andb_true_iff in H as [_ H]. apply HD. now apply inb_In.
Qed.

Lemma rel_weaken (W W' : nat -> bool) s1 s2 : (forall n, W' n = true -> W n = true \/ In n (roots s1)) -> rel W s1 s2 -> rel W' s1 s2.
Proof.
  intros H (phi & Hb & Hm & Hv & Hr & Hc). exists phi. split; [exact Hb|split; [exact Hm|split; [|split; assumption]]]. intros n Hn. apply Hv. destruct Hn as [Hn|Hn]; [now apply H|now right].
Qed.

Lemma has_alloc s n m a v : ~ In a (map fst (mem s)) -> m = n \/ has s m ->
  has (GState (set (penv s) n (Some a)) (cenv s) (roots s) ((a, v) :: mem s) (S (count s))) m.
Proof.
  intros Na H. unfold has, set. cbn [penv mem find]. destruct (Nat.eqb_spec m n) as [->|N].
  - exists a, v. now rewrite Z.eqb_refl.
  - destruct H as [|(b & w & E & F)]; [contradiction|]. exists b, w. split; [exact E|].
    destruct (Z.eqb_spec a b) as [->|_]; [|exact F]. apply find_in in F. contradiction.
Qed.

Lemma has_write s m a v : has s m -> has (GState (penv s) (cenv s) (roots s) (update (mem s) a v) (count s)) m.
Proof.
  intros (b & w & E & F). unfold has. cbn [penv mem]. rewrite E. exists b. rewrite find_update.
  destruct (Z.eqb_spec a b) as [->|_]; [rewrite F|rewrite F]; eexists; (split; [reflexivity|reflexivity]).
Qed.

Lemma sim l : forall W R D s1 s2 res live, safe W R D l res = true -> rel W s1 s2 -> incl R (roots s1) -> incl live (roots s1) ->
  (forall n, In n D -> has s2 n) -> (forall n, In n live -> has s2 n) ->
  exists bs, (olet s := steps g fresh s1 l in reads s (res ++ map P live)) = Ret bs /\
             (olet s := steps no_gc fresh s2 l in reads s (res ++ map P live)) = Ret bs.
Proof.
  induction l as [|i l IH]; intros W R D s1 s2 res live HS HR Hi Hl HD HL.
  - cbn [steps obind]. cbn [safe] in HS.
    assert (reads s1 (res ++ map P live) = reads s2 (res ++ map P live)) as E.
    { apply (reads_rel W _ _ _ HR). intros v Hv. apply in_app_or in Hv as [Hv|Hv].
      - unfold uses in HS. rewrite forallb_forall in HS. specialize (HS v Hv). destruct v; [|exact I]. apply andb_true_iff in HS. left. apply HS.
      - apply in_map_iff in Hv as (n & <- & Hn). right. now apply Hl. }
    destruct (reads_defined s2 (res ++ map P live)) as (bs & F).
    { intros v Hv. apply in_app_or in Hv as [Hv|Hv].
      - unfold uses in HS. rewrite forallb_forall in HS. specialize (HS v Hv). destruct v; [|exact I]. apply andb_true_iff in HS as [_ HS]. apply HD. now apply inb_In.
      - apply in_map_iff in Hv as (n & <- & Hn). now apply HL. }
    exists bs. now rewrite E.
  - cbn [steps]. destruct i as [n|n rs f|n rs f|n rs f]; cbn [safe] in HS; cbn [step].
    + apply andb_true_iff in HS as [HW HS]. cbn [obind]. apply (IH W (n :: R) D).
      * exact HS.
      * destruct HR as (phi & Hb & Hm & Hv & Hr & Hc). exists phi. cbn [penv cenv roots mem].
        split; [exact Hb|split; [exact Hm|split; [|split; [now rewrite Hr|exact Hc]]]].
        intros m [Hm'|[<-|Hm']]; apply Hv; [now left|now left|now right].
      * cbn [roots]. intros m [<-|Hm]; [now left|right; now apply Hi].
      * cbn [roots]. intros m Hm. right. now apply Hl.
      * exact HD.
      * exact HL.
    + apply andb_true_iff in HS as [HU HS]. rewrite (uses_ok _ _ _ _ _ HU HR).
      destruct (uses_defined _ _ _ _ HU HD) as (bs & E). rewrite E. cbn [obind]. cbn [g_run no_gc].
      set (s1' := if g_run g (count s1) then collect g s1 else s1).
      assert (roots s1' = roots s1) as Er by (unfold s1'; destruct (g_run g (count s1)); reflexivity).
      assert (rel (fun m => inb m R) s1' s2) as HR'.
      { unfold s1'. destruct (g_run g (count s1)).
        - apply (rel_weaken (fun _ => false)); [|exact (rel_collect _ _ _ HR)]. intros m Hm. right. apply Hi. now apply inb_In.
        - apply (rel_weaken W); [|exact HR]. intros m Hm. right. apply Hi. now apply inb_In. }
      apply (IH (fun m => Nat.eqb m n || inb m R) R (n :: D)).
      * exact HS.
      * apply (rel_alloc (fun m => inb m R)); [exact HR'|]. intros m Hm. apply orb_true_iff in Hm as [Hm|Hm]; [left; now apply Nat.eqb_eq|right; now left].
      * cbn [roots]. now rewrite Er.
      * cbn [roots]. now rewrite Er.
      * intros m Hm. apply has_alloc; [apply no_gc_new|]. destruct Hm as [<-|Hm]; [now left|right; now apply HD].
      * intros m Hm. apply has_alloc; [apply no_gc_new|]. right. now apply HL.
    + apply andb_true_iff in HS as [HU HS]. apply andb_true_iff in HU as [HU Hn]. apply andb_true_iff in Hn as [Hn1 Hn2].
      rewrite (uses_ok _ _ _ _ _ HU HR). destruct (uses_defined _ _ _ _ HU HD) as (bs & E). rewrite E. cbn [obind].
      apply inb_In in Hn2. destruct (HD n Hn2) as (b & w & E2 & F2). rewrite E2, F2. cbn [obind].
      assert (exists a, penv s1 n = Some a /\ find (mem s1) a = Some w) as (a & E1 & F1).
      { destruct HR as (phi & Hb & Hm & Hv & Hr & Hc). specialize (Hv n (or_introl Hn1)). rewrite E2 in Hv. unfold matches in Hv.
        destruct (penv s1 n) as [a|]; [|contradiction]. exists a. split; [reflexivity|]. destruct (Hm _ _ Hv) as (w' & G1 & G2). congruence. }
      rewrite E1, F1. cbn [obind]. apply (IH W R D).
      * exact HS.
      * apply rel_write; [exact HR|]. exists n. split; [now left|now split].
      * exact Hi.
      * exact Hl.
      * intros m Hm. apply has_write. now apply HD.
      * intros m Hm. apply has_write. now apply HL.
    + apply andb_true_iff in HS as [HU HS]. rewrite (uses_ok _ _ _ _ _ HU HR).
      destruct (uses_defined _ _ _ _ HU HD) as (bs & E). rewrite E. cbn [obind]. apply (IH W R D); try assumption.
      destruct HR as (phi & Hb & Hm & Hv & Hr & Hc). exists phi. cbn [penv cenv roots mem].
      split; [exact Hb|split; [exact Hm|split; [exact Hv|split; [exact Hr|]]]]. intros m. unfold set. destruct (Nat.eqb m n); [reflexivity|apply Hc].
Qed.

Theorem safe_gc st h args ints live : safe_stub st = true -> length args = nparams st -> incl args (map fst h) ->
  (forall i, In i live -> (i < nparams st)%nat) ->
  exists bs, call g fresh st h args ints live = Ret bs /\ call no_gc fresh st h args ints live = Ret bs.
Proof.
  intros HS Hn Hh Hl. unfold safe_stub in HS. apply andb_true_iff in HS as [Hk HS]. apply Nat.leb_le in Hk.
  unfold call. rewrite <- (map_map caller P).
  assert (forall a, In a (map fst h) -> exists v, find h a = Some v) as Hf.
  { clear. induction h as [|[b w] h IH]; cbn [map fst find]; [contradiction|]. intros a [->|H]; [rewrite Z.eqb_refl; now exists w|].
    destruct (Z.eqb_spec b a); [now exists w|now apply IH]. }
  apply (sim (body st) (fun _ => true) [] (seq 0 (nparams st))).
  - exact HS.
  - exists (map (fun a => (a, a)) args). cbn [penv cenv roots mem]. split; [|split; [|split; [|split; reflexivity]]].
    + intros a b a' b' H1 H2. apply in_map_iff in H1 as (x & E & _). apply in_map_iff in H2 as (y & F & _). inversion E; inversion F; subst. tauto.
    + intros a b H. apply in_map_iff in H as (x & E & Hx). inversion E; subst. destruct (Hf b (Hh _ Hx)) as (v & Hv). now exists v.
    + intros n _. unfold matches.
      destruct (Nat.ltb n (nparams st)); [|destruct (Nat.leb 1000 n); [|exact I]];
        (destruct (nth_error args _) eqn:E; [|exact I]); apply nth_error_In in E; apply in_map_iff; eexists; (split; [reflexivity|exact E]).
  - intros x [].
  - intros x Hx. exact Hx.
  - intros n H. apply in_seq in H. unfold has. cbn [penv mem]. rewrite (proj2 (Nat.ltb_lt n (nparams st))) by lia.
    destruct (nth_error args n) as [a|] eqn:E; [|apply nth_error_None in E; lia].
    destruct (Hf a (Hh _ (nth_error_In _ _ E))) as (v & Hv). exists a, v. now split.
  - intros n H. apply in_map_iff in H as (i & <- & Hi). specialize (Hl i Hi). unfold has, caller. cbn [penv mem].
    rewrite (proj2 (Nat.ltb_ge (1000 + i) (nparams st))) by lia. rewrite (proj2 (Nat.leb_le 1000 (1000 + i))) by lia.
    replace (1000 + i - 1000)%nat with i by lia.
    destruct (nth_error args i) as [a|] eqn:E; [|apply nth_error_None in E; lia].
    destruct (Hf a (Hh _ (nth_error_In _ _ E))) as (v & Hv). exists a, v. now split.
Qed.
End Sim.

Lemma stubs_safe fs n sz name st : In (name, st) (stubs fs n sz) -> safe_stub st = true.
Proof.
  intros H. unfold stubs in H. cbn [In] in H.
  repeat (destruct H as [H|H]; [inversion H; subst; vm_compute; reflexivity|]). destruct H.
Qed.

(* what a run without collection computes *)
Definition contents (h : heap) (a : Z) : bytes := match find h a with Some v => v | None => [] end.

Theorem stubs_gc fs n sz fresh name st : In (name, st) (stubs fs n sz) ->
  forall h args ints live, length args = nparams st -> incl args (map fst h) -> (forall i, In i live -> (i < nparams st)%nat) ->
  exists bs, forall g, gc_ok g -> call g fresh st h args ints live = Ret bs.
Proof.
  intros H h args ints live Hn Hh Hl. pose proof (stubs_safe _ _ _ _ _ H) as HS.
  assert (gc_ok no_gc) as H0 by (split; [intros k a b E; exact E|apply no_gc_new]).
  destruct (safe_gc no_gc H0 fresh st h args ints live HS Hn Hh Hl) as (bs & E & _). exists bs. intros g Hg.
  destruct (safe_gc g Hg fresh st h args ints live HS Hn Hh Hl) as (bs' & E1 & E2). congruence.
Qed.

(* The results of the stubs that allocate *)
Lemma find_cons_new (h : heap) a v b w : ~ In a (map fst h) -> find h b = Some w -> find ((a, v) :: h) b = Some w.
Proof.
  intros Na F. cbn [find]. destruct (Z.eqb_spec a b) as [->|]; [|exact F]. apply find_in in F. contradiction.
Qed.

Section Explicit.
Variable g0 : gc.
Hypothesis g0_ok : gc_ok g0.
Hypothesis g0_run : forall k, g_run g0 k = false.
Variable fresh : Z -> bytes.
Lemma g0_new h a v k : find h a = Some v -> (g_new g0 k (map fst h) =? a) = false.
Proof. intros F. apply Z.eqb_neq. intros <-. apply find_in in F. now apply (proj2 g0_ok) in F. Qed.

Lemma caller_1 : Nat.eqb (caller 0) 1 = false. Proof. reflexivity. Qed.
Ltac start pe F F' := unfold call; match goal with |- context [GState ?e _ _ _ _] => set (pe := e); assert (pe 0%nat = Some _) as F by reflexivity; assert (pe (caller 0) = Some _) as F' by reflexivity; clearbody pe end.
Ltac run F Fp Fq := repeat (progress (cbn -[find update Z.eqb caller]; cbn [find update]; unfold set; rewrite ?Fp, ?Fq, ?caller_1, ?Z.eqb_refl, ?(g0_new _ _ _ _ F), ?find_update, ?Z.eqb_refl, ?F, ?g0_run)).
Lemma cook_0 f n h a key ints live : find h a = Some key -> live = [] \/ live = [0%nat] ->
  call g0 fresh (cook_stub f n) h [a] ints live = Ret (f [key; nth 0 ints []; nth 1 ints []] :: map (fun _ => key) live).
Proof.
  intros F [->| ->]; unfold cook_stub; start pe Fp Fq; run F Fp Fq; reflexivity.
Qed.

Lemma final_0 f g n h a ctx ints live : find h a = Some ctx -> live = [] \/ live = [0%nat] ->
  call g0 fresh (final_stub f g n) h [a] ints live = Ret (f [ctx] :: map (fun _ => g [ctx]) live).
Proof.
  intros F [->| ->]; unfold final_stub; start pe Fp Fq; run F Fp Fq; reflexivity.
Qed.
End Explicit.

Lemma no_gc_ok : gc_ok no_gc.
Proof. split; [intros k a b E; exact E|apply no_gc_new]. Qed.

Theorem cook_gc f n fresh g h a key ints live : gc_ok g -> find h a = Some key -> live = [] \/ live = [0%nat] ->
  call g fresh (cook_stub f n) h [a] ints live = Ret (f [key; nth 0 ints []; nth 1 ints []] :: map (fun _ => key) live).
Proof.
  intros Hg F Hl. destruct (safe_gc g Hg fresh (cook_stub f n) h [a] ints live eq_refl eq_refl) as (bs & E1 & E2).
  - intros x [<-|[]]. now apply find_in in F.
  - intros i Hi. cbn. destruct Hl as [->| ->]; cbn in Hi; intuition lia.
  - rewrite E1, <- E2. apply (cook_0 no_gc no_gc_ok); [reflexivity|exact F|exact Hl].
Qed.

Theorem final_gc f k n fresh g h a ctx ints live : gc_ok g -> find h a = Some ctx -> live = [] \/ live = [0%nat] ->
  call g fresh (final_stub f k n) h [a] ints live = Ret (f [ctx] :: map (fun _ => k [ctx]) live).
Proof.
  intros Hg F Hl. destruct (safe_gc g Hg fresh (final_stub f k n) h [a] ints live eq_refl eq_refl) as (bs & E1 & E2).
  - intros x [<-|[]]. now apply find_in in F.
  - intros i Hi. cbn. destruct Hl as [->| ->]; cbn in Hi; intuition lia.
  - rewrite E1, <- E2. apply (final_0 no_gc no_gc_ok); [reflexivity|exact F|exact Hl].
Qed.

(* -------- the two functions that do not register their argument -------- *)
(* every collection moves all the blocks *)
Definition shift (a : Z) (h : heap) : gc :=
  let m := 1 + Z.abs a + fold_right Z.max 0 (map (fun p => Z.abs (fst p)) h) in
  GC (fun _ => true) (fun _ _ => true) (fun _ b => b + m) (fun _ l => fold_right Z.max (Z.abs a) l + 1).

Lemma fold_max_le (l : list Z) z : forall x, In x l -> x <= fold_right Z.max z l.
Proof. induction l as [|y l IH]; cbn [fold_right]; [contradiction|]. intros x [->|Hx]; [lia|]. specialize (IH x Hx). lia. Qed.
Lemma fold_max_ge (l : list Z) z : z <= fold_right Z.max z l.
Proof. induction l as [|y l IH]; cbn [fold_right]; lia. Qed.

Lemma shift_ok a h : gc_ok (shift a h).
Proof.
  split; cbn [g_move g_new shift]; [intros; lia|]. intros _ l F. pose proof (fold_max_le l (Z.abs a) _ F). lia.
Qed.

Lemma find_none (h : heap) a : (forall b, In b (map fst h) -> b <> a) -> find h a = None.
Proof.
  induction h as [|[b v] h IH]; intros H; [reflexivity|]. cbn [find]. rewrite (proj2 (Z.eqb_neq b a)); [|apply H; now left].
  apply IH. intros c Hc. apply H. now right.
Qed.

Lemma unrooted_undef f n rs st : st = Stub 1 [Alloc 1 [] (size n); Write 1 (P 0 :: rs) f] [P 1] ->
  forall fresh h a key ints live, find h a = Some key -> live = [] \/ live = [0%nat] ->
  exists g, gc_ok g /\ call g fresh st h [a] ints live = Undef.
Proof.
  intros -> fresh h a key ints live F Hl. exists (shift a h). split; [apply shift_ok|].
  unfold call. match goal with |- context [GState ?e _ _ _ _] => set (pe := e); assert (pe 0%nat = Some a) as E by reflexivity; clearbody pe end.
  set (m := 1 + Z.abs a + fold_right Z.max 0 (map (fun p : Z * bytes => Z.abs (fst p)) h)).
  assert (forall b, In b (map fst h) -> b + m <> a) as Hm.
  { intros b Hb. apply in_map_iff in Hb as (p & <- & Hp).
    pose proof (fold_max_le _ 0 _ (in_map (fun p : Z * bytes => Z.abs (fst p)) _ _ Hp)) as H. cbv beta in H. unfold m. lia. }
  cbn [steps step body reads obind g_run shift]. cbn [nparams body].
  match goal with |- context [collect ?g ?s] => set (s1 := collect g s) end.
  assert (penv s1 0%nat = Some a) as E1.
  { unfold s1, collect. cbn [penv roots]. destruct Hl as [->| ->]; cbn [map existsb]; [exact E|].
    replace (Nat.eqb 0 (caller 0)) with false by reflexivity. exact E. }
  assert (find (mem s1) a = None) as F1.
  { apply find_none. intros b Hb. unfold s1, collect in Hb. cbn [mem count] in Hb.
    apply in_map_iff in Hb as (p & <- & Hp). apply in_flat_map in Hp as (q & Hq & Hp).
    destruct (rooted _ _ || _) in Hp; [|destruct Hp]. destruct Hp as [<-|[]]. cbn [fst snd g_move shift].
    apply Hm. now apply in_map. }
  set (b := g_new (shift a h) (count s1) (map fst (mem s1))).
  assert (b <> a) as N.
  { unfold b. cbn [g_new shift]. pose proof (fold_max_ge (map fst (mem s1)) (Z.abs a)). lia. }
  cbn [steps step reads read penv mem]. unfold set. cbn [Nat.eqb]. rewrite E1. cbn [find].
  rewrite (proj2 (Z.eqb_neq b a) N), F1. reflexivity.
Qed.

Theorem siphash_init_undef f n fresh h a key ints live : find h a = Some key -> live = [] \/ live = [0%nat] ->
  exists g, gc_ok g /\ call g fresh (siphash_init_stub f n) h [a] ints live = Undef.
Proof. apply (unrooted_undef f n [C 0]). reflexivity. Qed.
Theorem ghash_init_undef f fresh h a key ints live : find h a = Some key -> live = [] \/ live = [0%nat] ->
  exists g, gc_ok g /\ call g fresh (ghash_init_stub f) h [a] ints live = Undef.
Proof. apply (unrooted_undef f 8 []). reflexivity. Qed.

(* without a collection the same calls work *)
Section Works.
Variable g0 : gc.
Hypothesis g0_ok : gc_ok g0.
Hypothesis g0_run : forall k, g_run g0 k = false.
Ltac go pe F Fp Fq := unfold call; match goal with |- context [GState ?e _ _ _ _] => set (pe := e); assert (pe 0%nat = Some _) as Fp by reflexivity; assert (pe (caller 0) = Some _) as Fq by reflexivity; clearbody pe end;
  repeat (progress (cbn -[find update Z.eqb caller]; cbn [find update]; unfold set; rewrite ?Fp, ?Fq, ?caller_1, ?Z.eqb_refl, ?(g0_new g0 g0_ok _ _ _ _ F), ?find_update, ?Z.eqb_refl, ?F, ?g0_run)); reflexivity.
Lemma siphash_0 f n fresh h a key ints live : find h a = Some key -> live = [] \/ live = [0%nat] ->
  call g0 fresh (siphash_init_stub f n) h [a] ints live = Ret (f [key; nth 0 ints []] :: map (fun _ => key) live).
Proof. intros F [->| ->]; unfold siphash_init_stub; go pe F Fp Fq. Qed.
Lemma ghash_0 f fresh h a key ints live : find h a = Some key -> live = [] \/ live = [0%nat] ->
  call g0 fresh (ghash_init_stub f) h [a] ints live = Ret (f [key] :: map (fun _ => key) live).
Proof. intros F [->| ->]; unfold ghash_init_stub; go pe F Fp Fq. Qed.
End Works.
