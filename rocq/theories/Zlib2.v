(* Termination of the Zlib loops, whole histories, counterexamples. *)
From Verif Require Import Prelude PreludeFacts SpecTransducer BufOutModel BufOut TransformModel ZlibModel SpecZlib Zlib.

Section Term.
Variable fresh : Z -> bytes.
Hypothesis fresh_len : forall n, 0 <= n -> zlen (fresh n) = n.
Variable zs : Type.
Variable zlib : zs -> bytes -> Z -> flush_command -> zs * zcode * Z * bytes.
Variable zend : zs -> zs * bool.
Hypothesis ZOK : zlib_ok zlib.
Variable stop : flush_command.
Variable mu : zs -> nat.
Hypothesis PR : progress zlib stop mu.

Notation obj := (zobj (zs * list zcall)).
Notation call := (z_call fresh (zs * list zcall) (recorded zlib)).
Notation measure s := (mu (fst (fst s))).
Notation good := (good zs). Notation small := (small zs).

Lemma call_progress s src ofs len f : good s -> small (fst (call s src ofs len f)) -> in_range src ofs len = true -> len < 2 ^ 32 ->
  match call s src ofs len f with
  | (s', Ret x) => good s' /\ 0 <= snd x <= len /\ (0 < snd x \/ (measure s' < measure s)%nat \/ (fst x = true /\ f = stop))
  | (_, Raise _) => True
  | _ => False
  end.
Proof.
  intros G S R Hl. pose proof (call_ok fresh fresh_len zs zlib zend ZOK s src ofs len f R Hl G S) as O.
  assert (S0 : small s) by exact (small_ext zs _ _ (call_ext fresh zs zlib s src ofs len f) S). destruct G as (G1 & G2 & G3).
  assert (RL : 0 <= len /\ 0 <= ofs /\ ofs <= zlen src - len) by (unfold in_range in R; lia).
  unfold Zlib.small, zlimit in S0. revert O. clear S. unfold z_call.
  destruct (ensure_capacity_ok fresh fresh_len (snd s) 256 G1 ltac:(lia)) as (b & E & I & C & Rm). { unfold Zlib.contents in G3. unfold max_string_length. lia. }
  pose proof (ensure_size fresh fresh_len (snd s) 256 _ _ G1 ltac:(lia) ltac:(unfold Zlib.contents in G3; lia) G2 E) as Sz.
  rewrite E. unfold lift. cbn [bind fst snd]. pose proof I as (I1 & I2 & I3).
  unfold zlib_stub, uint32. rewrite (Z.mod_small len) by lia. rewrite (Z.mod_small (zlen (obuf b) - oend b)) by lia. rewrite R.
  replace (in_range (obuf b) (oend b) (zlen (obuf b) - oend b)) with true by (unfold in_range; lia). cbn [andb].
  unfold recorded. cbn [fst snd]. pose proof (ZOK (fst (fst s)) (sub src ofs len) (zlen (obuf b) - oend b) f ltac:(lia)) as Z1.
  pose proof (PR (fst (fst s)) (sub src ofs len) (zlen (obuf b) - oend b) f ltac:(lia)) as P1.
  destruct (zlib _ _ _ _) as [[[z' code] used] o]. cbv zeta in Z1, P1. rewrite zlen_sub in Z1 by lia. destruct Z1 as [U O].
  destruct code; cbn [bind fst snd]; intros (_ & Gd & _); try exact Logic.I.
  - split; [exact Gd|]. split; [lia|]. destruct P1 as [P|[[P _]|[P|P]]]; try discriminate; [left; lia|right; left; exact P].
  - split; [exact Gd|]. split; [lia|]. destruct P1 as [P|[[_ P]|[P|P]]]; try discriminate; [right; right; auto|left; lia|right; left; exact P].
Qed.

(* enough fuel *)
Definition enough (r : nat -> obj * out unit) : Prop := exists N, forall fuel, (N <= fuel)%nat -> snd (r fuel) <> Hang.
Definition bounded (r : nat -> obj * out unit) : Prop := exists N, forall fuel, (N <= fuel)%nat -> small (fst (r fuel)).

Lemma enough_S r : enough (fun n => r (S n)) -> enough r.
Proof. intros [N H]. exists (S N). intros [|fuel] L; [lia|]. apply H. lia. Qed.
Lemma bounded_S r : bounded r -> bounded (fun n => r (S n)).
Proof. intros [N H]. exists N. intros fuel L. apply H. lia. Qed.
Lemma enough_ext r1 r2 : (forall n, r1 n = r2 n) -> enough r2 -> enough r1.
Proof. intros E [N H]. exists N. intros fuel L. rewrite E. auto. Qed.
Lemma bounded_ext r1 r2 : (forall n, r1 n = r2 n) -> bounded r1 -> bounded r2.
Proof. intros E [N H]. exists N. intros fuel L. rewrite <- E. auto. Qed.
Lemma enough_const x : snd x <> Hang -> enough (fun _ => x).
Proof. intros H. exists 0%nat. auto. Qed.
Lemma bounded_ext_small (r : nat -> obj * out unit) s : (forall n, ext zs s (fst (r n))) -> bounded r -> small s.
Proof. intros E [N H]. exact (small_ext zs _ _ (E N) (H N (Nat.le_refl N))). Qed.

(* a loop whose iterations make calls *)
Lemma loop_ok (body : nat -> obj * out unit) s src ofs len f (k : nat -> obj -> bool * Z -> obj * out unit) :
  (forall n, body (S n) = bind (call s src ofs len f) (k n)) -> (forall n s' x, ext zs s' (fst (k n s' x))) ->
  good s -> in_range src ofs len = true -> len < 2 ^ 32 -> bounded body ->
  (forall s' x, good s' -> 0 <= snd x <= len -> (0 < snd x \/ (measure s' < measure s)%nat \/ (fst x = true /\ f = stop)) -> bounded (fun n => k n s' x) -> enough (fun n => k n s' x)) ->
  enough body.
Proof.
  intros E X G R Hl B K. apply enough_S. apply bounded_S in B.
  apply (enough_ext _ _ E). apply (bounded_ext _ _ E) in B.
  assert (Sc : small (fst (call s src ofs len f))).
  { eapply bounded_ext_small; [|exact B]. intros n. cbv beta. apply ext_bind; [apply ext_refl|intros; apply X]. }
  pose proof (call_progress s src ofs len f G Sc R Hl) as C. destruct (call s src ofs len f) as [s' [x|e| |]]; cbn [bind] in *; try contradiction.
  - destruct C as (G' & U & P). apply K; assumption.
  - apply enough_const. discriminate.
Qed.

Lemma def_put_enough (L : nat) : forall M s src ofs len, (Z.to_nat len <= L)%nat -> (measure s <= M)%nat -> stop <> Z_NO_FLUSH -> good s -> in_range src ofs len = true -> len < 2 ^ 32 ->
  bounded (fun fuel => def_put fresh _ (recorded zlib) fuel s src ofs len) -> enough (fun fuel => def_put fresh _ (recorded zlib) fuel s src ofs len).
Proof.
  induction L as [L IHL] using lt_wf_ind. induction M as [M IHM] using lt_wf_ind. intros s src ofs len H1 H2 NS G R Hl B.
  assert (RL : 0 <= len /\ 0 <= ofs /\ ofs <= zlen src - len) by (unfold in_range in R; lia).
  destruct (Z.gtb_spec len 0) as [H0|H0].
  2:{ exists 0%nat. intros fuel _. destruct fuel; cbn [def_put]; (destruct (Z.gtb_spec len 0); [lia|discriminate]). }
  refine (loop_ok _ s src ofs len Z_NO_FLUSH (fun fuel' s' x => if snd x <? len then def_put fresh _ (recorded zlib) fuel' s' src (ofs + snd x) (len - snd x) else (s', Ret tt)) _ _ G R Hl B _).
  - intros n. cbn [def_put]. destruct (Z.gtb_spec len 0); [reflexivity|lia].
  - intros n s' x. destruct (_ <? _); [apply def_put_ext|apply ext_refl].
  - intros s' x G' U P B'. destruct (Z.ltb_spec (snd x) len) as [Lt|_]; [|apply enough_const; discriminate].
    destruct P as [P|[P|[_ P]]]; [| |congruence].
    + apply (IHL (Z.to_nat (len - snd x)) ltac:(lia) (measure s')); try assumption; try lia; try (unfold in_range in *; lia).
    + destruct (Z.eq_dec (snd x) 0) as [E0|E0].
      * apply (IHM (measure s') ltac:(lia)); try assumption; try lia; try (unfold in_range in *; lia).
      * apply (IHL (Z.to_nat (len - snd x)) ltac:(lia) (measure s')); try assumption; try lia; try (unfold in_range in *; lia).
Qed.

Lemma inf_put_enough (L : nat) : forall M s src ofs len, (Z.to_nat len <= L)%nat -> (measure s <= M)%nat -> good s -> in_range src ofs len = true -> len < 2 ^ 32 ->
  bounded (fun fuel => inf_put fresh _ (recorded zlib) fuel s src ofs len) -> enough (fun fuel => inf_put fresh _ (recorded zlib) fuel s src ofs len).
Proof.
  induction L as [L IHL] using lt_wf_ind. induction M as [M IHM] using lt_wf_ind. intros s src ofs len H1 H2 G R Hl B.
  assert (RL : 0 <= len /\ 0 <= ofs /\ ofs <= zlen src - len) by (unfold in_range in R; lia).
  destruct (Z.gtb_spec len 0) as [H0|H0].
  2:{ exists 0%nat. intros fuel _. destruct fuel; cbn [inf_put]; (destruct (Z.gtb_spec len 0); [lia|discriminate]). }
  refine (loop_ok _ s src ofs len Z_SYNC_FLUSH (fun fuel' s' x => if snd x <? len then if fst x : bool then (s', Raise (Error Compression_error)) else inf_put fresh _ (recorded zlib) fuel' s' src (ofs + snd x) (len - snd x) else (s', Ret tt)) _ _ G R Hl B _).
  - intros n. cbn [inf_put]. destruct (Z.gtb_spec len 0); [reflexivity|lia].
  - intros n s' x. destruct (_ <? _); [|apply ext_refl]. destruct (fst x); [apply ext_refl|apply inf_put_ext].
  - intros s' x G' U P B'. destruct (Z.ltb_spec (snd x) len) as [Lt|_]; [|apply enough_const; discriminate].
    destruct (fst x) eqn:Fx; [apply enough_const; discriminate|].
    destruct P as [P|[P|[P _]]]; [| |congruence].
    + apply (IHL (Z.to_nat (len - snd x)) ltac:(lia) (measure s')); try assumption; try lia; try (unfold in_range in *; lia).
    + destruct (Z.eq_dec (snd x) 0) as [E0|E0].
      * apply (IHM (measure s') ltac:(lia)); try assumption; try lia; try (unfold in_range in *; lia).
      * apply (IHL (Z.to_nat (len - snd x)) ltac:(lia) (measure s')); try assumption; try lia; try (unfold in_range in *; lia).
Qed.

Lemma def_flush_enough : forall M s, (measure s <= M)%nat -> stop <> Z_SYNC_FLUSH -> good s ->
  bounded (fun fuel => def_flush fresh _ (recorded zlib) fuel s) -> enough (fun fuel => def_flush fresh _ (recorded zlib) fuel s).
Proof.
  induction M as [M IHM] using lt_wf_ind. intros s H2 NS G B.
  refine (loop_ok _ s [] 0 0 Z_SYNC_FLUSH (fun fuel' s' x => if oend (snd s') =? zlen (obuf (snd s')) then def_flush fresh _ (recorded zlib) fuel' s' else (s', Ret tt)) _ _ G eq_refl ltac:(lia) B _).
  - reflexivity.
  - intros n s' x. destruct (_ =? _); [apply def_flush_ext|apply ext_refl].
  - intros s' x G' U P B'. destruct (_ =? _); [|apply enough_const; discriminate]. destruct P as [P|[P|[_ P]]]; [lia| |congruence].
    apply (IHM (measure s')); try assumption; lia.
Qed.

Lemma end_not_hang s : snd (lift (fun z => (z, snd s)) (zlib_end_stub _ (recorded_end zend) (fst s)) : obj * out unit) <> Hang.
Proof. unfold zlib_end_stub. destruct (recorded_end zend (fst s)) as [z []]; discriminate. Qed.

Lemma def_finish_enough : forall M s, (measure s <= M)%nat -> good s ->
  bounded (fun fuel => def_finish fresh _ (recorded zlib) (recorded_end zend) fuel s) -> enough (fun fuel => def_finish fresh _ (recorded zlib) (recorded_end zend) fuel s).
Proof.
  induction M as [M IHM] using lt_wf_ind. intros s H2 G B.
  refine (loop_ok _ s [] 0 0 Z_FINISH (fun fuel' s' x => if fst x : bool then lift (fun z => (z, snd s')) (zlib_end_stub _ (recorded_end zend) (fst s')) else def_finish fresh _ (recorded zlib) (recorded_end zend) fuel' s') _ _ G eq_refl ltac:(lia) B _).
  - reflexivity.
  - intros n s' x. destruct (fst x); [apply end_ext|apply def_finish_ext].
  - intros s' x G' U P B'. destruct (fst x) eqn:Fx; [apply enough_const; apply end_not_hang|]. destruct P as [P|[P|[P _]]]; [lia| |congruence].
    apply (IHM (measure s')); try assumption; lia.
Qed.

Lemma do_finish_enough : forall M s, (measure s <= M)%nat -> good s ->
  bounded (fun fuel => do_finish fresh _ (recorded zlib) fuel s false) -> enough (fun fuel => do_finish fresh _ (recorded zlib) fuel s false).
Proof.
  induction M as [M IHM] using lt_wf_ind. intros s H2 G B.
  refine (loop_ok _ s [32] 0 0 Z_SYNC_FLUSH (fun fuel' s' x => if fst x : bool then (s', Ret tt) else do_finish fresh _ (recorded zlib) fuel' s' false) _ _ G eq_refl ltac:(lia) B _).
  - reflexivity.
  - intros n s' x. destruct (fst x); [apply ext_refl|apply do_finish_ext].
  - intros s' x G' U P B'. destruct (fst x) eqn:Fx; [apply enough_const; discriminate|]. destruct P as [P|[P|[P _]]]; [lia| |congruence].
    apply (IHM (measure s')); try assumption; lia.
Qed.
Lemma do_finish_enough_true s : good s ->
  bounded (fun fuel => do_finish fresh _ (recorded zlib) fuel s true) -> enough (fun fuel => do_finish fresh _ (recorded zlib) fuel s true).
Proof.
  intros G B.
  refine (loop_ok _ s [32] 0 1 Z_SYNC_FLUSH (fun fuel' s' x => if fst x : bool then (s', Ret tt) else do_finish fresh _ (recorded zlib) fuel' s' false) _ _ G eq_refl ltac:(lia) B _).
  - reflexivity.
  - intros n s' x. destruct (fst x); [apply ext_refl|apply do_finish_ext].
  - intros s' x G' U P B'. destruct (fst x) eqn:Fx; [apply enough_const; discriminate|].
    apply (do_finish_enough (measure s')); try assumption; lia.
Qed.
Lemma inf_finish_enough s : good s ->
  bounded (fun fuel => inf_finish fresh _ (recorded zlib) (recorded_end zend) fuel s) -> enough (fun fuel => inf_finish fresh _ (recorded zlib) (recorded_end zend) fuel s).
Proof.
  intros G [N B]. destruct (do_finish_enough_true s G) as [N' H].
  - exists N. intros fuel L. eapply small_ext; [|apply (B fuel L)]. unfold inf_finish. apply ext_bind; [apply ext_refl|]. intros. apply end_ext.
  - exists N'. intros fuel L. specialize (H fuel L). unfold inf_finish. destruct (do_finish _ _ _ _ _ _) as [s' [[]| | |]]; cbn [bind snd] in *; try discriminate; [apply end_not_hang|congruence].
Qed.

(* more fuel does not change a result *)
Definition stable (r : nat -> obj * out unit) : Prop := forall n, snd (r n) <> Hang -> r (S n) = r n.
Lemma stable_le r n m : stable r -> snd (r n) <> Hang -> (n <= m)%nat -> r m = r n.
Proof. intros S H L. induction L as [|m L IH]; [reflexivity|]. rewrite S; [exact IH|rewrite IH; exact H]. Qed.
Lemma stable_bind {A} (r : obj * out A) (k1 k2 : obj -> A -> obj * out unit) : snd (bind r k1) <> Hang -> (forall s x, snd (k1 s x) <> Hang -> k2 s x = k1 s x) -> bind r k2 = bind r k1.
Proof. destruct r as [s [x| | |]]; cbn [bind]; intros H K; try reflexivity. apply K. exact H. Qed.
Lemma def_put_stable s src ofs len : stable (fun fuel => def_put fresh _ (recorded zlib) fuel s src ofs len).
Proof.
  intros n. revert s src ofs len. induction n as [|n IH]; intros s src ofs len.
  - cbn [def_put]. destruct (len >? 0); [intros H; cbn in H; congruence|reflexivity].
  - intros H. rewrite (eq_refl : def_put fresh _ (recorded zlib) (S (S n)) s src ofs len = if len >? 0 then _ else _). revert H. cbn [def_put]. destruct (len >? 0); [|reflexivity].
    intros H. apply stable_bind; [exact H|]. intros s' x. destruct (snd x <? len); [apply IH|reflexivity].
Qed.
Lemma inf_put_stable s src ofs len : stable (fun fuel => inf_put fresh _ (recorded zlib) fuel s src ofs len).
Proof.
  intros n. revert s src ofs len. induction n as [|n IH]; intros s src ofs len.
  - cbn [inf_put]. destruct (len >? 0); [intros H; cbn in H; congruence|reflexivity].
  - intros H. rewrite (eq_refl : inf_put fresh _ (recorded zlib) (S (S n)) s src ofs len = if len >? 0 then _ else _). revert H. cbn [inf_put]. destruct (len >? 0); [|reflexivity].
    intros H. apply stable_bind; [exact H|]. intros s' x. destruct (snd x <? len); [|reflexivity]. destruct (fst x); [reflexivity|apply IH].
Qed.
Lemma def_flush_stable s : stable (fun fuel => def_flush fresh _ (recorded zlib) fuel s).
Proof.
  intros n. revert s. induction n as [|n IH]; intros s; [intros H; cbn in H; congruence|]. intros H. apply stable_bind; [exact H|]. intros s' x. destruct (_ =? _); [apply IH|reflexivity].
Qed.
Lemma def_finish_stable s : stable (fun fuel => def_finish fresh _ (recorded zlib) (recorded_end zend) fuel s).
Proof.
  intros n. revert s. induction n as [|n IH]; intros s; [intros H; cbn in H; congruence|]. intros H. apply stable_bind; [exact H|]. intros s' x. destruct (fst x); [reflexivity|apply IH].
Qed.
Lemma do_finish_stable s b : stable (fun fuel => do_finish fresh _ (recorded zlib) fuel s b).
Proof.
  intros n. revert s b. induction n as [|n IH]; intros s b; [intros H; cbn in H; congruence|]. intros H. apply stable_bind; [exact H|]. intros s' x. destruct (fst x); [reflexivity|apply IH].
Qed.
Lemma inf_finish_stable s : stable (fun fuel => inf_finish fresh _ (recorded zlib) (recorded_end zend) fuel s).
Proof.
  intros n H. unfold inf_finish in *. assert (Hd : snd (do_finish fresh _ (recorded zlib) n s true) <> Hang). { destruct (do_finish _ _ _ n s true) as [s' [[]| | |]]; cbn in *; congruence. }
  rewrite (do_finish_stable s true n Hd). reflexivity.
Qed.
End Term.
