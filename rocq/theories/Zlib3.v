(* Zlib: whole histories, with enough fuel, whole strings. *)
From Verif Require Import Prelude PreludeFacts SpecTransducer BufOutModel BufOut TransformModel ZlibModel SpecZlib Zlib Zlib2.

Section Hist.
Variable fresh : Z -> bytes.
Hypothesis fresh_len : forall n, 0 <= n -> zlen (fresh n) = n.
Variable zs : Type.
Notation obj := (zobj (zs * list zcall)).
Notation good := (good zs). Notation small := (small zs).
Variables (put : nat -> obj -> bytes -> Z -> Z -> obj * out unit) (flush finish : nat -> obj -> obj * out unit).
Hypothesis put_ext : forall n s src ofs len, ext zs s (fst (put n s src ofs len)).
Hypothesis flush_ext : forall n s, ext zs s (fst (flush n s)).
Hypothesis finish_ext : forall n s, ext zs s (fst (finish n s)).
Variable step_good : forall n s o, good s -> op_valid o -> op_small o -> small (fst (t_step (z_class _ (put n) (flush n) (finish n)) s o)) -> good (fst (t_step (z_class _ (put n) (flush n) (finish n)) s o)).
Hypothesis put_enough : forall s src ofs len, good s -> in_range src ofs len = true -> len < 2 ^ 32 -> bounded zs (fun n => put n s src ofs len) -> enough zs (fun n => put n s src ofs len).
Hypothesis flush_enough : forall s, good s -> bounded zs (fun n => flush n s) -> enough zs (fun n => flush n s).
Hypothesis finish_enough : forall s, good s -> bounded zs (fun n => finish n s) -> enough zs (fun n => finish n s).
Hypothesis put_stable : forall s src ofs len, stable zs (fun n => put n s src ofs len).
Hypothesis flush_stable : forall s, stable zs (fun n => flush n s).
Hypothesis finish_stable : forall s, stable zs (fun n => finish n s).
Notation T n := (z_class _ (put n) (flush n) (finish n)).

Lemma unit_enough (r : nat -> obj * out unit) : enough zs r -> stable zs r ->
  exists N, forall n, (N <= n)%nat -> unit_obs (r n) = unit_obs (r N) /\ snd (unit_obs (r n)) <> OHang.
Proof.
  intros [N E] S. exists N. intros n L. rewrite (stable_le zs r N n S (E N (Nat.le_refl N)) L). split; [reflexivity|].
  specialize (E N (Nat.le_refl N)). unfold unit_obs. destruct (snd (r N)); cbn [snd]; congruence.
Qed.
Lemma step_enough s o : good s -> op_valid o -> op_small o -> (exists N, forall n, (N <= n)%nat -> small (fst (t_step (T n) s o))) ->
  exists N, forall n, (N <= n)%nat -> t_step (T n) s o = t_step (T N) s o /\ snd (t_step (T n) s o) <> OHang.
Proof.
  intros G V Sm B. destruct o; cbn [op_valid] in V; unfold op_small in Sm; cbn [op_data] in Sm;
    cbn [t_step z_class t_put_substring t_put_string t_put_char t_put_byte t_flush t_finish t_get_string t_get_substring t_get_char t_get_byte t_available] in *.
  - destruct V as (V1 & V2 & V3). apply unit_enough; [|apply put_stable]. apply put_enough; [exact G|exact V1|rewrite zlen_sub in Sm by (unfold in_range in V1; lia); exact Sm|exact B].
  - destruct V as (V1 & V2). unfold z_put_string in *. apply unit_enough; [|apply put_stable]. apply put_enough; [exact G|unfold in_range; pose proof (zlen_nonneg s0); lia|exact Sm|exact B].
  - unfold z_put_char, z_put_string in *. apply unit_enough; [|apply put_stable]. apply put_enough; [exact G|reflexivity|exact Sm|exact B].
  - unfold byte_ok in V. replace ((0 <=? n) && (n <? 256)) with true in * by lia. unfold z_put_char, z_put_string in *. apply unit_enough; [|apply put_stable]. apply put_enough; [exact G|reflexivity|exact Sm|exact B].
  - apply unit_enough; [|apply flush_stable]. apply flush_enough; assumption.
  - apply unit_enough; [|apply finish_stable]. apply finish_enough; assumption.
  - exists 0%nat. intros n _. split; [reflexivity|discriminate].
  - exists 0%nat. intros n _. split; [reflexivity|]. unfold bytes_obs, z_on_bo. destruct G as (G1 & _). destruct (bo_get_string_ok (snd s) G1) as (b' & E & _). rewrite E. discriminate.
  - exists 0%nat. intros n _. split; [reflexivity|]. unfold substring_obs, z_on_bo, bo_get_substring. cbn [fst snd]. destruct (in_range _ _ _); discriminate.
  - exists 0%nat. intros n _. split; [reflexivity|]. unfold int_obs, z_on_bo, bo_get_char, bytes_get. destruct (_ >=? _); [discriminate|]. destruct (_ && _); discriminate.
  - exists 0%nat. intros n _. split; [reflexivity|]. unfold int_obs, z_on_bo, bo_get_char, bytes_get. destruct (_ >=? _); [discriminate|]. destruct (_ && _); discriminate.
Qed.

Lemma exec_enough ops : forall s, good s -> Forall op_valid ops -> Forall op_small ops -> (exists N, forall n, (N <= n)%nat -> small (fst (t_exec (T n) s ops))) ->
  exists N, forall n, (N <= n)%nat -> ~ In OHang (snd (t_exec (T n) s ops)).
Proof.
  induction ops as [|o ops IH]; intros s G V Sm [N B]; [exists 0%nat; intros n _ []|]. inversion_clear V as [|? ? V1 V2]. inversion_clear Sm as [|? ? S1 S2].
  assert (B1 : forall n, (N <= n)%nat -> small (fst (t_step (T n) s o))).
  { intros n L. eapply small_ext; [|apply (B n L)]. cbn [t_exec]. destruct (t_step (T n) s o) as [s' ob]. cbn [fst]. destruct (ends o ob); [apply ext_refl|].
    pose proof (exec_ext zs (put n) (flush n) (finish n) (put_ext n) (flush_ext n) (finish_ext n) ops s') as E. destruct (t_exec _ s' ops). exact E. }
  destruct (step_enough s o G V1 S1 (ex_intro _ N B1)) as [N1 E1].
  set (M := Nat.max N N1). assert (SM : forall n, (M <= n)%nat -> t_step (T n) s o = t_step (T M) s o).
  { intros n L. destruct (E1 n ltac:(lia)) as [-> _]. destruct (E1 M ltac:(lia)) as [-> _]. reflexivity. }
  pose proof (step_good M s o G V1 S1 (B1 M ltac:(lia))) as G'. destruct (E1 M ltac:(lia)) as [_ NH].
  destruct (t_step (T M) s o) as [s' ob] eqn:Es. cbn [fst snd] in *. destruct (ends o ob) eqn:En.
  - exists M. intros n L. cbn [t_exec]. rewrite (SM n L), En. cbn [snd In]. intuition congruence.
  - destruct (IH s' G' V2 S2) as [N2 E2].
    { exists M. intros n L. specialize (B n ltac:(lia)). cbn [t_exec] in B. rewrite (SM n L), En in B. destruct (t_exec (T n) s' ops). exact B. }
    exists (Nat.max M N2). intros n L. cbn [t_exec]. rewrite (SM n ltac:(lia)), En. specialize (E2 n ltac:(lia)). destruct (t_exec (T n) s' ops) as [s2 l]. cbn [snd In] in *. intros [E|E]; [congruence|exact (E2 E)].
Qed.
End Hist.

Section Fin.
Variable fresh : Z -> bytes.
Hypothesis fresh_len : forall n, 0 <= n -> zlen (fresh n) = n.
Variable zs : Type.
Variable zlib : zs -> bytes -> Z -> flush_command -> zs * zcode * Z * bytes.
Variable zend : zs -> zs * bool.
Hypothesis ZOK : zlib_ok zlib.
Notation obj := (zobj (zs * list zcall)).
Notation compr n := (compress fresh _ (recorded zlib) (recorded_end zend) n).
Notation uncompr n := (uncompress fresh _ (recorded zlib) (recorded_end zend) n).

Lemma new_good z : good zs (z_new fresh _ (z, [])).
Proof.
  unfold good, z_new, contents. cbn [fst snd]. split; [apply (bo_new_inv fresh fresh_len); unfold max_string_length; lia|]. split; [|rewrite bo_new_contents; unfold zlen; cbn; lia].
  unfold bo_new. cbn [obuf]. rewrite fresh_len; lia.
Qed.
Lemma noext_ok {A} s (a : A) (P : A -> list zcall -> Prop) : P a [] -> ok zs s (s, Ret a) P.
Proof. apply ok_ret. Qed.
Lemma get_contents (T : transform) (put : obj -> bytes -> Z -> Z -> obj * out unit) flush finish (s : obj) : good zs s -> snd (t_get_string (z_class _ put flush finish) s) = Ret (contents zs s).
Proof. intros (G & _). cbn [z_class t_get_string]. unfold z_on_bo. cbn [snd]. destruct (bo_get_string_ok (snd s) G) as (b & -> & _). reflexivity. Qed.

Lemma given_flat ops l : given [] ops l -> l = flat_map op_data ops.
Proof. induction 1 as [|ops l x [H|H] G IH|o ops l N G IH]; cbn [flat_map]; subst; reflexivity. Qed.

Lemma compress_history fuel z ops : Forall op_valid ops -> Forall op_small ops ->
  let '(s, l) := t_exec (compr fuel) (z_new fresh _ (z, [])) ops in
  zlen (made (calls s)) <= zlimit ->
  ~ In OUndef l /\ (all_done ops l -> taken (calls s) = flat_map op_data ops /\
    exists rest, snd (t_get_string (compr fuel) s) = Ret rest /\ made (calls s) = returned ops l ++ rest).
Proof.
  intros V S. pose proof (exec_ok fresh fresh_len zs (def_put fresh _ (recorded zlib) fuel) (def_flush fresh _ (recorded zlib) fuel) (def_finish fresh _ (recorded zlib) (recorded_end zend) fuel) []) as E.
  specialize (E (def_put_ext _ _ _ _) (def_flush_ext _ _ _ _) (def_finish_ext _ _ _ _ _)).
  specialize (E (fun s src ofs len R L => ok_imp _ _ _ _ _ (def_put_ok fresh fresh_len zs zlib zend ZOK fuel s src ofs len R L) (fun _ _ H => proj1 H))).
  specialize (E (fun s => ok_imp _ _ _ _ _ (def_flush_ok fresh fresh_len zs zlib zend ZOK fuel s) (fun _ _ H => proj1 H))).
  specialize (E (fun s => ok_imp _ _ _ _ _ (def_finish_ok fresh fresh_len zs zlib zend ZOK fuel s) (fun _ _ H => or_introl (proj1 H)))).
  specialize (E ops _ (new_good z) V S). unfold compress. destruct (t_exec _ _ ops) as [s l]. intros Sm. destruct (E Sm) as (G & U & D). split; [exact U|]. intros A.
  destruct (D A) as (l' & L & C & Gv). cbn [fst snd] in *. rewrite L. cbn [z_new fst snd calls app]. split; [apply given_flat; exact Gv|].
  exists (contents zs s). split; [apply (get_contents (compr 0)); exact G|exact C].
Qed.

Lemma uncompress_history fuel z ops : Forall op_valid ops -> Forall op_small ops ->
  let '(s, l) := t_exec (uncompr fuel) (z_new fresh _ (z, [])) ops in
  zlen (made (calls s)) <= zlimit ->
  ~ In OUndef l /\ (all_done ops l -> given [32] ops (taken (calls s)) /\
    exists rest, snd (t_get_string (uncompr fuel) s) = Ret rest /\ made (calls s) = returned ops l ++ rest).
Proof.
  intros V S. pose proof (exec_ok fresh fresh_len zs (inf_put fresh _ (recorded zlib) fuel) (fun s => (s, Ret tt)) (inf_finish fresh _ (recorded zlib) (recorded_end zend) fuel) [32]) as E.
  specialize (E (inf_put_ext _ _ _ _) (fun s => ext_refl _ s) (inf_finish_ext _ _ _ _ _)).
  specialize (E (fun s src ofs len R L => ok_imp _ _ _ _ _ (inf_put_ok fresh fresh_len zs zlib zend ZOK fuel s src ofs len R L) (fun _ _ H => proj1 H))).
  specialize (E (fun s => ok_ret _ s tt (fun _ l => taken l = []) eq_refl)).
  specialize (E (fun s => ok_imp _ _ _ _ _ (inf_finish_ok fresh fresh_len zs zlib zend ZOK fuel s) (fun _ _ H => proj1 H))).
  specialize (E ops _ (new_good z) V S). unfold uncompress. destruct (t_exec _ _ ops) as [s l]. intros Sm. destruct (E Sm) as (G & U & D). split; [exact U|]. intros A.
  destruct (D A) as (l' & L & C & Gv). cbn [fst snd] in *. rewrite L. cbn [z_new fst snd calls app]. split; [exact Gv|].
  exists (contents zs s). split; [apply (get_contents (compr 0)); exact G|exact C].
Qed.

(* whole strings *)
Lemma string_ok put flush finish (s : obj) msg (P Q : list zcall -> Prop) s' out :
  (forall s, ext zs s (fst (finish s))) ->
  ok zs s (put s msg 0 (zlen msg)) (fun _ l => P l) -> (forall s, ok zs s (finish s) (fun _ l => Q l)) -> good zs s -> calls s = [] -> contents zs s = [] ->
  transform_string (z_class _ put flush finish) s msg = (s', Ret out) -> zlen (made (calls s')) <= zlimit ->
  exists l1 l2, calls s' = l1 ++ l2 /\ P l1 /\ Q l2 /\ out = made (l1 ++ l2).
Proof.
  intros FE PO FO G L0 C0. unfold transform_string. cbn [z_class t_put_string t_finish t_get_string t_wipe]. unfold z_put_string.
  destruct (put s msg 0 (zlen msg)) as [s1 [[]| | |]]; cbn [bind]; try discriminate. specialize (FE s1). specialize (FO s1). destruct (finish s1) as [s2 [[]| | |]]; cbn [bind]; try discriminate.
  unfold z_on_bo. intros E Sm.
  assert (E2 : calls s' = calls s2 /\ snd (bo_get_string (snd s2)) = Ret out).
  { destruct (bo_get_string (snd s2)) as [b [x| | |]]; cbn [bind fst snd] in *; try discriminate. split; [|congruence]. assert (Es : ((fst s2, bo_wipe b) : obj) = s') by congruence. subst s'. reflexivity. }
  destruct E2 as [E2 E3]. rewrite E2 in *.
  destruct (PO G) as (_ & G1 & R1). { exact (small_ext zs _ _ FE Sm). } cbn [fst snd] in *. destruct (R1 tt eq_refl) as (l1 & L1 & C1 & P1).
  destruct (FO G1 Sm) as (_ & G2 & R2). cbn [fst snd] in *. destruct (R2 tt eq_refl) as (l2 & L2 & C2 & P2).
  exists l1, l2. rewrite L2, L1, L0. split; [reflexivity|]. split; [exact P1|]. split; [exact P2|].
  destruct (bo_get_string_ok (snd s2) (proj1 G2)) as (b & Eb & _). rewrite Eb in E3. cbn [snd] in E3. assert (E4 : out = contents zs s2) by (unfold contents; congruence).
  rewrite E4, C2, C1, C0, made_app. reflexivity.
Qed.

Lemma compress_string fuel z msg s out : zlen msg < 2 ^ 32 ->
  transform_string (compr fuel) (z_new fresh _ (z, [])) msg = (s, Ret out) -> zlen (made (calls s)) <= zlimit ->
  exists l1 l2, calls s = l1 ++ l2 /\ Forall (fun c => zc_flush c = Z_NO_FLUSH) l1 /\ taken l1 = msg /\ ended Z_FINISH l2 /\ taken l2 = [] /\ out = made (l1 ++ l2).
Proof.
  intros L E Sm. unfold compress in E.
  destruct (string_ok _ _ _ _ msg _ _ s out (def_finish_ext _ _ _ _ _) (def_put_ok fresh fresh_len zs zlib zend ZOK fuel _ msg 0 (zlen msg) ltac:(unfold in_range; pose proof (zlen_nonneg msg); lia) L)
    (def_finish_ok fresh fresh_len zs zlib zend ZOK fuel) (new_good z) eq_refl (bo_new_contents fresh 512) E Sm) as (l1 & l2 & H1 & [H2 H3] & [H4 H5] & H6).
  exists l1, l2. rewrite sub_0_all in H2 by reflexivity. splits; assumption.
Qed.
Lemma uncompress_string fuel z msg s out : zlen msg < 2 ^ 32 ->
  transform_string (uncompr fuel) (z_new fresh _ (z, [])) msg = (s, Ret out) -> zlen (made (calls s)) <= zlimit ->
  exists l1 l2, calls s = l1 ++ l2 /\ taken l1 = msg /\ ended Z_SYNC_FLUSH l2 /\ (taken l2 = [] \/ taken l2 = [32]) /\ out = made (l1 ++ l2).
Proof.
  intros L E Sm. unfold uncompress in E.
  destruct (string_ok _ _ _ _ msg _ _ s out (inf_finish_ext _ _ _ _ _) (inf_put_ok fresh fresh_len zs zlib zend ZOK fuel _ msg 0 (zlen msg) ltac:(unfold in_range; pose proof (zlen_nonneg msg); lia) L)
    (inf_finish_ok fresh fresh_len zs zlib zend ZOK fuel) (new_good z) eq_refl (bo_new_contents fresh 512) E Sm) as (l1 & l2 & H1 & [H2 H3] & [H4 H5] & H6).
  exists l1, l2. rewrite sub_0_all in H2 by reflexivity. splits; assumption.
Qed.

(* termination *)
Lemma compress_terminates mu z ops : progress zlib Z_FINISH mu -> Forall op_valid ops -> Forall op_small ops ->
  (forall fuel, zlen (made (calls (fst (t_exec (compr fuel) (z_new fresh _ (z, [])) ops)))) <= zlimit) ->
  exists N, forall fuel, (N <= fuel)%nat -> ~ In OHang (snd (t_exec (compr fuel) (z_new fresh _ (z, [])) ops)).
Proof.
  intros PR V S B. unfold compress in *.
  apply (exec_enough fresh fresh_len zs (fun n => def_put fresh _ (recorded zlib) n) (fun n => def_flush fresh _ (recorded zlib) n) (fun n => def_finish fresh _ (recorded zlib) (recorded_end zend) n)); try assumption.
  - intros. apply def_put_ext.
  - intros. apply def_flush_ext.
  - intros. apply def_finish_ext.
  - intros n s o G Vo So Sm. refine (proj1 (step_ok fresh fresh_len zs _ _ _ [] _ _ _ _ _ _ s o G Vo So Sm)).
    + apply def_put_ext.
    + apply def_flush_ext.
    + apply def_finish_ext.
    + intros s0 src ofs len R L. exact (ok_imp _ _ _ _ _ (def_put_ok fresh fresh_len zs zlib zend ZOK n s0 src ofs len R L) (fun _ _ H => proj1 H)).
    + intros s0. exact (ok_imp _ _ _ _ _ (def_flush_ok fresh fresh_len zs zlib zend ZOK n s0) (fun _ _ H => proj1 H)).
    + intros s0. exact (ok_imp _ _ _ _ _ (def_finish_ok fresh fresh_len zs zlib zend ZOK n s0) (fun _ _ H => or_introl (proj1 H))).
  - intros s src ofs len G R L. eapply def_put_enough; try eassumption; [apply Nat.le_refl|apply Nat.le_refl|discriminate].
  - intros s G. eapply def_flush_enough; try eassumption; [apply Nat.le_refl|discriminate].
  - intros s G. eapply def_finish_enough; try eassumption. apply Nat.le_refl.
  - intros. apply def_put_stable.
  - intros. apply def_flush_stable.
  - intros. apply def_finish_stable.
  - apply new_good.
  - exists 0%nat. intros n _. apply B.
Qed.
Lemma uncompress_terminates mu z ops : progress zlib Z_SYNC_FLUSH mu -> Forall op_valid ops -> Forall op_small ops ->
  (forall fuel, zlen (made (calls (fst (t_exec (uncompr fuel) (z_new fresh _ (z, [])) ops)))) <= zlimit) ->
  exists N, forall fuel, (N <= fuel)%nat -> ~ In OHang (snd (t_exec (uncompr fuel) (z_new fresh _ (z, [])) ops)).
Proof.
  intros PR V S B. unfold uncompress in *.
  apply (exec_enough fresh fresh_len zs (fun n => inf_put fresh _ (recorded zlib) n) (fun n s => (s, Ret tt)) (fun n => inf_finish fresh _ (recorded zlib) (recorded_end zend) n)); try assumption.
  - intros. apply inf_put_ext.
  - intros. apply ext_refl.
  - intros. apply inf_finish_ext.
  - intros n s o G Vo So Sm. refine (proj1 (step_ok fresh fresh_len zs _ _ _ [32] _ _ _ _ _ _ s o G Vo So Sm)).
    + apply inf_put_ext.
    + intros s0. apply ext_refl.
    + apply inf_finish_ext.
    + intros s0 src ofs len R L. exact (ok_imp _ _ _ _ _ (inf_put_ok fresh fresh_len zs zlib zend ZOK n s0 src ofs len R L) (fun _ _ H => proj1 H)).
    + intros s0. exact (ok_ret _ s0 tt (fun _ l => taken l = []) eq_refl).
    + intros s0. exact (ok_imp _ _ _ _ _ (inf_finish_ok fresh fresh_len zs zlib zend ZOK n s0) (fun _ _ H => proj1 H)).
  - intros s src ofs len G R L. eapply inf_put_enough; try eassumption; apply Nat.le_refl.
  - intros s G _. apply enough_const. discriminate.
  - intros s G. eapply inf_finish_enough; eassumption.
  - intros. apply inf_put_stable.
  - intros s n _. reflexivity.
  - intros. apply inf_finish_stable.
  - apply new_good.
  - exists 0%nat. intros n _. apply B.
Qed.
End Fin.
