(* The objects Zlib.compress and Zlib.uncompress over a recording zlib. *)
From Verif Require Import Prelude PreludeFacts SpecTransducer BufOutModel BufOut TransformModel ZlibModel SpecZlib.

Ltac splits := repeat match goal with |- _ /\ _ => split end.

Lemma firstn_sub {A} (l : list A) o n k : 0 <= k <= n -> firstn (Z.to_nat k) (sub l o n) = sub l o k.
Proof. intros H. unfold sub. rewrite firstn_firstn. f_equal. lia. Qed.

Lemma taken_app a b : taken (a ++ b) = taken a ++ taken b.
Proof. apply flat_map_app. Qed.
Lemma made_app a b : made (a ++ b) = made a ++ made b.
Proof. apply flat_map_app. Qed.

Section Ensure.
Variable fresh : Z -> bytes.
Hypothesis fresh_len : forall n, 0 <= n -> zlen (fresh n) = n.
Lemma ensure_size b n b' r : bo_inv b -> 0 <= n -> zlen (bo_contents b) + n <= 2 ^ 30 -> zlen (obuf b) <= 2 ^ 31 ->
  ensure_capacity fresh b n = (b', r) -> zlen (obuf b') <= 2 ^ 31.
Proof.
  intros Hinv Hn Hfit Hb E. rewrite bo_contents_len in Hfit by assumption. destruct Hinv as (H1 & H2 & H3).
  revert E. unfold ensure_capacity.
  rewrite (wrap63_id (oend b + n)) by (unfold is_int; lia). rewrite (wrap63_id (oend b - obeg b + n)) by (unfold is_int; lia).
  destruct (oend b + n >? zlen (obuf b)) eqn:E1; [|intros [= <- <-]; exact Hb].
  destruct (oend b - obeg b + n <? zlen (obuf b)) eqn:E2.
  - rewrite blit_ok by lia. intros [= <- <-]. cbn [obuf]. rewrite zlen_splice by (rewrite ?zlen_sub; lia). exact Hb.
  - rewrite (wrap63_id (2 * zlen (obuf b))) by (unfold is_int; lia).
    destruct (grow_loop_ok (oend b - obeg b + n) ltac:(lia) 127 (2 * zlen (obuf b))) as (r0 & Hr & Hr1 & Hr2 & Hr3); try lia.
    change (S 127) with grow_fuel in Hr. rewrite Hr. unfold max_string_length. replace (r0 >? 2 ^ 57 - 9) with false by lia.
    assert (Hf : zlen (fresh r0) = r0) by (apply fresh_len; lia).
    rewrite blit_ok by lia. intros [= <- <-]. cbn [obuf]. rewrite zlen_splice; rewrite ?zlen_sub; lia.
Qed.
End Ensure.

Section Z.
Variable fresh : Z -> bytes.
Hypothesis fresh_len : forall n, 0 <= n -> zlen (fresh n) = n.
Variable zs : Type.
Variable zlib : zs -> bytes -> Z -> flush_command -> zs * zcode * Z * bytes.
Variable zend : zs -> zs * bool.
Hypothesis ZOK : zlib_ok zlib.

Notation obj := (zobj (zs * list zcall)).
Notation call := (z_call fresh (zs * list zcall) (recorded zlib)).
Notation zlog := calls.
Definition ext (s s' : obj) : Prop := exists l, zlog s' = zlog s ++ l.
Lemma ext_refl s : ext s s. Proof. exists []. symmetry. apply app_nil_r. Qed.
Lemma ext_trans a b c : ext a b -> ext b c -> ext a c.
Proof. intros [l E] [m F]. exists (l ++ m). rewrite F, E. symmetry. apply app_assoc. Qed.
Lemma ext_bind {A B} s (r : obj * out A) (k : obj -> A -> obj * out B) : ext s (fst r) -> (forall s' a, ext s' (fst (k s' a))) -> ext s (fst (bind r k)).
Proof. intros E K. destruct r as [s' [a| | |]]; cbn [bind fst] in *; try exact E. eapply ext_trans; [exact E|apply K]. Qed.

Lemma call_ext s src ofs len f : ext s (fst (call s src ofs len f)).
Proof.
  unfold z_call. apply ext_bind; [exists []; symmetry; apply app_nil_r|]. intros s' _.
  unfold zlib_stub. destruct (_ && _); [|cbn; exists []; symmetry; apply app_nil_r].
  unfold recorded. destruct (zlib _ _ _ _) as [[[z' code] used] o]. destruct code; cbn [bind fst]; eexists; reflexivity.
Qed.

Lemma def_put_ext fuel : forall s src ofs len, ext s (fst (def_put fresh _ (recorded zlib) fuel s src ofs len)).
Proof.
  induction fuel as [|fuel IH]; intros s src ofs len; cbn [def_put]; destruct (len >? 0); try apply ext_refl.
  apply ext_bind; [apply call_ext|]. intros s' x. destruct (_ <? _); [apply IH|apply ext_refl].
Qed.
Lemma def_flush_ext fuel : forall s, ext s (fst (def_flush fresh _ (recorded zlib) fuel s)).
Proof.
  induction fuel as [|fuel IH]; intros s; cbn [def_flush]; [apply ext_refl|].
  apply ext_bind; [apply call_ext|]. intros s' x. destruct (_ =? _); [apply IH|apply ext_refl].
Qed.
Lemma end_ext s : ext s (fst (lift (fun z => (z, snd s)) (zlib_end_stub _ (recorded_end zend) (fst s)))).
Proof. unfold zlib_end_stub, recorded_end. destruct (zend (fst (fst s))). exists []. symmetry. apply app_nil_r. Qed.
Lemma def_finish_ext fuel : forall s, ext s (fst (def_finish fresh _ (recorded zlib) (recorded_end zend) fuel s)).
Proof.
  induction fuel as [|fuel IH]; intros s; cbn [def_finish]; [apply ext_refl|].
  apply ext_bind; [apply call_ext|]. intros s' x. destruct (fst x); [apply end_ext|apply IH].
Qed.
Lemma inf_put_ext fuel : forall s src ofs len, ext s (fst (inf_put fresh _ (recorded zlib) fuel s src ofs len)).
Proof.
  induction fuel as [|fuel IH]; intros s src ofs len; cbn [inf_put]; destruct (len >? 0); try apply ext_refl.
  apply ext_bind; [apply call_ext|]. intros s' x. destruct (_ <? _); [|apply ext_refl]. destruct (fst x); [apply ext_refl|apply IH].
Qed.
Lemma do_finish_ext fuel : forall s b, ext s (fst (do_finish fresh _ (recorded zlib) fuel s b)).
Proof.
  induction fuel as [|fuel IH]; intros s b; cbn [do_finish]; [apply ext_refl|].
  apply ext_bind; [apply call_ext|]. intros s' x. destruct (fst x); [apply ext_refl|apply IH].
Qed.
Lemma inf_finish_ext fuel s : ext s (fst (inf_finish fresh _ (recorded zlib) (recorded_end zend) fuel s)).
Proof. unfold inf_finish. apply ext_bind; [apply do_finish_ext|]. intros s' _. apply end_ext. Qed.

(* the states met *)
Definition contents (s : obj) : bytes := bo_contents (snd s).
Definition good (s : obj) : Prop := bo_inv (snd s) /\ zlen (obuf (snd s)) <= 2 ^ 31 /\ zlen (contents s) <= zlen (made (zlog s)).
Definition small (s : obj) : Prop := zlen (made (zlog s)) <= zlimit.
Lemma small_ext s s' : ext s s' -> small s' -> small s.
Proof. intros [l E]. unfold small. rewrite E, made_app, zlen_app. pose proof (zlen_nonneg (made l)). lia. Qed.

(* a result: P holds of the value and of the calls made *)
Definition ok {A} (s : obj) (r : obj * out A) (P : A -> list zcall -> Prop) : Prop :=
  good s -> small (fst r) -> snd r <> Undef /\ good (fst r) /\
  forall a, snd r = Ret a -> exists l, zlog (fst r) = zlog s ++ l /\ contents (fst r) = contents s ++ made l /\ P a l.

Lemma ok_ret {A} s (a : A) (P : A -> list zcall -> Prop) : P a [] -> ok s (s, Ret a) P.
Proof.
  intros H G _. cbn [fst snd]. split; [discriminate|]. split; [exact G|]. intros b [= <-]. exists []. rewrite !app_nil_r. auto.
Qed.
Lemma ok_raise {A} s e (P : A -> list zcall -> Prop) : ok s (s, Raise e) P.
Proof. intros G _. cbn [fst snd]. split; [discriminate|]. split; [exact G|]. discriminate. Qed.
Lemma ok_hang {A} s (P : A -> list zcall -> Prop) : ok s (s, Hang) P.
Proof. intros G _. cbn [fst snd]. split; [discriminate|]. split; [exact G|]. discriminate. Qed.
Lemma ok_bind {A B} s (r : obj * out A) (k : obj -> A -> obj * out B) (P : A -> list zcall -> Prop) (Q : B -> list zcall -> Prop) :
  ok s r P -> (forall s' a, ext s' (fst (k s' a))) ->
  (forall s' a l, P a l -> ok s' (k s' a) (fun b l' => Q b (l ++ l'))) -> ok s (bind r k) Q.
Proof.
  intros H E K G S. destruct r as [s1 [a| | |]]; cbn [bind fst snd] in *.
  - destruct (H G (small_ext _ _ (E s1 a) S)) as (_ & G1 & H1). cbn [fst snd] in *. destruct (H1 a eq_refl) as (l & L1 & C1 & P1).
    destruct (K s1 a l P1 G1 S) as (U & G2 & H2). split; [exact U|]. split; [exact G2|]. intros b Hb. destruct (H2 b Hb) as (l' & L2 & C2 & Q2).
    exists (l ++ l'). rewrite L2, L1, C2, C1, made_app, !app_assoc. auto.
  - destruct (H G S) as (_ & G1 & _). split; [discriminate|]. split; [exact G1|]. discriminate.
  - destruct (H G S) as (U & _). cbn in U. congruence.
  - destruct (H G S) as (_ & G1 & _). split; [discriminate|]. split; [exact G1|]. discriminate.
Qed.
Lemma ok_imp {A} s (r : obj * out A) (P Q : A -> list zcall -> Prop) : ok s r P -> (forall a l, P a l -> Q a l) -> ok s r Q.
Proof. intros H I G S. destruct (H G S) as (U & G1 & H1). splits; try assumption. intros a E. destruct (H1 a E) as (l & L & C & Pl). exists l. auto. Qed.

Lemma call_ok s src ofs len f : in_range src ofs len = true -> len < 2 ^ 32 ->
  ok s (call s src ofs len f) (fun x l => exists c, l = [c] /\ zc_in c = sub src ofs (snd x) /\ 0 <= snd x <= len /\ zc_flush c = f /\ zc_end c = fst x).
Proof.
  intros R Hl G S. assert (S0 : small s) by exact (small_ext _ _ (call_ext s src ofs len f) S). destruct G as (G1 & G2 & G3).
  assert (RL : 0 <= len /\ 0 <= ofs /\ ofs <= zlen src - len) by (unfold in_range in R; lia).
  unfold small, zlimit in S0. revert S. unfold z_call.
  destruct (ensure_capacity_ok fresh fresh_len (snd s) 256 G1 ltac:(lia)) as (b & E & I & C & Rm). { unfold contents in G3. unfold max_string_length. lia. }
  pose proof (ensure_size fresh fresh_len (snd s) 256 _ _ G1 ltac:(lia) ltac:(unfold contents in G3; lia) G2 E) as Sz.
  rewrite E. unfold lift. cbn [bind fst snd]. pose proof I as (I1 & I2 & I3).
  unfold zlib_stub, uint32. rewrite (Z.mod_small len) by lia. rewrite (Z.mod_small (zlen (obuf b) - oend b)) by lia. rewrite R.
  replace (in_range (obuf b) (oend b) (zlen (obuf b) - oend b)) with true by (unfold in_range; lia). cbn [andb].
  unfold recorded. cbn [fst snd]. pose proof (ZOK (fst (fst s)) (sub src ofs len) (zlen (obuf b) - oend b) f ltac:(lia)) as Z1.
  destruct (zlib _ _ _ _) as [[[z' code] used] o]. cbv zeta in Z1. rewrite zlen_sub in Z1 by lia. destruct Z1 as [U O].
  assert (Cb : bo_contents b = contents s) by exact C.
  destruct (bo_append b o _ I ltac:(lia) eq_refl) as [A1 A2].
  assert (SL : zlen (splice (obuf b) (oend b) o) = zlen (obuf b)) by (apply zlen_splice; lia).
  assert (W : forall c : zcall, zc_out c = o -> zlen (bo_contents b ++ o) <= zlen (made (zlog s ++ [c]))).
  { intros c Hc. rewrite made_app, !zlen_app, Cb. unfold made at 2. cbn [flat_map]. rewrite Hc, app_nil_r. lia. }
  assert (Fin : forall e, let s1 := ((z', zlog s ++ [ZCall (firstn (Z.to_nat used) (sub src ofs len)) o f e], BO (splice (obuf b) (oend b) o) (obeg b) (oend b + (zlen (obuf b) - oend b - (zlen (obuf b) - oend b - zlen o)))) : obj) in
    good s1 /\ contents s1 = contents s ++ o).
  { intros e. cbv zeta. replace (oend b + (zlen (obuf b) - oend b - (zlen (obuf b) - oend b - zlen o))) with (oend b + zlen o) by lia. unfold good, contents, calls. cbn [fst snd]. rewrite A2.
    splits; [exact A1|cbn [obuf]; lia|apply W; reflexivity|fold (contents s); congruence]. }
  destruct code; cbn [bind fst snd]; intros S.
  - destruct (Fin false) as [F1 F2]. split; [discriminate|]. split; [exact F1|]. intros a [= <-]. eexists. split; [reflexivity|]. split; [etransitivity; [exact F2|]; unfold made; cbn [flat_map zc_out]; rewrite app_nil_r; reflexivity|].
    eexists. split; [reflexivity|]. cbn [zc_in zc_flush zc_end fst snd]. splits; try lia; try reflexivity. replace (len - (len - used)) with used by lia. apply firstn_sub; lia.
  - destruct (Fin true) as [F1 F2]. split; [discriminate|]. split; [exact F1|]. intros a [= <-]. eexists. split; [reflexivity|]. split; [etransitivity; [exact F2|]; unfold made; cbn [flat_map zc_out]; rewrite app_nil_r; reflexivity|].
    eexists. split; [reflexivity|]. cbn [zc_in zc_flush zc_end fst snd]. splits; try lia; try reflexivity. replace (len - (len - used)) with used by lia. apply firstn_sub; lia.
  - split; [discriminate|]. split; [|discriminate].
    unfold good, contents, calls. cbn [fst snd obuf obeg oend]. assert (Cc : bo_contents (BO (splice (obuf b) (oend b) o) (obeg b) (oend b)) = bo_contents b).
    { unfold bo_contents. cbn [obuf obeg oend]. apply sub_splice_before; lia. }
    rewrite Cc, Cb, app_nil_r. splits; [|lia|exact G3]. unfold bo_inv. cbn [obuf obeg oend]. lia.
Qed.

Lemma def_put_ok fuel : forall s src ofs len, in_range src ofs len = true -> len < 2 ^ 32 ->
  ok s (def_put fresh _ (recorded zlib) fuel s src ofs len) (fun _ l => taken l = sub src ofs len /\ Forall (fun c => zc_flush c = Z_NO_FLUSH) l).
Proof.
  induction fuel as [|fuel IH]; intros s src ofs len R Hl; cbn [def_put]; destruct (Z.gtb_spec len 0).
  1: apply ok_hang.
  1,3: apply ok_ret; replace len with 0 by (unfold in_range in R; lia); rewrite sub_0_len; auto.
  eapply ok_bind; [apply call_ok; assumption| |].
  - intros s' x. destruct (_ <? _); [apply def_put_ext|apply ext_refl].
  - intros s' x l (c & -> & I & U & Fl & _). destruct (Z.ltb_spec (snd x) len) as [L|L].
    + eapply ok_imp; [apply IH; [unfold in_range in *; lia|lia]|]. intros _ l' [T F]. split; [|constructor; assumption].
      change (zc_in c ++ taken l' = sub src ofs len). rewrite T, I. replace len with (snd x + (len - snd x)) at 2 by lia. symmetry. apply sub_app_split; unfold in_range in R; lia.
    + apply ok_ret. split; [|constructor; auto]. change (zc_in c ++ [] = sub src ofs len). rewrite app_nil_r, I. f_equal. lia.
Qed.

Lemma def_flush_ok fuel : forall s, ok s (def_flush fresh _ (recorded zlib) fuel s) (fun _ l => taken l = [] /\ Forall (fun c => zc_flush c = Z_SYNC_FLUSH) l).
Proof.
  induction fuel as [|fuel IH]; intros s; cbn [def_flush]; [apply ok_hang|].
  eapply ok_bind; [apply call_ok; [reflexivity|lia]| |].
  - intros s' x. destruct (_ =? _); [apply def_flush_ext|apply ext_refl].
  - intros s' x l (c & -> & I & U & Fl & _). assert (C0 : zc_in c = []) by (rewrite I; replace (snd x) with 0 by lia; reflexivity). destruct (_ =? _).
    + eapply ok_imp; [apply IH|]. intros _ l' [T F]. split; [|constructor; assumption]. change (zc_in c ++ taken l' = []). rewrite T, C0. reflexivity.
    + apply ok_ret. split; [|constructor; auto]. change (zc_in c ++ [] = []). rewrite C0. reflexivity.
Qed.

Lemma end_ok s (P : unit -> list zcall -> Prop) : P tt [] -> ok s (lift (fun z => (z, snd s)) (zlib_end_stub _ (recorded_end zend) (fst s))) P.
Proof.
  intros H G S. unfold zlib_end_stub, recorded_end in *. destruct (zend (fst (fst s))) as [z b]. unfold lift in *. cbn [fst snd] in *. destruct b; cbn [fst snd].
  - split; [discriminate|]. split; [exact G|]. intros a [= <-]. exists []. rewrite !app_nil_r. auto.
  - split; [discriminate|]. split; [exact G|]. discriminate.
Qed.

Lemma ended_cons f c l : zc_flush c = f -> ended f l -> ended f (c :: l).
Proof. intros H (F & l' & d & -> & E). split; [constructor; assumption|]. exists (c :: l'), d. auto. Qed.
Lemma ended_one f c : zc_flush c = f -> zc_end c = true -> ended f [c].
Proof. intros H E. split; [auto|]. exists [], c. auto. Qed.

Lemma def_finish_ok fuel : forall s, ok s (def_finish fresh _ (recorded zlib) (recorded_end zend) fuel s) (fun _ l => taken l = [] /\ ended Z_FINISH l).
Proof.
  induction fuel as [|fuel IH]; intros s; cbn [def_finish]; [apply ok_hang|].
  eapply ok_bind; [apply call_ok; [reflexivity|lia]| |].
  - intros s' x. destruct (fst x); [apply end_ext|apply def_finish_ext].
  - intros s' x l (c & -> & I & U & Fl & En). assert (C0 : zc_in c = []) by (rewrite I; replace (snd x) with 0 by lia; reflexivity). destruct (fst x).
    + apply end_ok. split; [|apply ended_one; assumption]. change (zc_in c ++ [] = []). rewrite C0. reflexivity.
    + eapply ok_imp; [apply IH|]. intros _ l' [T F]. split; [|apply ended_cons; assumption]. change (zc_in c ++ taken l' = []). rewrite T, C0. reflexivity.
Qed.

Lemma inf_put_ok fuel : forall s src ofs len, in_range src ofs len = true -> len < 2 ^ 32 ->
  ok s (inf_put fresh _ (recorded zlib) fuel s src ofs len) (fun _ l => taken l = sub src ofs len /\ Forall (fun c => zc_flush c = Z_SYNC_FLUSH) l).
Proof.
  induction fuel as [|fuel IH]; intros s src ofs len R Hl; cbn [inf_put]; destruct (Z.gtb_spec len 0).
  1: apply ok_hang.
  1,3: apply ok_ret; replace len with 0 by (unfold in_range in R; lia); rewrite sub_0_len; auto.
  eapply ok_bind; [apply call_ok; assumption| |].
  - intros s' x. destruct (_ <? _); [|apply ext_refl]. destruct (fst x); [apply ext_refl|apply inf_put_ext].
  - intros s' x l (c & -> & I & U & Fl & _). destruct (Z.ltb_spec (snd x) len) as [L|L].
    + destruct (fst x); [apply ok_raise|]. eapply ok_imp; [apply IH; [unfold in_range in *; lia|lia]|]. intros _ l' [T F]. split; [|constructor; assumption].
      change (zc_in c ++ taken l' = sub src ofs len). rewrite T, I. replace len with (snd x + (len - snd x)) at 2 by lia. symmetry. apply sub_app_split; unfold in_range in R; lia.
    + apply ok_ret. split; [|constructor; auto]. change (zc_in c ++ [] = sub src ofs len). rewrite app_nil_r, I. f_equal. lia.
Qed.

Lemma do_finish_ok fuel : forall s b, ok s (do_finish fresh _ (recorded zlib) fuel s b)
  (fun _ l => (taken l = [] \/ b = true /\ taken l = [32]) /\ ended Z_SYNC_FLUSH l).
Proof.
  induction fuel as [|fuel IH]; intros s b; cbn [do_finish]; [apply ok_hang|].
  eapply ok_bind; [apply call_ok; [destruct b; reflexivity|destruct b; lia]| |].
  - intros s' x. destruct (fst x); [apply ext_refl|apply do_finish_ext].
  - intros s' x l (c & -> & I & U & Fl & En). assert (C0 : zc_in c = [] \/ b = true /\ zc_in c = [32]).
    { rewrite I. destruct (Z.eq_dec (snd x) 0) as [->|Hx]; [left; reflexivity|]. destruct b; [|lia]. right. replace (snd x) with 1 by lia. auto. }
    destruct (fst x).
    + apply ok_ret. split; [|apply ended_one; assumption]. cbn [app]. replace (taken [c]) with (zc_in c) by (symmetry; apply app_nil_r). exact C0.
    + eapply ok_imp; [apply IH|]. intros _ l' [T F]. split; [|apply ended_cons; assumption]. change (taken ([c] ++ l')) with (zc_in c ++ taken l').
      destruct T as [T|[T _]]; [|discriminate]. rewrite T, app_nil_r. exact C0.
Qed.
Lemma inf_finish_ok fuel s : ok s (inf_finish fresh _ (recorded zlib) (recorded_end zend) fuel s)
  (fun _ l => (taken l = [] \/ taken l = [32]) /\ ended Z_SYNC_FLUSH l).
Proof.
  unfold inf_finish. eapply ok_bind; [apply do_finish_ok| |].
  - intros s' _. apply end_ext.
  - intros s' _ l [T E]. apply end_ok. rewrite app_nil_r. split; [|exact E]. destruct T as [T|[_ T]]; auto.
Qed.

(* histories *)
Section Hist.
Variables (put : obj -> bytes -> Z -> Z -> obj * out unit) (flush finish : obj -> obj * out unit) (extra : bytes).
Hypothesis put_ext : forall s src ofs len, ext s (fst (put s src ofs len)).
Hypothesis flush_ext : forall s, ext s (fst (flush s)).
Hypothesis finish_ext : forall s, ext s (fst (finish s)).
Hypothesis put_ok : forall s src ofs len, in_range src ofs len = true -> len < 2 ^ 32 -> ok s (put s src ofs len) (fun _ l => taken l = sub src ofs len).
Hypothesis flush_ok : forall s, ok s (flush s) (fun _ l => taken l = []).
Hypothesis finish_ok : forall s, ok s (finish s) (fun _ l => taken l = [] \/ taken l = extra).
Notation T := (z_class _ put flush finish).

Lemma step_ext s o : ext s (fst (t_step T s o)).
Proof.
  destruct o; cbn [t_step z_class t_put_substring t_put_string t_put_char t_put_byte t_flush t_finish t_get_string t_get_substring t_get_char t_get_byte t_available];
    unfold unit_obs, int_obs, bytes_obs, substring_obs, z_put_char, z_put_string, z_on_bo; cbn [fst];
    try apply put_ext; try apply flush_ext; try apply finish_ext; try (exists []; symmetry; apply app_nil_r).
  destruct (_ && _); [apply put_ext|apply ext_refl].
Qed.
Lemma exec_ext ops : forall s, ext s (fst (t_exec T s ops)).
Proof.
  induction ops as [|o ops IH]; intros s; cbn [t_exec]; [apply ext_refl|]. pose proof (step_ext s o) as E. destruct (t_step T s o) as [s' ob]. cbn [fst] in E.
  destruct (ends o ob); [exact E|]. specialize (IH s'). destruct (t_exec T s' ops) as [s2 l]. eapply ext_trans; eassumption.
Qed.

(* what the step gives back *)
Definition back (o : op) (ob : obs) : bytes := returned [o] [ob].
Lemma returned_cons o ob ops l : returned (o :: ops) (ob :: l) = back o ob ++ returned ops l.
Proof. unfold back. destruct o, ob; cbn [returned]; rewrite ?app_nil_r; reflexivity. Qed.

Lemma step_ok s o : good s -> op_valid o -> op_small o -> small (fst (t_step T s o)) ->
  good (fst (t_step T s o)) /\ snd (t_step T s o) <> OUndef /\
  (ends o (snd (t_step T s o)) = false -> exists l, zlog (fst (t_step T s o)) = zlog s ++ l /\
     contents s ++ made l = back o (snd (t_step T s o)) ++ contents (fst (t_step T s o)) /\
     (o <> Finish -> taken l = op_data o) /\ (o = Finish -> taken l = [] \/ taken l = extra)).
Proof.
  intros G V Sm. 
  assert (U : forall (r : obj * out unit) (P : list zcall -> Prop), ok s r (fun _ l => P l) -> small (fst r) ->
    (forall l, P l -> (o <> Finish -> taken l = op_data o) /\ (o = Finish -> taken l = [] \/ taken l = extra)) -> back o OUnit = [] -> (forall ob, ends o ob = match ob with OExn _ | OUndef | OHang => true | _ => false end) ->
    good (fst (unit_obs r)) /\ snd (unit_obs r) <> OUndef /\ (ends o (snd (unit_obs r)) = false -> exists l, zlog (fst (unit_obs r)) = zlog s ++ l /\
     contents s ++ made l = back o (snd (unit_obs r)) ++ contents (fst (unit_obs r)) /\
     (o <> Finish -> taken l = op_data o) /\ (o = Finish -> taken l = [] \/ taken l = extra))).
  { intros r P O S Pl B En. destruct (O G S) as (NU & G' & R). unfold unit_obs. cbn [fst snd]. destruct r as [s' [[]| | |]]; cbn [fst snd] in *.
    - split; [exact G'|]. split; [discriminate|]. intros _. destruct (R tt eq_refl) as (l & L & C & Q). exists l. rewrite B. cbn [app]. split; [exact L|]. split; [symmetry; exact C|]. apply Pl. exact Q.
    - split; [exact G'|]. split; [discriminate|]. rewrite En. discriminate.
    - congruence.
    - split; [exact G'|]. split; [discriminate|]. rewrite En. discriminate. }
  destruct G as (G1 & G2 & G3).
  assert (Same : forall b', bo_inv b' -> zlen (obuf b') <= 2 ^ 31 -> zlen (bo_contents b') <= zlen (contents s) -> good ((fst s, b') : obj)).
  { intros b' I1 I2 I3. unfold good, contents, calls in *. cbn [fst snd] in *. splits; [exact I1|exact I2|lia]. }
  destruct o; cbn [op_valid] in V; unfold op_small in Sm; cbn [op_data] in Sm;
    cbn [t_step z_class t_put_substring t_put_string t_put_char t_put_byte t_flush t_finish t_get_string t_get_substring t_get_char t_get_byte t_available].
  - destruct V as (V1 & V2 & V3). intros S. eapply U; [apply put_ok; [exact V1|rewrite zlen_sub in Sm by (unfold in_range in V1; lia); exact Sm]|exact S| |reflexivity|intros []; reflexivity].
    intros l Pl. split; [intros _; exact Pl|discriminate].
  - destruct V as (V1 & V2). intros S. unfold z_put_string in *. eapply U; [apply put_ok; [unfold in_range; pose proof (zlen_nonneg s0); lia|exact Sm]|exact S| |reflexivity|intros []; reflexivity].
    intros l Pl. split; [|discriminate]. intros _. rewrite Pl. apply sub_0_all. reflexivity.
  - intros S. unfold z_put_char, z_put_string in *. eapply U; [apply put_ok; [reflexivity|exact Sm]|exact S| |reflexivity|intros []; reflexivity].
    intros l Pl. split; [|discriminate]. intros _. exact Pl.
  - unfold byte_ok in V. replace ((0 <=? n) && (n <? 256)) with true by lia. intros S. unfold z_put_char, z_put_string in *. eapply U; [apply put_ok; [reflexivity|exact Sm]|exact S| |reflexivity|intros []; reflexivity].
    intros l Pl. split; [|discriminate]. intros _. exact Pl.
  - intros S. eapply U; [apply flush_ok|exact S| |reflexivity|intros []; reflexivity]. intros l Pl. split; [|discriminate]. intros _. exact Pl.
  - intros S. eapply U; [apply finish_ok|exact S| |reflexivity|intros []; reflexivity]. intros l Pl. split; [congruence|]. intros _. exact Pl.
  - intros S. cbn [fst snd]. split; [repeat split; try apply G1; assumption|]. split; [discriminate|]. intros _. exists []. rewrite !app_nil_r. splits; try reflexivity; discriminate.
  - intros S. unfold bytes_obs, z_on_bo in *. destruct (bo_get_string_ok (snd s) G1) as (b' & E & I & C). assert (Ob : zlen (obuf b') <= 2 ^ 31) by (revert E; unfold bo_get_string; destruct (bytes_sub _ _ _); intros [= <-]; exact G2).
    rewrite E in *. cbn [fst snd] in *. split; [apply Same; [exact I|exact Ob|rewrite C; apply zlen_nonneg]|]. split; [discriminate|]. intros _. exists []. rewrite !app_nil_r. splits; try reflexivity; try discriminate.
    unfold back. cbn [returned]. rewrite app_nil_r. unfold contents. cbn [snd]. rewrite C, app_nil_r. reflexivity.
  - intros S. unfold substring_obs, z_on_bo in *. destruct (bo_get_substring_ok (snd s) G1) as (b' & E & IR & Sb & I & C). assert (Ob : zlen (obuf b') <= 2 ^ 31) by (revert E; unfold bo_get_substring; intros [= <-]; exact G2).
    rewrite E in *. cbn [fst snd] in *. rewrite IR, Sb in *. split; [apply Same; [exact I|exact Ob|rewrite C; apply zlen_nonneg]|]. split; [discriminate|]. intros _. exists []. rewrite !app_nil_r. splits; try reflexivity; try discriminate.
    unfold back. cbn [returned]. rewrite app_nil_r. unfold contents. cbn [snd]. rewrite C, app_nil_r. reflexivity.
  - intros S. unfold int_obs, z_on_bo in *. pose proof (bo_get_char_ok (snd s) G1) as E. unfold contents in *. destruct (bo_contents (snd s)) as [|c q] eqn:Q.
    + rewrite E in *. cbn [fst snd] in *. split; [apply Same; [exact G1|exact G2|rewrite Q; apply zlen_nonneg]|]. split; [discriminate|]. intros _. exists []. rewrite !app_nil_r. splits; try reflexivity; try discriminate. cbn. rewrite Q. reflexivity.
    + destruct E as (b' & E & I & C). assert (Ob : zlen (obuf b') <= 2 ^ 31). { revert E. unfold bo_get_char. destruct (_ >=? _); [intros; discriminate|]. destruct (bytes_get _ _); intros [= <- _]; exact G2. }
      rewrite E in *. cbn [fst snd] in *. split; [apply Same; [exact I|exact Ob|rewrite C, zlen_cons; lia]|]. split; [discriminate|]. intros _. exists []. rewrite !app_nil_r. splits; try reflexivity; try discriminate. cbn. rewrite C. reflexivity.
  - intros S. unfold int_obs, z_on_bo in *. pose proof (bo_get_char_ok (snd s) G1) as E. unfold contents in *. destruct (bo_contents (snd s)) as [|c q] eqn:Q.
    + rewrite E in *. cbn [fst snd] in *. split; [apply Same; [exact G1|exact G2|rewrite Q; apply zlen_nonneg]|]. split; [discriminate|]. intros _. exists []. rewrite !app_nil_r. splits; try reflexivity; try discriminate. cbn. rewrite Q. reflexivity.
    + destruct E as (b' & E & I & C). assert (Ob : zlen (obuf b') <= 2 ^ 31). { revert E. unfold bo_get_char. destruct (_ >=? _); [intros; discriminate|]. destruct (bytes_get _ _); intros [= <- _]; exact G2. }
      rewrite E in *. cbn [fst snd] in *. split; [apply Same; [exact I|exact Ob|rewrite C, zlen_cons; lia]|]. split; [discriminate|]. intros _. exists []. rewrite !app_nil_r. splits; try reflexivity; try discriminate. cbn. rewrite C. reflexivity.
Qed.

Lemma exec_ok ops : forall s, good s -> Forall op_valid ops -> Forall op_small ops -> small (fst (t_exec T s ops)) ->
  good (fst (t_exec T s ops)) /\ ~ In OUndef (snd (t_exec T s ops)) /\
  (all_done ops (snd (t_exec T s ops)) -> exists l, zlog (fst (t_exec T s ops)) = zlog s ++ l /\
     contents s ++ made l = returned ops (snd (t_exec T s ops)) ++ contents (fst (t_exec T s ops)) /\ given extra ops (taken l)).
Proof.
  induction ops as [|o ops IH]; intros s G V Sm; cbn [t_exec].
  - cbn [fst snd]. intros _. split; [exact G|]. split; [intros []|]. intros _. exists []. rewrite !app_nil_r. splits; try reflexivity. constructor.
  - inversion_clear V as [|? ? V1 V2]. inversion_clear Sm as [|? ? S1 S2]. pose proof (step_ok s o G V1 S1) as St. destruct (t_step T s o) as [s' ob] eqn:Es. cbn [fst snd] in St.
    destruct (ends o ob) eqn:En.
    + cbn [fst snd]. intros S. destruct (St S) as (G' & NU & _). split; [exact G'|]. split; [intros [E|[]]; congruence|]. cbn [all_done]. intros [E _]. congruence.
    + specialize (IH s'). pose proof (exec_ext ops s') as Ex. destruct (t_exec T s' ops) as [s2 l2]. cbn [fst snd] in *. intros S. destruct (St (small_ext _ _ Ex S)) as (G' & NU & R). destruct (IH G' V2 S2 S) as (G2 & NU2 & R2).
      split; [exact G2|]. split; [intros [E|E]; [congruence|exact (NU2 E)]|]. cbn [all_done]. intros [_ D]. destruct (R eq_refl) as (l & L & C & T1 & T2). destruct (R2 D) as (l' & L' & C' & Gv).
      exists (l ++ l'). rewrite L', L, app_assoc. split; [reflexivity|]. split.
      * rewrite made_app, app_assoc, C, <- app_assoc, C', returned_cons. apply app_assoc.
      * rewrite taken_app. destruct o; try (rewrite (T1 ltac:(discriminate)); apply given_op; [discriminate|exact Gv]). apply given_finish; [exact (T2 eq_refl)|exact Gv].
Qed.
End Hist.
End Z.
