(* Hash objects: from the behaviour of single calls to any history of calls. *)
From Verif Require Import Prelude PreludeFacts SpecTransducer TransformModel Transform HashModel HashSpec.

(* R s m: the object state s has absorbed the message m *)
Record himpl (P : bytes -> Prop) (H : hash) (D : bytes -> out bytes) (R : h_st H -> bytes -> Prop) : Prop := {
  hi_prefix : forall a b, P (a ++ b) -> P a;
  hi_op : forall s m o, R s m -> hop_valid o -> P (m ++ hop_bytes o) ->
    exists s', h_step H s o = (s', Ret tt) /\ R s' (m ++ hop_bytes o);
  hi_res : forall s m, R s m -> P m -> snd (h_result H s) = D m;
  hi_wipe : forall s m, R s m -> P m -> snd (h_wipe H (fst (h_result H s))) = Ret tt }.

Lemma h_run_ok P H D R (I : himpl P H D R) ops : forall s m, R s m -> Forall hop_valid ops -> P (m ++ added ops) ->
  exists s', h_run H s ops = (s', Ret tt) /\ R s' (m ++ added ops).
Proof.
  induction ops as [|o ops IH]; intros s m HR Hv HP.
  - exists s. split; [reflexivity|]. unfold added; cbn. rewrite app_nil_r. assumption.
  - apply Forall_cons_iff in Hv as (Hv1 & Hv2). unfold added in *. cbn [map concat h_run] in *. rewrite app_assoc in HP.
    destruct (hi_op _ _ _ _ I s m o HR Hv1 (hi_prefix _ _ _ _ I _ _ HP)) as (s1 & -> & HR1). cbn [bind].
    destruct (IH s1 (m ++ hop_bytes o) HR1 Hv2 HP) as (s2 & E & HR2). exists s2. split; [assumption|].
    rewrite app_assoc. assumption.
Qed.

Lemma himpl_computes P H D R s0 : himpl P H D R -> R s0 [] -> computes_on P (HObj H s0) D.
Proof.
  intros I HR ops Hv HP. cbn [ho_class ho_st]. destruct (h_run_ok _ _ _ _ I ops s0 [] HR Hv HP) as (s' & -> & HR').
  split; [reflexivity|]. cbn [fst]. split; [exact (hi_res _ _ _ _ I _ _ HR' HP)|exact (hi_wipe _ _ _ _ I _ _ HR' HP)].
Qed.

(* conversely, the states reached by calls make an implementation *)
Definition reached (o : hobj) (s : h_st (ho_class o)) (m : bytes) : Prop :=
  exists ops, Forall hop_valid ops /\ added ops = m /\ h_run (ho_class o) (ho_st o) ops = (s, Ret tt).
Lemma h_run_app H ops1 : forall s ops2, h_run H s (ops1 ++ ops2) = (let! (s, u) := h_run H s ops1 in h_run H s ops2).
Proof.
  induction ops1 as [|o ops1 IH]; intros s ops2; [reflexivity|]. cbn [app h_run]. destruct (h_step H s o) as [s1 [| | |]]; cbn [bind]; try reflexivity. apply IH.
Qed.
Lemma computes_himpl (P : bytes -> Prop) o D : (forall a b, P (a ++ b) -> P a) -> computes_on P o D ->
  himpl P (ho_class o) D (reached o) /\ reached o (ho_st o) [].
Proof.
  intros HP HC. split; [constructor; [assumption| | |]|exists []; repeat split; constructor].
  - intros s m op (ops & Hv & Ha & Hr) Hop Hp.
    assert (Ha' : added (ops ++ [op]) = m ++ hop_bytes op) by (unfold added in *; rewrite map_app, concat_app, Ha; cbn; rewrite app_nil_r; reflexivity).
    assert (Hv' : Forall hop_valid (ops ++ [op])) by (apply Forall_app; split; [assumption|repeat constructor; assumption]).
    destruct (HC (ops ++ [op]) Hv') as (E & _); [rewrite Ha'; assumption|].
    assert (Er : h_run (ho_class o) (ho_st o) (ops ++ [op]) = h_step (ho_class o) s op).
    { rewrite h_run_app, Hr. cbn [bind h_run]. destruct (h_step (ho_class o) s op) as [s1 [[]| | |]]; reflexivity. }
    rewrite Er in E. exists (fst (h_step (ho_class o) s op)). destruct (h_step (ho_class o) s op) as [s1 r]. cbn [snd fst] in *. subst r.
    split; [reflexivity|]. exists (ops ++ [op]). auto.
  - intros s m (ops & Hv & Ha & Hr) Hp. subst m. destruct (HC ops Hv Hp) as (_ & E & _). rewrite Hr in E. exact E.
  - intros s m (ops & Hv & Ha & Hr) Hp. subst m. destruct (HC ops Hv Hp) as (_ & _ & E). rewrite Hr in E. exact E.
Qed.

Lemma himpl_string P H D R s m str : himpl P H D R -> R s m -> bytes_ok str -> zlen str <= max_string_length -> P (m ++ str) ->
  snd (hash_string H s str) = D (m ++ str).
Proof.
  intros I HR Hb Hl HP. unfold hash_string.
  destruct (hi_op _ _ _ _ I s m (HString str) HR (conj Hb Hl) HP) as (s' & E & HR').
  cbn [h_step hop_bytes] in *. rewrite E. cbn [bind].
  pose proof (hi_res _ _ _ _ I _ _ HR' HP) as Hr. destruct (h_result H s') as [s2 r] eqn:Er. cbn [snd] in Hr. subst r.
  pose proof (hi_wipe _ _ _ _ I _ _ HR' HP) as Hw.
  assert (E2 : s2 = fst (h_result H s')) by (rewrite Er; reflexivity).
  destruct (D (m ++ str)); cbn [bind]; try reflexivity.
  rewrite <- E2 in Hw. destruct (h_wipe H s2) as [s3 u]. cbn [snd] in Hw. subst u. reflexivity.
Qed.

(* ---- the classes written over C stubs ---- *)
Lemma c_hash_himpl (P : bytes -> Prop) K size upd fin wipe D (R : K -> bytes -> Prop) :
  (forall a b, P (a ++ b) -> P a) ->
  (forall k m d, R k m -> bytes_ok d -> zlen d <= max_string_length -> P (m ++ d) -> exists k', upd k d = Ret k' /\ R k' (m ++ d)) ->
  (forall k m, R k m -> P m -> snd (fin k) = D m) ->
  himpl P (c_hash K size upd fin wipe) D R.
Proof.
  intros HP Hu Hf.
  assert (S : forall k m src, R k m -> bytes_ok src -> zlen src <= max_string_length -> P (m ++ src) ->
     exists k', c_update upd k src 0 (zlen src) = (k', Ret tt) /\ R k' (m ++ src)).
  { intros k m src HR Hb Hl Hp. unfold c_update.
    assert (in_range src 0 (zlen src) = true) as -> by (apply in_range_true; pose proof (zlen_nonneg src); lia).
    rewrite sub_0_all by reflexivity. destruct (Hu k m src HR Hb Hl Hp) as (k' & -> & HR'). exists k'. split; [reflexivity|assumption]. }
  constructor; [assumption| |exact Hf|intros; reflexivity].
  cbn [c_hash h_st]. intros k m o HR Hv Hp. destruct o as [src ofs len|s|c|n]; cbn [h_step hop_bytes c_hash h_add_substring h_add_string h_add_char h_add_byte] in *.
  - destruct Hv as (Hb & Hl & Hr). pose proof (proj1 (in_range_true _ _ _) Hr).
    destruct ((ofs <? 0) || (len <? 0) || (ofs >? zlen src - len)) eqn:E; [lia|]. unfold c_update. rewrite Hr.
    destruct (Hu k m (sub src ofs len) HR Hb) as (k' & -> & HR').
    { rewrite zlen_sub by lia. lia. } { assumption. }
    exists k'. split; [reflexivity|assumption].
  - destruct Hv. apply S; assumption.
  - apply S; [assumption|repeat constructor; apply Hv|rewrite zlen_one; unfold max_string_length; lia|assumption].
  - apply S; [assumption|repeat constructor; apply Z.mod_pos_bound; lia|rewrite zlen_one; unfold max_string_length; lia|assumption].
Qed.

(* ranges outside the buffer are refused before the C stub is called *)
Lemma c_hash_bad_range K size upd fin wipe k src ofs len : in_range src ofs len = false ->
  h_add_substring (c_hash K size upd fin wipe) k src ofs len = (k, Raise Invalid_argument).
Proof.
  intros H. cbn [h_add_substring c_hash].
  destruct ((ofs <? 0) || (len <? 0) || (ofs >? zlen src - len)) eqn:E; [reflexivity|].
  exfalso. unfold in_range in H. lia.
Qed.

(* ---- hash_channel ---- *)
Lemma input_chunk (sched : nat -> Z) ch buf n : 0 < n <= zlen buf ->
  exists r, input sched ch buf n =
    (Channel (skipn (Z.to_nat r) (ch_data ch)) (S (ch_calls ch)),
     splice buf 0 (firstn (Z.to_nat r) (ch_data ch)), r) /\
    0 <= r <= n /\ r <= zlen (ch_data ch) /\ (r = 0 -> ch_data ch = []) /\
    zlen (splice buf 0 (firstn (Z.to_nat r) (ch_data ch))) = zlen buf /\
    sub (splice buf 0 (firstn (Z.to_nat r) (ch_data ch))) 0 r
     = firstn (Z.to_nat r) (ch_data ch).
Proof.
  intros Hn. eexists; split; [reflexivity|].
  pose proof (zlen_nonneg (ch_data ch)).
  assert (Hr : 0 <= input_amount sched ch n <= n /\ input_amount sched ch n <= zlen (ch_data ch)
               /\ (input_amount sched ch n = 0 -> ch_data ch = [])).
  { unfold input_amount. repeat split; try lia. intros. apply zlen_0. lia. }
  destruct Hr as (H1 & H2 & H3).
  assert (Hz : zlen (firstn (Z.to_nat (input_amount sched ch n)) (ch_data ch))
               = input_amount sched ch n).
  { unfold zlen in *. rewrite firstn_length. lia. }
  repeat split; try lia; try assumption.
  - apply zlen_splice; lia.
  - apply sub_splice_same; lia.
Qed.

Section Channel.
Variable fresh : Z -> bytes.
Hypothesis fresh_len : forall n, 0 <= n -> zlen (fresh n) = n.
Variable sched : nat -> Z.
Variable P : bytes -> Prop.
Variable H : hash.
Variable D : bytes -> out bytes.
Variable R : h_st H -> bytes -> Prop.
Hypothesis I : himpl P H D R.

Lemma chunk_ok h m ib l : R h m -> zlen ib = 256 -> sub ib 0 (zlen l) = l -> bytes_ok l -> zlen l <= 256 ->
  P (m ++ l) ->
  exists h', h_add_substring H h ib 0 (zlen l) = (h', Ret tt) /\ R h' (m ++ l).
Proof.
  intros HR Hib Hs Hb Hl HP. pose proof (hi_op _ _ _ _ I h m (HSub ib 0 (zlen l)) HR) as Ho.
  cbn [hop_valid hop_bytes h_step] in Ho. rewrite Hs in Ho. apply Ho; [|assumption].
  split; [assumption|]. rewrite in_range_true, Hib. pose proof (zlen_nonneg l). unfold max_string_length. lia.
Qed.

Lemma hash_to_eof_ok fuel : forall (s : hcs H) m, R (hc_h s) m -> zlen (hc_ibuf s) = 256 -> bytes_ok (ch_data (hc_ch s)) ->
  P (m ++ ch_data (hc_ch s)) -> (length (ch_data (hc_ch s)) < fuel)%nat ->
  exists s', hash_to_eof sched H fuel s = (s', Ret tt) /\ R (hc_h s') (m ++ ch_data (hc_ch s)).
Proof.
  induction fuel as [|fuel IH]; intros s m HR Hib Hb HP Hfuel; [lia|]. cbn [hash_to_eof].
  destruct (input_chunk sched (hc_ch s) (hc_ibuf s) 256) as (r & -> & Hr1 & Hr2 & Hr0 & Hlen & Hsub); [lia|].
  set (data := ch_data (hc_ch s)) in *. destruct (r >? 0) eqn:Er.
  2:{ eexists. split; [reflexivity|]. assert (data = []) as -> by (apply Hr0; lia). rewrite app_nil_r. exact HR. }
  cbn [hc_h hc_ch hc_ibuf]. set (l1 := firstn (Z.to_nat r) data) in *. set (l2 := skipn (Z.to_nat r) data) in *.
  assert (Ed : data = l1 ++ l2) by (symmetry; apply firstn_skipn).
  assert (Hl1 : zlen l1 = r) by (unfold l1, zlen in *; rewrite firstn_length; lia).
  assert (Hb12 : bytes_ok l1 /\ bytes_ok l2) by (rewrite Ed in Hb; apply bytes_ok_app; exact Hb).
  rewrite Ed, app_assoc in HP.
  destruct (chunk_ok (hc_h s) m (splice (hc_ibuf s) 0 l1) l1 HR) as (h' & Eh & HR').
  { lia. } { rewrite Hl1. assumption. } { apply Hb12. } { lia. } { exact (hi_prefix _ _ _ _ I _ _ HP). }
  rewrite Hl1 in Eh. unfold lift. rewrite Eh. cbn [fst snd bind set_h hc_ch hc_ibuf].
  match goal with |- context [hash_to_eof sched H fuel ?x] => set (s2 := x) end.
  destruct (IH s2 (m ++ l1) HR' (eq_trans Hlen Hib) (proj2 Hb12) HP) as (s' & -> & HR2).
  { change (length l2 < fuel)%nat. unfold l2. rewrite skipn_length. unfold zlen in *. lia. }
  exists s'. split; [reflexivity|]. rewrite Ed, app_assoc. exact HR2.
Qed.

Lemma hash_bounded_ok fuel : forall (s : hcs H) m numleft, R (hc_h s) m -> zlen (hc_ibuf s) = 256 -> bytes_ok (ch_data (hc_ch s)) ->
  P (m ++ firstn (Z.to_nat numleft) (ch_data (hc_ch s))) -> (length (ch_data (hc_ch s)) < fuel)%nat ->
  exists s', if numleft <=? zlen (ch_data (hc_ch s)) then
    hash_bounded sched H fuel s numleft = (s', Ret tt) /\ R (hc_h s') (m ++ firstn (Z.to_nat numleft) (ch_data (hc_ch s)))
  else hash_bounded sched H fuel s numleft = (s', Raise End_of_file).
Proof.
  induction fuel as [|fuel IH]; intros s m numleft HR Hib Hb HP Hfuel; [lia|]. cbn [hash_bounded].
  pose proof (zlen_nonneg (ch_data (hc_ch s))) as Hnn.
  destruct (numleft >? 0) eqn:En.
  2:{ assert (numleft <=? zlen (ch_data (hc_ch s)) = true) as -> by lia. exists s. split; [reflexivity|].
      replace (Z.to_nat numleft) with O by lia. cbn [firstn]. rewrite app_nil_r. exact HR. }
  destruct (input_chunk sched (hc_ch s) (hc_ibuf s) (Z.min 256 numleft)) as (r & -> & Hr1 & Hr2 & Hr0 & Hlen & Hsub); [lia|].
  set (data := ch_data (hc_ch s)) in *. destruct (r =? 0) eqn:Er.
  { assert (data = []) as E by (apply Hr0; lia). rewrite E, zlen_nil. eexists.
    assert (numleft <=? 0 = false) as -> by lia. reflexivity. }
  cbn [hc_h hc_ch hc_ibuf]. set (l1 := firstn (Z.to_nat r) data) in *. set (l2 := skipn (Z.to_nat r) data) in *.
  assert (Ed : data = l1 ++ l2) by (symmetry; apply firstn_skipn).
  assert (Hl1 : zlen l1 = r) by (unfold l1, zlen in *; rewrite firstn_length; lia).
  assert (Hb12 : bytes_ok l1 /\ bytes_ok l2) by (rewrite Ed in Hb; apply bytes_ok_app; exact Hb).
  assert (Ef : firstn (Z.to_nat numleft) data = l1 ++ firstn (Z.to_nat (numleft - r)) l2).
  { rewrite Ed, firstn_app. f_equal.
    - apply firstn_all2. unfold zlen in *. lia.
    - f_equal. unfold zlen in *. lia. }
  rewrite Ef, app_assoc in HP.
  destruct (chunk_ok (hc_h s) m (splice (hc_ibuf s) 0 l1) l1 HR) as (h' & Eh & HR').
  { lia. } { rewrite Hl1. assumption. } { apply Hb12. } { lia. } { exact (hi_prefix _ _ _ _ I _ _ HP). }
  rewrite Hl1 in Eh. unfold lift. rewrite Eh. cbn [fst snd bind set_h hc_ch hc_ibuf].
  match goal with |- context [hash_bounded sched H fuel ?x _] => set (s2 := x) end.
  destruct (IH s2 (m ++ l1) (numleft - r) HR' (eq_trans Hlen Hib) (proj2 Hb12) HP) as (s' & Hs').
  { change (length l2 < fuel)%nat. unfold l2. rewrite skipn_length. unfold zlen in *. lia. }
  exists s'. change (ch_data (hc_ch s2)) with l2 in Hs'.
  assert (Hl2 : zlen l2 = zlen data - r) by (rewrite Ed, zlen_app; lia).
  rewrite Ef, app_assoc.
  destruct (numleft <=? zlen data) eqn:Ec; [assert (numleft - r <=? zlen l2 = true) as E2 by lia|assert (numleft - r <=? zlen l2 = false) as E2 by lia];
    rewrite E2 in Hs'; exact Hs'.
Qed.

Lemma hash_channel_ok h len ic : R h [] -> bytes_ok ic -> P (requested len ic) ->
  snd (hash_channel fresh sched H h len ic) = if long_enough len ic then D (requested len ic) else Raise End_of_file.
Proof.
  intros HR Hb HP. unfold hash_channel.
  set (s0 := {| hc_h := h; hc_ch := _; hc_ibuf := _ |}).
  assert (Hib : zlen (hc_ibuf s0) = 256) by (apply fresh_len; lia).
  set (loop := match len with None => hash_to_eof sched H (S (length ic)) s0
               | Some l => hash_bounded sched H (S (length ic)) s0 l end).
  assert (L : exists s', if long_enough len ic then loop = (s', Ret tt) /\ R (hc_h s') (requested len ic) else loop = (s', Raise End_of_file)).
  { destruct len as [l|]; cbn [requested long_enough] in *.
    - apply (hash_bounded_ok (S (length ic)) s0 [] l HR Hib Hb HP). cbn; lia.
    - apply (hash_to_eof_ok (S (length ic)) s0 [] HR Hib Hb HP). cbn; lia. }
  destruct L as (s' & L). destruct (long_enough len ic); [|rewrite L; reflexivity].
  destruct L as (-> & HR'). cbn [bind hc_h]. unfold lift.
  pose proof (hi_res _ _ _ _ I _ _ HR' HP) as Hr. pose proof (hi_wipe _ _ _ _ I _ _ HR' HP) as Hw.
  destruct (h_result H (hc_h s')) as [s2 r]. cbn [fst snd] in *. subst r.
  destruct (D (requested len ic)); cbn [bind]; try reflexivity.
  cbn [set_h hc_h]. destruct (h_wipe H s2) as [s3 u]. cbn [fst snd] in *. subst u. reflexivity.
Qed.
End Channel.

(* objects *)
Lemma computes_string (P : bytes -> Prop) o D s : (forall a b, P (a ++ b) -> P a) -> computes_on P o D ->
  bytes_ok s -> zlen s <= max_string_length -> P s -> obj_hash_string o s = D s.
Proof.
  intros HP HC Hb Hl Hp. destruct (computes_himpl P o D HP HC) as (I & HR). exact (himpl_string _ _ _ _ _ _ s I HR Hb Hl Hp).
Qed.
Lemma computes_channel fresh (fresh_len : forall n, 0 <= n -> zlen (fresh n) = n) sched (P : bytes -> Prop) o D len ic :
  (forall a b, P (a ++ b) -> P a) -> computes_on P o D -> bytes_ok ic -> P (requested len ic) ->
  obj_hash_channel fresh sched o len ic = if long_enough len ic then D (requested len ic) else Raise End_of_file.
Proof.
  intros HP HC Hb Hp. destruct (computes_himpl P o D HP HC) as (I & HR). exact (hash_channel_ok fresh fresh_len sched P _ D _ I _ len ic HR Hb Hp).
Qed.
