(* What the functions that use an object once (transform_string, transform_channel, hash_string, hash_channel, auth_transform_string,
   auth_check_transform_string) leave behind them. *)
From Verif Require Import Prelude PreludeFacts SpecTransducer TransformModel BlockModel CipherModel EncModel HashModel MiscModel AuthModel HashFacts
  SpecWipe SpecWipe2 WipeErase WipeErase2 WipeErase3 Toy.

(* calls other than wipe, then wipe *)
Definition used (T : transform) (s s' : t_st T) : Prop := exists l, Forall wop_possible l /\ ~ In Wipe l /\ s' = fst (w_run T s l).
Lemma w_run_one T s l o : fst (w_run T s (l ++ [o])) = fst (w_step T (fst (w_run T s l)) o).
Proof.
  revert s. induction l as [|x l IH]; intros s; cbn [app w_run fst].
  - destruct (w_step T s o) as [s1 ob]. reflexivity.
  - destruct (w_step T s x) as [s1 ob]. specialize (IH s1). destruct (w_run T s1 (l ++ [o])), (w_run T s1 l). exact IH.
Qed.
Lemma used_refl T s : used T s s. Proof. exists []. repeat split; auto. Qed.
Lemma used_step T s s1 o : used T s s1 -> op_possible o -> used T s (fst (t_step T s1 o)).
Proof.
  intros (l & H1 & H2 & ->) Ho. exists (l ++ [Call o]). split; [apply Forall_app; auto|]. split; [rewrite in_app_iff; intros [H|[H|[]]]; [auto|discriminate H]|]. now rewrite w_run_one.
Qed.
Lemma used_wipe T s s1 : used T s s1 -> used_and_wiped T s (fst (t_wipe T s1)).
Proof. intros (l & H1 & H2 & ->). exists l. split; [exact H1|split; [exact H2|]]. now rewrite w_run_one. Qed.

Lemma transform_string_wipes T s str : let r := transform_string T s str in (exists x, snd r = Ret x) ->
  fst r = fst (w_run T s [Call (PutString str); Call Finish; Call GetString; Wipe]).
Proof.
  cbv zeta. unfold transform_string. cbn [w_run w_step t_step unit_obs bytes_obs].
  destruct (t_put_string T s str) as [s1 [u|e| |]]; cbn [fst snd bind]; try (intros (x & E); discriminate E).
  destruct (t_finish T s1) as [s2 [v|e| |]]; cbn [fst snd bind]; try (intros (x & E); discriminate E).
  destruct (t_get_string T s2) as [s3 [b|e| |]]; cbn [fst snd bind]; try (intros (x & E); discriminate E).
  destruct (t_wipe T s3) as [s4 [w|e| |]]; cbn [fst snd bind]; try (intros (x & E); discriminate E). reflexivity.
Qed.

Section Chan.
Variable fresh : Z -> bytes.
Hypothesis fresh_len : forall n, 0 <= n -> zlen (fresh n) = n.
Variable sched : nat -> Z.
Variable T : transform.
Definition chan_ok (s : t_st T) (c : tcs T) : Prop := used T s (tc_tr c) /\ zlen (tc_ibuf c) = 256.
Lemma emit_ok s c : chan_ok s c -> chan_ok s (fst (tc_emit T c)).
Proof.
  intros (H1 & H2). unfold tc_emit, lift. pose proof (used_step T s _ GetSubstring H1 Logic.I) as H. cbn [t_step substring_obs] in H.
  destruct (t_get_substring T (tc_tr c)) as [s1 [[[ob po] le]|e| |]]; cbn [fst snd bind] in *; try (split; [exact H|exact H2]).
  destruct (bytes_sub ob po le); cbn [bind fst]; split; assumption.
Qed.
Lemma put_ok s c r : chan_ok s c -> 0 <= r <= 256 -> chan_ok s (fst (lift (set_tr T c) (t_put_substring T (tc_tr c) (tc_ibuf c) 0 r))).
Proof.
  intros (H1 & H2) Hr. unfold lift. cbn [fst set_tr tc_tr tc_ibuf]. split; [|exact H2].
  pose proof (used_step T s _ (PutSubstring (tc_ibuf c) 0 r) H1) as H. cbn [t_step unit_obs fst op_possible] in H. 
  assert (zlen (tc_ibuf c) <= max_string_length) as L by (rewrite H2; unfold max_string_length; lia).
  assert (is_int 0 /\ is_int r) as (L1 & L2) by (unfold is_int; lia). specialize (H (conj L (conj L1 L2))).
  destruct (t_put_substring T (tc_tr c) (tc_ibuf c) 0 r) as [s1 [u|e| |]]; exact H.
Qed.
Lemma eof_ok s f : forall c, chan_ok s c -> chan_ok s (fst (transf_to_eof sched T f c)).
Proof.
  induction f as [|f IH]; intros c Hc; cbn [transf_to_eof]; [exact Hc|]. destruct Hc as (H1 & H2).
  destruct (input_chunk sched (tc_ch c) (tc_ibuf c) 256 ltac:(lia)) as (r & -> & R1 & R2 & R3 & R4 & _).
  set (c1 := TCS _ _ _ _). assert (chan_ok s c1) as Hc1 by (split; [exact H1|unfold c1; cbn [tc_ibuf]; lia]). clearbody c1.
  destruct (r >? 0); [|exact Hc1]. pose proof (put_ok s c1 r Hc1 R1) as P. destruct (lift _ _) as [c2 [u|e| |]]; cbn [bind fst] in *; try exact P.
  pose proof (emit_ok s c2 P) as Q. destruct (tc_emit T c2) as [c3 [u'|e| |]]; cbn [bind fst] in *; try exact Q. now apply IH.
Qed.
Lemma bounded_ok s f : forall c n, chan_ok s c -> chan_ok s (fst (transf_bounded sched T f c n)).
Proof.
  induction f as [|f IH]; intros c n Hc; cbn [transf_bounded]; [exact Hc|]. destruct (n >? 0) eqn:En; [|exact Hc]. destruct Hc as (H1 & H2).
  destruct (input_chunk sched (tc_ch c) (tc_ibuf c) (Z.min 256 n) ltac:(lia)) as (r & -> & R1 & R2 & R3 & R4 & _).
  set (c1 := TCS _ _ _ _). assert (chan_ok s c1) as Hc1 by (split; [exact H1|unfold c1; cbn [tc_ibuf]; lia]). clearbody c1.
  destruct (r =? 0); [exact Hc1|]. pose proof (put_ok s c1 r Hc1 ltac:(lia)) as P. destruct (lift _ _) as [c2 [u|e| |]]; cbn [bind fst] in *; try exact P.
  pose proof (emit_ok s c2 P) as Q. destruct (tc_emit T c2) as [c3 [u'|e| |]]; cbn [bind fst] in *; try exact Q. now apply IH.
Qed.
Lemma transform_channel_wipes s len ic : let r := transform_channel fresh sched T s len ic in (exists x, snd r = Ret x) ->
  tc_ibuf (fst r) = zeros 256 /\ used_and_wiped T s (tc_tr (fst r)).
Proof.
  cbv zeta. unfold transform_channel. set (c0 := TCS s _ _ _). assert (chan_ok s c0) as H0 by (split; [apply used_refl|apply fresh_len; lia]). clearbody c0.
  assert (chan_ok s (fst (match len with None => transf_to_eof sched T (S (length ic)) c0 | Some l => transf_bounded sched T (S (length ic)) c0 l end))) as H1 by (destruct len; [now apply bounded_ok|now apply eof_ok]).
  destruct (match len with None => _ | Some _ => _ end) as [c1 [u|e| |]]; cbn [fst snd bind] in *; try (intros (x & E); discriminate E).
  destruct H1 as (H1 & H2). rewrite H2. unfold lift at 1. cbn [tc_tr tc_ibuf tc_ch tc_out set_tr]. pose proof (used_step T s _ Finish H1 Logic.I) as H3. cbn [t_step unit_obs fst] in H3.
  destruct (t_finish T (tc_tr c1)) as [s2 [v|e| |]]; cbn [fst snd bind set_tr tc_tr tc_ch tc_ibuf tc_out] in *; try (intros (x & E); discriminate E).
  unfold tc_emit, lift, set_tr, bind. cbn [fst snd tc_tr tc_ibuf tc_ch tc_out]. pose proof (used_step T s _ GetSubstring H3 Logic.I) as H4. cbn [t_step substring_obs] in H4.
  destruct (t_get_substring T s2) as [s3 [[[ob po] le]|e| |]]; cbn [fst snd bind set_tr tc_tr tc_ch tc_ibuf tc_out] in *; try (intros (x & E); discriminate E).
  destruct (bytes_sub ob po le); cbn [fst snd bind set_tr tc_tr tc_ch tc_ibuf tc_out]; try (intros (x & E); discriminate E).
  intros _. split; [reflexivity|]. now apply used_wipe.
Qed.
End Chan.

(* hashes *)
Definition h_used (H : hash) (s s' : h_st H) : Prop := exists l, Forall hop_possible l /\ ~ In HWipe l /\ s' = fst (h_run H s l).
Lemma h_run_one H s l o : fst (h_run H s (l ++ [o])) = fst (h_step H (fst (h_run H s l)) o).
Proof.
  revert s. induction l as [|x l IH]; intros s; cbn [app h_run fst].
  - destruct (h_step H s o) as [s1 ob]. reflexivity.
  - destruct (h_step H s x) as [s1 ob]. specialize (IH s1). destruct (h_run H s1 (l ++ [o])), (h_run H s1 l). exact IH.
Qed.
Lemma h_used_step H s s1 o : h_used H s s1 -> hop_possible o -> o <> HWipe -> h_used H s (fst (h_step H s1 o)).
Proof.
  intros (l & H1 & H2 & ->) Ho Hn. exists (l ++ [o]). split; [apply Forall_app; auto|]. split; [rewrite in_app_iff; intros [K|[K|[]]]; auto|]. now rewrite h_run_one.
Qed.
Lemma hash_string_wipes H s str : let r := hash_string H s str in (exists x, snd r = Ret x) -> fst r = fst (h_run H s [AddString str; Result; HWipe]).
Proof.
  cbv zeta. unfold hash_string. cbn [h_run h_step unit_obs bytes_obs].
  destruct (h_add_string H s str) as [s1 [u|e| |]]; cbn [fst snd bind]; try (intros (x & E); discriminate E).
  destruct (h_result H s1) as [s2 [v|e| |]]; cbn [fst snd bind]; try (intros (x & E); discriminate E).
  destruct (h_wipe H s2) as [s4 [w|e| |]]; cbn [fst snd bind]; try (intros (x & E); discriminate E). reflexivity.
Qed.
Section HChan.
Variable fresh : Z -> bytes.
Hypothesis fresh_len : forall n, 0 <= n -> zlen (fresh n) = n.
Variable sched : nat -> Z.
Variable H : hash.
Definition hchan_ok (s : h_st H) (c : hcs H) : Prop := h_used H s (hc_h c) /\ zlen (hc_ibuf c) = 256.
Lemma add_ok s c r : hchan_ok s c -> 0 <= r <= 256 -> hchan_ok s (fst (lift (set_h H c) (h_add_substring H (hc_h c) (hc_ibuf c) 0 r))).
Proof.
  intros (H1 & H2) Hr. unfold lift. cbn [fst set_h hc_h hc_ibuf]. split; [|exact H2].
  pose proof (h_used_step H s _ (AddSubstring (hc_ibuf c) 0 r) H1) as K. cbn [h_step unit_obs fst hop_possible] in K. 
  assert (zlen (hc_ibuf c) <= max_string_length) as L by (rewrite H2; unfold max_string_length; lia).
  assert (is_int 0 /\ is_int r) as (L1 & L2) by (unfold is_int; lia). specialize (K (conj L (conj L1 L2)) ltac:(discriminate)).
  destruct (h_add_substring H (hc_h c) (hc_ibuf c) 0 r) as [s1 [u|e| |]]; exact K.
Qed.
Lemma heof_ok s f : forall c, hchan_ok s c -> hchan_ok s (fst (hash_to_eof sched H f c)).
Proof.
  induction f as [|f IH]; intros c Hc; cbn [hash_to_eof]; [exact Hc|]. destruct Hc as (H1 & H2).
  destruct (input_chunk sched (hc_ch c) (hc_ibuf c) 256 ltac:(lia)) as (r & -> & R1 & R2 & R3 & R4 & _).
  set (c1 := HCS _ _ _). assert (hchan_ok s c1) as Hc1 by (split; [exact H1|unfold c1; cbn [hc_ibuf]; lia]). clearbody c1.
  destruct (r >? 0); [|exact Hc1]. pose proof (add_ok s c1 r Hc1 R1) as P. destruct (lift _ _) as [c2 [u|e| |]]; cbn [bind fst] in *; try exact P. now apply IH.
Qed.
Lemma hbounded_ok s f : forall c n, hchan_ok s c -> hchan_ok s (fst (hash_bounded sched H f c n)).
Proof.
  induction f as [|f IH]; intros c n Hc; cbn [hash_bounded]; [exact Hc|]. destruct (n >? 0) eqn:En; [|exact Hc]. destruct Hc as (H1 & H2).
  destruct (input_chunk sched (hc_ch c) (hc_ibuf c) (Z.min 256 n) ltac:(lia)) as (r & -> & R1 & R2 & R3 & R4 & _).
  set (c1 := HCS _ _ _). assert (hchan_ok s c1) as Hc1 by (split; [exact H1|unfold c1; cbn [hc_ibuf]; lia]). clearbody c1.
  destruct (r =? 0); [exact Hc1|]. pose proof (add_ok s c1 r Hc1 ltac:(lia)) as P. destruct (lift _ _) as [c2 [u|e| |]]; cbn [bind fst] in *; try exact P. now apply IH.
Qed.
Lemma hash_channel_wipes s len ic : let r := hash_channel fresh sched H s len ic in (exists x, snd r = Ret x) ->
  hc_ibuf (fst r) = zeros 256 /\ h_used_and_wiped H s (hc_h (fst r)).
Proof.
  cbv zeta. unfold hash_channel. set (c0 := HCS s _ _). assert (hchan_ok s c0) as H0 by (split; [exists []; repeat split; auto|apply fresh_len; lia]). clearbody c0.
  assert (hchan_ok s (fst (match len with None => hash_to_eof sched H (S (length ic)) c0 | Some l => hash_bounded sched H (S (length ic)) c0 l end))) as H1 by (destruct len; [now apply hbounded_ok|now apply heof_ok]).
  destruct (match len with None => _ | Some _ => _ end) as [c1 [u|e| |]]; cbn [fst snd bind] in *; try (intros (x & E); discriminate E).
  destruct H1 as (H1 & H2). rewrite H2. unfold lift. cbn [hc_h hc_ibuf hc_ch set_h]. pose proof (h_used_step H s _ Result H1 Logic.I ltac:(discriminate)) as H3. cbn [h_step bytes_obs fst] in H3.
  destruct (h_result H (hc_h c1)) as [s2 [v|e| |]]; cbn [fst snd bind set_h hc_h hc_ch hc_ibuf] in *; try (intros (x & E); discriminate E).
  destruct (h_wipe H s2) as [s3 [w|e| |]] eqn:Ew; cbn [fst snd bind set_h hc_h hc_ch hc_ibuf] in *; try (intros (x & E); discriminate E).
  intros _. split; [reflexivity|]. destruct H3 as (l & L1 & L2 & L3). exists l. split; [exact L1|split; [exact L2|]]. rewrite h_run_one, <- L3. cbn [h_step unit_obs fst]. now rewrite Ew.
Qed.
End HChan.

(* authenticated transforms *)
Lemma auth_string_wipes a s str : let r := auth_transform_string_detached a s str in (exists x, snd r = Ret x) ->
  fst r = fst (a_run a s [ACall (PutString str); AFinish; ACall GetString; AWipe]).
Proof.
  cbv zeta. unfold auth_transform_string_detached. cbn [a_run a_step t_step data_view t_put_string t_get_string unit_obs bytes_obs].
  destruct (a_put_string a s str) as [s1 [u|e| |]]; cbn [fst snd bind]; try (intros (x & E); discriminate E).
  destruct (a_finish a s1) as [s2 [v|e| |]]; cbn [fst snd bind]; try (intros (x & E); discriminate E).
  destruct (a_get_string a s2) as [s3 [b|e| |]]; cbn [fst snd bind]; try (intros (x & E); discriminate E).
  destruct (a_wipe a s3) as [s4 [w|e| |]]; cbn [fst snd bind]; try (intros (x & E); discriminate E). reflexivity.
Qed.
Lemma auth_append_wipes a s str : let r := auth_transform_string a s str in (exists x, snd r = Ret x) ->
  fst r = fst (a_run a s [ACall (PutString str); AFinish; ACall GetString; AWipe]).
Proof.
  cbv zeta. unfold auth_transform_string. pose proof (auth_string_wipes a s str) as W. cbv zeta in W.
  destruct (auth_transform_string_detached a s str) as [s1 [u|e| |]]; cbn [fst snd bind] in *; try (intros (x & E); discriminate E). intros _. apply W. now exists u.
Qed.
(* accepted or rejected: without the text when rejected *)
Lemma auth_check_wipes a s str : let r := auth_check_transform_string a s str in forall x, snd r = Ret x ->
  fst r = fst (a_run a s (ACall (PutString (sub str 0 (zlen str - a_tag_size a))) :: AFinish :: (match x with Some _ => [ACall GetString] | None => [] end) ++ [AWipe])).
Proof.
  cbv zeta. unfold auth_check_transform_string. cbv zeta. intros x. destruct (zlen str <? a_tag_size a); [discriminate|].
  unfold bytes_sub. destruct (in_range str 0 (zlen str - a_tag_size a)); cbn [bind]; [|discriminate].
  cbn [app a_run a_step t_step data_view t_put_string t_get_string unit_obs bytes_obs].
  destruct (a_put_string a s _) as [s1 [u|e| |]]; cbn [fst snd bind]; try (intros E; discriminate E).
  destruct (a_finish a s1) as [s2 [v|e| |]]; cbn [fst snd bind]; try (intros E; discriminate E).
  destruct (in_range str _ (a_tag_size a)); cbn [fst snd bind]; [|intros E; discriminate E].
  destruct (snd (seq_equal v _)) as [[]|e| |]; cbn [fst snd bind]; try (intros E; discriminate E).
  - destruct (a_get_string a s2) as [s3 [b|e| |]] eqn:Eg; cbn [fst snd bind]; try (intros E; discriminate E).
    destruct (a_wipe a s3) as [s4 [w|e| |]] eqn:Ew; cbn [fst snd bind]; try (intros E; discriminate E). intros E. apply WipeHash.ret_inj in E. subst x.
    cbn [app a_run a_step t_step data_view t_get_string bytes_obs unit_obs fst]. rewrite Eg. cbn [bytes_obs fst snd]. rewrite Ew. reflexivity.
  - destruct (a_wipe a s2) as [s4 [w|e| |]] eqn:Ew; cbn [fst snd bind]; try (intros E; discriminate E). intros E. apply WipeHash.ret_inj in E. subst x.
    cbn [app a_run a_step unit_obs fst]. rewrite Ew. reflexivity.
Qed.

(* when an exception is raised nothing is erased: the object still gives the text, the buffer still holds what was read *)
Lemma not_wiped_on_exception : let T := base64_decode toy_fresh in let s := base64_decode_new toy_fresh in let ic := [81; 85; 74; 68; 33] in
  (let r := transform_string T s ic in snd r = Raise (Error Bad_encoding) /\ snd (t_get_string T (fst r)) = Ret [65; 66; 67]) /\
  (let r := transform_channel toy_fresh (fun _ => 256) T s None ic in snd r = Raise (Error Bad_encoding) /\ firstn 5 (tc_ibuf (fst r)) = ic /\ snd (t_get_string T (tc_tr (fst r))) = Ret [65; 66; 67]).
Proof. vm_compute. repeat split. Qed.
