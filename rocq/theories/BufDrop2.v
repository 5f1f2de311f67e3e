(* Proofs of C87: whole histories. *)
From Verif Require Import Prelude PreludeFacts SpecTransducer SpecDrop BufOutModel BufOut BufHistory TransformModel BlockModel BlockBounds BufDropModel BufDrop AesModel CipherModel.

(* ---- the accounting does not change the behaviour ---- *)
Section Same.
Variable fresh : Z -> bytes.
Variable C : block_cipher.
Definition sim {A} (r : cm C * out A) (r' : cs C * out A) : Prop := cm_cs C (fst r) = fst r' /\ snd r = snd r'.
Lemma sim_bind {A B} (r : cm C * out A) r' (k : cm C -> A -> cm C * out B) k' :
  sim r r' -> (forall s x, sim (k s x) (k' (cm_cs C s) x)) -> sim (bind r k) (bind r' k').
Proof.
  destruct r as [s o], r' as [s' o']. intros (H1 & H2) Hk. cbn in H1, H2. subst s' o'. destruct o; cbn; [apply Hk|split; reflexivity..].
Qed.
Lemma sim_cs {A} s (r : cs C * out A) : sim (lift (set_cs C s) r) r.
Proof. split; reflexivity. Qed.
Lemma sim_ec s n : sim (lift (set_bm C s) (ensure_capacity_m fresh (get_bm C s) n)) (lift (set_bo C (cm_cs C s)) (ensure_capacity fresh (c_bo C (cm_cs C s)) n)).
Proof.
  pose proof (ecm_bo fresh (get_bm C s) n) as E. cbn [get_bm m_bo] in E. unfold sim, lift, set_bm. cbn [fst snd cm_cs].
  rewrite <- E. cbn [fst snd]. split; reflexivity.
Qed.
Lemma sim_ret {A} s (x : A) s' : cm_cs C s = s' -> sim (s, Ret x) (s', Ret x).
Proof. intros <-. split; reflexivity. Qed.
Lemma sim_out {A} s (x : out A) : sim (s, x) (cm_cs C s, x).
Proof. split; reflexivity. Qed.
Lemma process_sim s : sim (process_block_m fresh C s) (process_block fresh C (cm_cs C s)).
Proof.
  unfold process_block_m, process_block. apply sim_bind; [apply sim_ec|]. intros s1 x.
  apply sim_bind; [apply sim_out|]. intros s2 y. apply sim_ret. reflexivity.
Qed.
Lemma put_loop_sim src : forall fuel s ofs len, sim (put_loop_m fresh C fuel s src ofs len) (put_loop fresh C fuel (cm_cs C s) src ofs len).
Proof.
  induction fuel as [|f IH]; intros s ofs len; cbn [put_loop_m put_loop]; [apply sim_out|].
  destruct (_ <=? 0); [apply sim_out|]. destruct (_ <=? _).
  - apply sim_bind; [apply sim_cs|]. intros s1 x. apply sim_ret. reflexivity.
  - apply sim_bind; [apply sim_cs|]. intros s1 x. apply sim_bind; [apply process_sim|]. intros s2 y. apply (IH (set_cs C s2 _)).
Qed.
Lemma put_char_sim s c : sim (cipher_put_char_m fresh C s c) (cipher_put_char fresh C (cm_cs C s) c).
Proof.
  unfold cipher_put_char_m, cipher_put_char. destruct (_ <? _).
  - apply sim_bind; [apply sim_cs|]. intros s1 x. apply sim_ret. reflexivity.
  - apply sim_bind; [apply process_sim|]. intros s1 x. apply sim_bind; [apply sim_cs|]. intros s2 y. apply sim_ret. reflexivity.
Qed.
Lemma flush_sim s : sim (cipher_flush_m fresh C s) (cipher_flush fresh C (cm_cs C s)).
Proof.
  unfold cipher_flush_m, cipher_flush. destruct (_ =? 0); [apply sim_out|]. destruct (_ =? _); [|apply sim_out].
  apply sim_bind; [apply process_sim|]. intros s1 x. apply sim_ret. reflexivity.
Qed.
Lemma enc_finish_sim p s : sim (padded_encrypt_finish_m fresh C p s) (padded_encrypt_finish fresh C p (cm_cs C s)).
Proof.
  unfold padded_encrypt_finish_m, padded_encrypt_finish. apply sim_bind.
  - destruct (_ >=? _); [|apply sim_out]. apply sim_bind; [apply process_sim|]. intros s1 x. apply sim_ret. reflexivity.
  - intros s1 x. apply sim_bind; [apply sim_cs|]. intros s2 y. apply process_sim.
Qed.
Lemma dec_finish_sim p s : sim (padded_decrypt_finish_m fresh C p s) (padded_decrypt_finish fresh C p (cm_cs C s)).
Proof.
  unfold padded_decrypt_finish_m, padded_decrypt_finish. destruct (negb _); [apply sim_out|].
  apply sim_bind; [apply sim_out|]. intros s1 x. apply sim_bind; [apply sim_out|]. intros s2 v.
  apply sim_bind; [apply sim_ec|]. intros s3 y. apply sim_bind; [apply sim_out|]. intros s4 ob. apply sim_ret. reflexivity.
Qed.

Lemma step_sim k s o : 
  match k return cm C * obs -> _ with
  | Plain => fun r => (cm_cs C (fst r), snd r) = t_step (cipher fresh C) (cm_cs C s) o
  | PadEnc p => fun r => (cm_cs C (fst r), snd r) = t_step (cipher_padded_encrypt fresh C p) (cm_cs C s) o
  | PadDec p => fun r => (cm_cs C (fst r), snd r) = t_step (cipher_padded_decrypt fresh C p) (cm_cs C s) o
  end (t_step (cipher_kind_m fresh C k) s o).
Proof.
  assert (U : forall r r', sim r r' -> (cm_cs C (fst (unit_obs r)), snd (unit_obs r)) = unit_obs r').
  { intros [s1 o1] [s2 o2] (H1 & H2). cbn in *. subst. reflexivity. }
  assert (Z : forall r r', sim r r' -> (cm_cs C (fst (int_obs r)), snd (int_obs r)) = int_obs r').
  { intros [s1 o1] [s2 o2] (H1 & H2). cbn in *. subst. reflexivity. }
  assert (Y : forall r r', sim r r' -> (cm_cs C (fst (bytes_obs r)), snd (bytes_obs r)) = bytes_obs r').
  { intros [s1 o1] [s2 o2] (H1 & H2). cbn in *. subst. reflexivity. }
  assert (X : forall r r', sim r r' -> (cm_cs C (fst (substring_obs r)), snd (substring_obs r)) = substring_obs r').
  { intros [s1 o1] [s2 o2] (H1 & H2). cbn in *. subst. reflexivity. }
  destruct k, o; cbn [t_step];
    try (apply U; first [apply put_loop_sim|apply put_char_sim|apply flush_sim|apply enc_finish_sim|apply dec_finish_sim]);
    try reflexivity; first [apply Z|apply Y|apply X]; split; reflexivity.
Qed.
Lemma run_sim k : forall ops s,
  t_run (cipher_kind_m fresh C k) s ops =
  match k with
  | Plain => t_run (cipher fresh C) (cm_cs C s) ops
  | PadEnc p => t_run (cipher_padded_encrypt fresh C p) (cm_cs C s) ops
  | PadDec p => t_run (cipher_padded_decrypt fresh C p) (cm_cs C s) ops
  end.
Proof.
  destruct k; induction ops as [|o ops IH]; intros s; try reflexivity; cbn [t_run].
  - pose proof (step_sim Plain s o) as E. cbn beta iota in E. rewrite <- E. destruct (t_step _ s o) as [s1 ob]. cbn [fst snd]. destruct (ends o ob); [reflexivity|]. f_equal. apply IH.
  - pose proof (step_sim (PadEnc p) s o) as E. cbn beta iota in E. rewrite <- E. destruct (t_step _ s o) as [s1 ob]. cbn [fst snd]. destruct (ends o ob); [reflexivity|]. f_equal. apply IH.
  - pose proof (step_sim (PadDec p) s o) as E. cbn beta iota in E. rewrite <- E. destruct (t_step _ s o) as [s1 ob]. cbn [fst snd]. destruct (ends o ob); [reflexivity|]. f_equal. apply IH.
Qed.
End Same.

(* ---- the paddings ---- *)
Definition kind_ok (k : ckind) : Prop :=
  match k with Plain => True | PadEnc p | PadDec p => p = padding_length \/ p = padding_8000 end.
Lemma fill_zlen l o n c r : bytes_fill l o n c = Ret r -> zlen r = zlen l.
Proof.
  unfold bytes_fill. destruct (in_range l o n) eqn:E; [|discriminate]. intros H. injection H as <-. apply in_range_true in E.
  apply zlen_splice; rewrite ?zlen_repeat; lia.
Qed.
Lemma zero_loop_zlen : forall n b i r, zero_loop n b i = Ret r -> zlen r = zlen b.
Proof.
  induction n as [|n IH]; intros b i r H; cbn in H; [injection H as <-; reflexivity|].
  destruct (bytes_set b i 0) as [b'|e| |] eqn:E; try discriminate. cbn in H. apply IH in H. rewrite H. exact (set_zlen _ _ _ _ E).
Qed.
Lemma pad_zlen p b u r : p = padding_length \/ p = padding_8000 -> pad p b u = Ret r -> zlen r = zlen b.
Proof.
  intros [-> | ->] H.
  - cbn in H. destruct (_ && _); [|discriminate]. exact (fill_zlen _ _ _ _ _ H).
  - cbn in H. destruct (bytes_set b u 128) as [b'|e| |] eqn:E; try discriminate. cbn in H. apply zero_loop_zlen in H. rewrite H. exact (set_zlen _ _ _ _ E).
Qed.

Section Histories.
Variable fresh : Z -> bytes.
Hypothesis fresh_len : forall n, 0 <= n -> zlen (fresh n) = n.
Variable C : block_cipher.
Let bs := bc_blocksize C.
Hypothesis Hbs : 0 < bs <= 2 ^ 40.
Hypothesis HC : bc_frame C.
Variable k : ckind.
Hypothesis Hk : kind_ok k.
Let T := cipher_kind_m fresh C k.
Let g (s : cm C) : bm := get_bm C s.
Notation I := (Inv C).

Lemma fin_inv s : I s -> I (fst (finish_m fresh C k s)) /\ extends (g s) (g (fst (finish_m fresh C k s))).
Proof.
  intros Hi. destruct k as [|p|p]; cbn [finish_m].
  - destruct (flush_G fresh fresh_len C Hbs HC s Hi) as (A & B). split; [exact A|apply B].
  - destruct (enc_finish_G fresh fresh_len C Hbs HC p (fun b u r => pad_zlen p b u r Hk) s Hi) as (A & B). split; [exact A|apply B].
  - exact (dec_finish_inv fresh fresh_len C HC p (fun b u r => pad_zlen p b u r Hk) s Hi).
Qed.
Lemma fin_G s : I s -> snd (finish_m fresh C k s) <> Raise Invalid_argument -> G C s (fst (finish_m fresh C k s)).
Proof.
  intros Hi Ho. destruct k as [|p|p]; cbn [finish_m] in *.
  - exact (flush_G fresh fresh_len C Hbs HC s Hi).
  - exact (enc_finish_G fresh fresh_len C Hbs HC p (fun b u r => pad_zlen p b u r Hk) s Hi).
  - exact (dec_finish_G fresh fresh_len C Hbs HC p (fun b u r => pad_zlen p b u r Hk) s Hi Ho).
Qed.
Lemma step_any s o : I s -> I (fst (t_step T s o)) /\ extends (g s) (g (fst (t_step T s o))).
Proof. exact (step_inv fresh fresh_len C Hbs HC _ fin_inv s o). Qed.
Lemma after_any : forall ops s, I s -> I (after T s ops) /\ extends (g s) (g (after T s ops)).
Proof.
  induction ops as [|o ops IH]; intros s Hi; cbn [after]; [split; [exact Hi|apply extends_refl]|].
  destruct (step_any s o Hi) as (A & B). destruct (IH _ A) as (A' & B'). split; [exact A'|exact (extends_trans _ _ _ B B')].
Qed.
Lemma new_inv c0 : I (cipher_new_m fresh C c0) /\ zlen (obuf (c_bo C (cm_cs C (cipher_new_m fresh C c0)))) = Z.max 256 (2 * bs).
Proof.
  pose proof max_small. assert (2 ^ 41 < max_string_length) by (unfold max_string_length; lia).
  cbn [cipher_new_m cipher_new cm_cs c_bo bo_new obuf]. fold bs.
  split; [|apply fresh_len; lia]. split; [apply bo_new_inv; [exact fresh_len|fold bs; lia]|apply fresh_len; fold bs; lia].
Qed.
Lemma get_string_is s out : I s -> snd (t_get_string T s) = Ret out -> out = cont (g s) /\ t_available T s = zlen out.
Proof.
  intros Hi E. destruct (bo_get_string_ok _ (proj1 Hi)) as (b & E1 & _). pose proof (bo_contents_len _ (proj1 Hi)) as L.
  change (snd (t_get_string T s)) with (snd (bo_get_string (c_bo C (cm_cs C s)))) in E. rewrite E1 in E. injection E as <-. split; [reflexivity|].
  change (t_available T s) with (oend (c_bo C (cm_cs C s)) - obeg (c_bo C (cm_cs C s))). symmetry. exact L.
Qed.
Lemma avail_is s : I s -> t_available T s = zlen (cont (g s)).
Proof. intros Hi. symmetry. exact (bo_contents_len _ (proj1 Hi)). Qed.

(* the buffer has grown: most of what it held is in the array that it dropped, for ever *)
Theorem drop_kept c0 ops0 o ops1 a0 o0 n0 out :
  let s := after T (cipher_new_m fresh C c0) ops0 in
  let s1 := fst (t_step T s o) in
  let s2 := fst (t_wipe T (after T s1 ops1)) in
  produces o = true -> snd (t_step T s o) <> OExn Invalid_argument ->
  snd (t_get_substring T s) = Ret (a0, o0, n0) -> snd (t_get_string T s1) = Ret out -> zlen out > zlen a0 ->
  exists a m, In a (cm_arrays C s2) /\ holds a (sub out 0 m) /\ m <= zlen out /\ t_available T s <= m /\ zlen a0 - bs <= m.
Proof.
  intros s s1 s2 Hp He Ha Hout Hgt.
  destruct (after_any ops0 _ (proj1 (new_inv c0))) as (Hi & _). fold s in Hi.
  injection Ha as <- _ _.
  pose proof (produce_G fresh fresh_len C Hbs HC _ fin_G s o Hp Hi He) as HG. change (G C s s1) in HG.
  destruct HG as (Hi1 & (_ & X1 & (new & Hnew) & HG)).
  destruct (get_string_is s1 out Hi1 Hout) as (-> & Hav).
  destruct (after_any ops1 _ Hi1) as (Hi2 & X2).
  destruct HG as [(_ & E)|(a & m & K1 & K2 & K3 & K4)].
  - exfalso. pose proof (bo_contents_len _ (proj1 Hi1)) as L. destruct (proj1 Hi1) as (D1 & D2 & D3).
    unfold same_arrays in E. cbn in E. change (cont (g s1)) with (bo_contents (c_bo C (cm_cs C s1))) in Hgt. lia.
  - exists a, m. split. { right. apply (extends_in _ _ _ X2). exact K1. }
    split; [exact K2|]. split; [exact (proj2 K3)|]. rewrite (avail_is s Hi). split; [apply K3|exact K4].
Qed.
(* as long as the pending output stays small nothing is dropped, and wipe erases everything *)
Lemma timely_same L : forall ops s, I s -> zlen (obuf (c_bo C (cm_cs C s))) = L -> timely T (L - bs) s ops -> same_arrays (g s) (g (after T s ops)).
Proof.
  induction ops as [|o ops IH]; intros s Hi HL Ht; cbn [after]; [split; reflexivity|]. cbn [timely] in Ht. destruct Ht as (Ho & Ha & Ht).
  assert (X : same_arrays (g s) (g (fst (t_step T s o)))).
  { destruct (produces o) eqn:Ep.
    - pose proof (produce_G fresh fresh_len C Hbs HC _ fin_G s o Ep Hi Ho) as (Hi1 & (_ & _ & _ & HG)).
      change (I (fst (t_step T s o))) in Hi1. rewrite avail_is in Ha by exact Hi1.
      destruct HG as [HG|(a & m & K1 & K2 & K3 & K4)]; [exact HG|]. exfalso. cbn [m_bo get_bm] in K4. fold bs in K4.
      destruct K3 as (_ & K3).
      assert (K5 : m <= zlen (cont (g (fst (t_step T s o))))) by exact K3. lia.
    - eapply fetch_inv; eassumption. }
  destruct (step_any s o Hi) as (Hi1 & _).
  assert (HL1 : zlen (obuf (c_bo C (cm_cs C (fst (t_step T s o))))) = L) by (destruct X as (_ & X); exact (eq_trans X HL)).
  destruct (IH _ Hi1 HL1 Ht) as (Y1 & Y2). destruct X as (X1 & X2). split; congruence.
Qed.
Theorem drop_none c0 ops : let L := Z.max 256 (2 * bs) in
  timely T (L - bs) (cipher_new_m fresh C c0) ops ->
  cm_arrays C (fst (t_wipe T (after T (cipher_new_m fresh C c0) ops))) = [zeros L].
Proof.
  intros L Ht. destruct (new_inv c0) as (Hi & HL).
  destruct (timely_same L ops _ Hi HL Ht) as (E1 & E2). cbn in E1.
  unfold cm_arrays, bm_arrays. cbn. cbn [m_old g get_bm] in E1. f_equal; [|exact E1]. f_equal. exact (eq_trans E2 HL).
Qed.
End Histories.

Theorem drop_kept_new fresh : (forall n, 0 <= n -> zlen (fresh n) = n) -> forall C, 0 < bc_blocksize C <= 2 ^ 40 -> bc_frame C ->
  forall k, kind_ok k -> forall c0 o ops1 out,
  let T := cipher_kind_m fresh C k in let L := Z.max 256 (2 * bc_blocksize C) in
  let s := cipher_new_m fresh C c0 in
  let s1 := fst (t_step T s o) in
  let s2 := fst (t_wipe T (after T s1 ops1)) in
  produces o = true -> snd (t_step T s o) <> OExn Invalid_argument ->
  snd (t_get_string T s1) = Ret out -> zlen out > L ->
  exists a m, In a (cm_arrays C s2) /\ holds a (sub out 0 m) /\ L - bc_blocksize C <= m <= zlen out.
Proof.
  intros HF C Hb HC k Hk c0 o ops1 out T L s s1 s2 Hp He Ho Hz.
  destruct (new_inv fresh HF C Hb c0) as (_ & HL). fold s in HL.
  destruct (drop_kept fresh HF C Hb HC k Hk c0 [] o ops1 _ _ _ out Hp He eq_refl Ho ltac:(change (zlen out > zlen (obuf (c_bo C (cm_cs C s)))); rewrite HL; exact Hz)) as (a & m & A1 & A2 & A3 & A4 & A5).
  change (zlen (obuf (c_bo C (cm_cs C s))) - bc_blocksize C <= m) in A5.
  exists a, m. split; [exact A1|]. split; [exact A2|]. rewrite HL in A5. fold L in A5. split; assumption.
Qed.

(* ---- the buffer itself ---- *)
Section Buffer.
Variable fresh : Z -> bytes.
Hypothesis fresh_len : forall n, 0 <= n -> zlen (fresh n) = n.
Lemma produce_bm s l : bo_inv (m_bo s) -> zlen l <= max_string_length -> grows (zlen l) s (fst (produce_m fresh s l)).
Proof.
  intros Hi Hl. pose proof (zlen_nonneg l) as Hz. pose proof max_small as Hm. destruct (ecm_ok fresh fresh_len s (zlen l) Hi ltac:(lia)) as (E1 & E2 & E3).
  unfold produce_m. destruct (ensure_capacity_m fresh s (zlen l)) as [s1 r]. cbn [fst snd] in *.
  destruct r as [[]|e| |]; try exact E1. cbn [bind]. specialize (E3 eq_refl). destruct E1 as (F1 & F2 & F3 & F4).
  assert (F : grows (zlen l) s s1) by (split; [exact F1|split; [exact F2|split; [exact F3|exact F4]]]).
  destruct (blit _ _ _ _ _) as [ob|e| |] eqn:E; try (destruct s1 as [o b]; exact F). apply frame_blit in E.
  destruct (put_after fresh fresh_len (m_old s1) (m_bo s1) ob (zlen l) F1 Hz E3 E (zlen l)) as (P & _).
  destruct s1 as [o b]. eapply grows_trans; [exact fresh_len|exact F|exact P].
Qed.
Lemma bm_step_any s o : bo_inv (m_bo s) -> bop_ok o -> bo_inv (m_bo (bm_step fresh s o)) /\ extends s (bm_step fresh s o).
Proof.
  intros Hi Ho. destruct o as [l| | | |]; cbn [bm_step].
  - destruct (produce_bm s l Hi Ho) as (A & B & _). split; assumption.
  - split; [exact Hi|apply extends_refl].
  - split; [eapply get_string_inv; eassumption|exists []; reflexivity].
  - split; [eapply get_substring_inv; eassumption|exists []; reflexivity].
  - split; [eapply get_char_inv; eassumption|exists []; reflexivity].
Qed.
Lemma bm_after_any : forall ops s, bo_inv (m_bo s) -> Forall bop_ok ops -> bo_inv (m_bo (bm_after fresh s ops)) /\ extends s (bm_after fresh s ops).
Proof.
  induction ops as [|o ops IH]; intros s Hi Ho; [split; [exact Hi|apply extends_refl]|]. inversion Ho; subst.
  destruct (bm_step_any s o Hi) as (A & B); [assumption|]. destruct (IH _ A) as (A' & B'); [assumption|]. split; [exact A'|exact (extends_trans _ _ _ B B')].
Qed.
Theorem buffer_kept n ops0 l ops1 : 0 < n <= max_string_length -> Forall bop_ok (ops0 ++ Produce l :: ops1) ->
  let s := bm_after fresh (bm_new fresh n) ops0 in
  snd (produce_m fresh s l) = Ret tt -> zlen (bo_contents (m_bo s)) + zlen l > zlen (obuf (m_bo s)) ->
  exists a, In a (bm_arrays (bm_wipe (bm_after fresh s (Produce l :: ops1)))) /\ holds a (bo_contents (m_bo s)).
Proof.
  intros Hn Ho s Hr Hgt. apply Forall_app in Ho. destruct Ho as (Ho0 & Ho1). inversion Ho1; subst.
  destruct (bm_after_any ops0 (bm_new fresh n) (bo_new_inv fresh fresh_len n Hn) Ho0) as (Hi & _). fold s in Hi.
  pose proof (produce_bm s l Hi ltac:(assumption)) as (I1 & X1 & (new & Hnew) & HG).
  destruct (bm_after_any ops1 _ I1 ltac:(assumption)) as (_ & X2).
  assert (Hc : zlen (cont (fst (produce_m fresh s l))) = zlen (bo_contents (m_bo s)) + zlen l).
  { pose proof max_small as Hm. pose proof (zlen_nonneg l) as Hz. assert (Hl : zlen l <= max_string_length) by assumption.
    destruct (ecm_ok fresh fresh_len s (zlen l) Hi ltac:(lia)) as (E1 & E2 & E3).
    unfold produce_m in *. destruct (ensure_capacity_m fresh s (zlen l)) as [s1 r]. cbn [fst snd] in *.
    destruct r as [[]|e| |]; try discriminate. cbn [bind] in *. specialize (E3 eq_refl). destruct E1 as (F1 & _).
    destruct (blit _ _ _ _ _) as [ob|e| |] eqn:E; try discriminate. cbn [on_cur fst].
    pose proof (blit_zlen _ _ _ _ _ _ E) as Lb. pose proof (bo_contents_len _ F1) as L1. pose proof F1 as (D1 & D2 & D3).
    unfold cont at 1. cbn [m_bo]. rewrite bo_contents_len by (unfold bo_inv; cbn [obuf obeg oend]; lia). cbn [obuf obeg oend].
    change (bo_contents (m_bo s1)) with (cont s1) in L1. rewrite E2 in L1. unfold cont in L1. lia. }
  destruct HG as [(_ & E)|(a & m & K1 & K2 & K3 & K4)].
  - exfalso. pose proof (bo_contents_len _ I1) as L. destruct I1 as (D1 & D2 & D3). change (bo_contents (m_bo (fst (produce_m fresh s l)))) with (cont (fst (produce_m fresh s l))) in L. lia.
  - exists a. split. { right. apply (extends_in _ _ _ X2). exact K1. }
    destruct K2 as (x & y & ->). rewrite Hnew in *. unfold cont in K3, Hnew |- *.
    exists x, (sub (bo_contents (m_bo s) ++ new) (zlen (bo_contents (m_bo s))) (m - zlen (bo_contents (m_bo s))) ++ y).
    f_equal. rewrite app_assoc. f_equal. pose proof (zlen_nonneg (bo_contents (m_bo s))).
    replace m with (zlen (bo_contents (m_bo s)) + (m - zlen (bo_contents (m_bo s)))) at 1 by lia.
    rewrite sub_app_split by lia. f_equal. rewrite (sub_prefix fresh fresh_len) by lia. apply sub_0_all. reflexivity.
Qed.
End Buffer.

(* ---- AES in CBC mode ---- *)
Lemma Ret_inj {A} (x y : A) : Ret x = Ret y -> x = y.
Proof. intros H. now injection H. Qed.
Lemma dec_last_zlen rk p t : zlen (dec_last rk p t) = 16.
Proof. destruct t as [[[t0 t1] t2] t3]. unfold dec_last. rewrite !zlen_app. reflexivity. Qed.
Lemma aes_decrypt_frame : bc_frame aes_decrypt_class.
Proof.
  apply raw_frame; [lia|]. intros k b r. unfold rijndaelDecrypt. destruct (rk_reads_ok (fst k) (snd k)); [|discriminate].
  destruct (two_rounds _ _ _ _) as [t p]. intros H. apply Ret_inj in H. rewrite <- H. apply dec_last_zlen.
Qed.
Lemma aes_cbc_decrypt_frame : bc_frame (cbc_decrypt aes_decrypt_class).
Proof. apply cbc_decrypt_frame. exact aes_decrypt_frame. Qed.

Definition drop_key : bytes := map Z.of_nat (seq 7 16).
Definition drop_message : bytes := map (fun i => Z.of_nat i mod 256) (seq 1 320).
Definition drop_E := cipher_kind_m zeros (cbc_encrypt aes_encrypt_class) Plain.
Definition drop_D := cipher_kind_m zeros (cbc_decrypt aes_decrypt_class) Plain.
Definition drop_ms C k : mode_st C := MS (zeros 16) (zeros 16) 0 k.
Definition drop_e := cipher_new_m zeros (cbc_encrypt aes_encrypt_class) (drop_ms aes_encrypt_class (caml_aes_cook_encrypt_key zeros drop_key)).
Definition drop_d := cipher_new_m zeros (cbc_decrypt aes_decrypt_class) (drop_ms aes_decrypt_class (caml_aes_cook_decrypt_key zeros drop_key)).
Definition drop_ct : bytes := match nth 2 (t_run drop_E drop_e [PutString drop_message; Finish; GetString]) OUnit with OBytes c => c | _ => [] end.
Lemma drop_enc : t_run drop_E drop_e [PutString drop_message; Finish; GetString] = [OUnit; OUnit; OBytes drop_ct].
Proof. vm_compute. reflexivity. Qed.
Lemma drop_dec : t_run drop_D drop_d [PutString drop_ct; Finish; GetString] = [OUnit; OUnit; OBytes drop_message].
Proof. vm_compute. reflexivity. Qed.
Lemma drop_arrays : cm_arrays _ (fst (t_wipe drop_D (after drop_D drop_d [PutString drop_ct; Finish; GetString]))) = [zeros 512; sub drop_message 0 256].
Proof. vm_compute. reflexivity. Qed.
Theorem drop_refuted : exists key message, zlen key = 16 /\ zlen message = 320 /\
  exists ck dk ce cd, new_aes zeros Encrypt key = Ret ck /\ chain zeros CBC Encrypt None ck = Ret ce /\
  new_aes zeros Decrypt key = Ret dk /\ chain zeros CBC Decrypt None dk = Ret cd /\
  let E := cipher_kind_m zeros (b_bc ce) Plain in let e := cipher_new_m zeros (b_bc ce) (b_st ce) in
  let D := cipher_kind_m zeros (b_bc cd) Plain in let d := cipher_new_m zeros (b_bc cd) (b_st cd) in
  exists ct, t_run E e [PutString message; Finish; GetString] = [OUnit; OUnit; OBytes ct] /\
    t_run D d [PutString ct; Finish; GetString] = [OUnit; OUnit; OBytes message] /\
    exists a, In a (cm_arrays _ (fst (t_wipe D (after D d [PutString ct; Finish; GetString])))) /\ holds a (sub message 0 256).
Proof.
  exists drop_key, drop_message. split; [reflexivity|]. split; [reflexivity|].
  exists (BObj aes_encrypt_class (caml_aes_cook_encrypt_key zeros drop_key)), (BObj aes_decrypt_class (caml_aes_cook_decrypt_key zeros drop_key)),
    (BObj (cbc_encrypt aes_encrypt_class) (drop_ms aes_encrypt_class (caml_aes_cook_encrypt_key zeros drop_key))),
    (BObj (cbc_decrypt aes_decrypt_class) (drop_ms aes_decrypt_class (caml_aes_cook_decrypt_key zeros drop_key))).
  split; [reflexivity|]. split; [reflexivity|]. split; [reflexivity|]. split; [reflexivity|].
  exists drop_ct. split; [exact drop_enc|]. split; [exact drop_dec|].
  exists (sub drop_message 0 256). split.
  - replace (cm_arrays _ _) with [zeros 512; sub drop_message 0 256] by (symmetry; exact drop_arrays). right. left. reflexivity.
  - exists [], []. rewrite app_nil_r. reflexivity.
Qed.
