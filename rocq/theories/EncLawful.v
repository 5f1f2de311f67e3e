(* Bounded output growth of the encodings and stream ciphers, hence the
   generic theorems on whole messages, channels, compositions and histories
   apply to them. *)
From Verif Require Import Prelude PreludeFacts BufOutModel BufOut SpecTransducer SpecEnc
  TransformModel Transform TransformTotal CipherModel Lawful EncModel Charwise Encodings.
Ltac Zify.zify_post_hook ::= Z.div_mod_to_equations.

Section Potential.
Variables (M : mealy) (OK : m_st M -> Prop) (P : m_st M -> Z) (K A : Z).
Hypothesis HK : 1 <= K.
Hypothesis HP : forall sg, OK sg -> 0 <= P sg <= A.
Hypothesis Hbyte : forall sg c, OK sg -> byte_ok c ->
  OK (r_st (m_byte M sg c)) /\ bytes_ok (r_out (m_byte M sg c)) /\
  zlen (r_out (m_byte M sg c)) + P (r_st (m_byte M sg c)) <= K + P sg.
Hypothesis Hflush : forall sg, OK sg ->
  OK (r_st (m_flush M sg)) /\ zlen (r_out (m_flush M sg)) <= A /\ bytes_ok (r_out (m_flush M sg)).
Hypothesis Hfinish : forall sg, OK sg ->
  OK (r_st (m_finish M sg)) /\ zlen (r_out (m_finish M sg)) <= A /\ bytes_ok (r_out (m_finish M sg)).

Lemma run_potential l : forall sg, OK sg -> bytes_ok l ->
  OK (r_st (m_run M sg l)) /\ bytes_ok (r_out (m_run M sg l)) /\
  zlen (r_out (m_run M sg l)) + P (r_st (m_run M sg l)) <= K * zlen l + P sg.
Proof.
  induction l as [|c l IH]; intros sg Hs Hl.
  - unfold r_st, r_out. cbn [m_run fst snd]. split; [exact Hs|]. split; [constructor|]. change (zlen (@nil Z)) with 0. lia.
  - apply Forall_cons_iff in Hl. destruct Hl as (Hc & Hl). destruct (Hbyte sg c Hs Hc) as (B1 & B2 & B3).
    cbn [m_run]. rewrite zlen_cons. pose proof (zlen_nonneg l). destruct (m_byte M sg c) as [[s1 o1] [e|]]; unfold r_st, r_out in *; cbn [fst snd] in *.
    + split; [exact B1|]. split; [exact B2|]. nia.
    + destruct (IH s1 B1 Hl) as (I1 & I2 & I3). destruct (m_run M s1 l) as [[s2 o2] e2]. cbn [fst snd] in *.
      split; [exact I1|]. split; [apply bytes_ok_app; auto|]. rewrite zlen_app. nia.
Qed.

Lemma potential_growth : (exists sg, OK sg) -> growth M (std_fits M 0) OK K A.
Proof.
  intros (sg0 & Hsg0). pose proof (HP sg0 Hsg0). constructor.
  - lia.
  - intros sg l Hs Hl _. destruct (run_potential l sg Hs Hl) as (H1 & H2 & H3).
    pose proof (HP _ Hs). pose proof (HP _ H1). split; [exact H1|]. split; [lia|exact H2].
  - intros sg Hs _. apply Hflush. exact Hs.
  - intros sg Hs _. apply Hfinish. exact Hs.
  - intros sg l q Hs Hl Hq. destruct (run_potential l sg Hs Hl) as (H1 & H2 & H3).
    pose proof (HP _ Hs). pose proof (HP _ H1). cbn [std_fits f_put]. lia.
  - intros sg q Hs Hq. destruct (Hflush sg Hs) as (_ & H1 & _). cbn [std_fits f_flush]. lia.
  - intros sg q Hs Hq. destruct (Hfinish sg Hs) as (_ & H1 & _). cbn [std_fits f_finish]. lia.
Qed.
End Potential.

Section EncL.
Variable fresh : Z -> bytes.
Hypothesis fresh_len : forall n, 0 <= n -> zlen (fresh n) = n.

Definition base64_encode_obj ml pad : tobj := TObj (base64_encode fresh ml pad) (base64_encode_new fresh).
Definition base64_decode_obj : tobj := TObj (base64_decode fresh) (base64_decode_new fresh).
Definition hexa_encode_obj : tobj := TObj (hexa_encode fresh) (hexa_encode_new fresh).
Definition hexa_decode_obj : tobj := TObj (hexa_decode fresh) (hexa_decode_new fresh).

Lemma b64e_group_len l : zlen l <= 3 -> zlen (b64e_group l) = match zlen l with 0 => 0 | n => n + 1 end.
Proof.
  intros H. destruct l as [|a [|b [|c [|d r]]]]; try reflexivity.
  rewrite !zlen_cons in H. pose proof (zlen_nonneg r). lia.
Qed.

Lemma b64e_lawful ml pad : lawful true (base64_encode_obj ml pad) (b64e_mealy ml pad) ([], 0) 2 9.
Proof.
  eexists _, _, (fun s : bytes * Z => bytes_ok (fst s) /\ zlen (fst s) <= 2).
  split; [apply b64e_implements; exact fresh_len|]. split; [|split; [apply b64e_new_R; exact fresh_len|split; [constructor|cbn; lia]]].
  apply (potential_growth (b64e_mealy ml pad) _ (fun s : bytes * Z => 2 * zlen (fst s))).
  - lia.
  - intros [pend col] (_ & H). cbn [fst] in *. pose proof (zlen_nonneg pend). lia.
  - intros [pend col] c (H1 & H2) Hc. cbn [fst snd b64e_mealy m_byte] in *.
    assert (H3 : bytes_ok (pend ++ [c])) by (apply bytes_ok_app; split; [exact H1|repeat constructor; apply Hc]).
    assert (H4 : zlen (pend ++ [c]) = zlen pend + 1) by (rewrite zlen_app, zlen_one; lia).
    destruct (zlen pend =? 2) eqn:E.
    + assert (H5 : zlen (b64e_group (pend ++ [c])) = 4) by (rewrite b64e_group_len; rewrite H4; replace (zlen pend) with 2 by lia; [reflexivity|lia]).
      pose proof (b64e_group_ok _ H3). change (zlen (@nil Z)) with 0.
      destruct (ml && (col + 4 >=? 72)); unfold r_st, r_out; cbn [fst snd]; change (zlen (@nil Z)) with 0; (split; [split; [constructor|lia]|]).
      * split; [apply bytes_ok_app; split; [assumption|repeat constructor; unfold byte_ok; lia]|]. rewrite zlen_app, zlen_one. lia.
      * split; [assumption|lia].
    + unfold r_st, r_out; cbn [fst snd]. change (zlen (@nil Z)) with 0. split; [split; [assumption|lia]|]. split; [constructor|lia].
  - intros sg H. cbn [b64e_mealy m_flush]. unfold r_st, r_out; cbn [fst snd]. change (zlen (@nil Z)) with 0. split; [exact H|]. split; [lia|constructor].
  - intros [pend col] (H1 & H2). cbn [fst snd b64e_mealy m_finish] in *. unfold r_st, r_out; cbn [fst snd].
    split; [split; assumption|]. pose proof (zlen_nonneg pend).
    assert (N : Z.of_nat (b64_npad pend) <= 2) by (unfold b64_npad; lia).
    assert (G : zlen (b64e_group pend) <= 3).
    { rewrite b64e_group_len by lia. assert (zlen pend = 0 \/ zlen pend = 1 \/ zlen pend = 2) as [->|[->| ->]] by lia; cbv; discriminate. }
    rewrite !zlen_app. split.
    + destruct (ml || pad); destruct (ml && (col >? 0)); rewrite ?zlen_repeat, ?zlen_one; change (zlen (@nil Z)) with 0; lia.
    + repeat (apply bytes_ok_app; split); [apply b64e_group_ok; assumption| |].
      * destruct (ml || pad); [apply bytes_ok_repeat; unfold byte_ok; lia|constructor].
      * destruct (ml && (col >? 0)); [repeat constructor; unfold byte_ok; lia|constructor].
  - exists ([], 0). split; [constructor|cbn; lia].
Qed.

Lemma b64d_lawful : lawful true base64_decode_obj b64d_mealy ([], false) 1 3.
Proof.
  eexists _, _, (fun s : list Z * bool => Forall (fun d => 0 <= d < 64) (fst s) /\ zlen (fst s) <= 3).
  split; [apply b64d_implements; exact fresh_len|]. split; [|split; [apply b64d_new_R; exact fresh_len|split; [constructor|cbn; lia]]].
  apply (potential_growth b64d_mealy _ (fun s : list Z * bool => zlen (fst s))).
  - lia.
  - intros [pend col] (_ & H). cbn [fst] in *. pose proof (zlen_nonneg pend). lia.
  - intros [pend fin] c (H1 & H2) Hc. cbn [fst snd b64d_mealy m_byte] in *.
    pose proof (b64_value_range c) as V.
    destruct (c =? 61); [unfold r_st, r_out; cbn [fst snd]; change (zlen (@nil Z)) with 0; split; [split; assumption|split; [constructor|lia]]|].
    destruct (blank c); [unfold r_st, r_out; cbn [fst snd]; change (zlen (@nil Z)) with 0; split; [split; assumption|split; [constructor|lia]]|].
    destruct (b64_value c) as [v|]; [|unfold r_st, r_out; cbn [fst snd]; change (zlen (@nil Z)) with 0; split; [split; assumption|split; [constructor|lia]]].
    destruct (V v eq_refl) as (Hv & _).
    destruct fin; [unfold r_st, r_out; cbn [fst snd]; change (zlen (@nil Z)) with 0; split; [split; assumption|split; [constructor|lia]]|].
    assert (D : zlen pend < 3 -> let r := (pend ++ [v], false, [], @None exn) in
      (Forall (fun d => 0 <= d < 64) (fst (r_st r)) /\ zlen (fst (r_st r)) <= 3) /\ bytes_ok (r_out r) /\
      zlen (r_out r) + zlen (fst (r_st r)) <= 1 + zlen pend).
    { intros Hl. unfold r_st, r_out; cbn [fst snd]. change (zlen (@nil Z)) with 0. rewrite zlen_app, zlen_one. split; [|split; [constructor|lia]].
      split; [|lia]. apply Forall_app. split; [exact H1|constructor; [lia|constructor]]. }
    destruct pend as [|p0 [|p1 [|p2 [|? r]]]]; try (apply D; unfold zlen; cbn [length]; lia).
    + apply Forall_cons_iff in H1. destruct H1 as (Q0 & H1). apply Forall_cons_iff in H1. destruct H1 as (Q1 & H1).
      apply Forall_cons_iff in H1. destruct H1 as (Q2 & _).
      unfold r_st, r_out; cbn [fst snd]. split; [split; [constructor|cbn; lia]|].
      split; [apply bytes3_ok, group64_range; assumption|]. unfold zlen. cbn [length bytes3]. lia.
    + exfalso. rewrite !zlen_cons in H2. pose proof (zlen_nonneg r). lia.
  - intros sg H. cbn [b64d_mealy m_flush]. unfold r_st, r_out; cbn [fst snd]. change (zlen (@nil Z)) with 0. split; [exact H|]. split; [lia|constructor].
  - intros [pend fin] (H1 & H2). cbn [fst snd b64d_mealy m_finish] in *.
    destruct pend as [|p0 [|p1 [|p2 [|? r]]]]; cbn [b64_bytes]; unfold r_st, r_out; cbn [fst snd];
      try solve [split; [split; assumption|split; [cbn; lia|constructor]]].
    + apply Forall_cons_iff in H1. pose proof H1 as (Q0 & H1'). apply Forall_cons_iff in H1'. destruct H1' as (Q1 & _).
      split; [split; [constructor; tauto|assumption]|]. split; [unfold zlen; cbn [length bytes3 firstn]; lia|].
      apply Forall_firstn, bytes3_ok, group64_range; lia.
    + apply Forall_cons_iff in H1. pose proof H1 as (Q0 & H1'). apply Forall_cons_iff in H1'. destruct H1' as (Q1 & H1').
      apply Forall_cons_iff in H1'. destruct H1' as (Q2 & _).
      split; [split; [constructor; tauto|assumption]|]. split; [unfold zlen; cbn [length bytes3 firstn]; lia|].
      apply Forall_firstn, bytes3_ok, group64_range; lia.
    + exfalso. rewrite !zlen_cons in H2. pose proof (zlen_nonneg r). lia.
  - exists ([], false). split; [constructor|cbn; lia].
Qed.

Lemma hexe_lawful : lawful true hexa_encode_obj hexe_mealy tt 2 0.
Proof.
  eexists _, _, (fun _ : unit => True).
  split; [apply hexe_implements; exact fresh_len|]. split; [|split; [apply hexe_new_R; exact fresh_len|exact I]].
  apply (potential_growth hexe_mealy _ (fun _ : unit => 0)).
  - lia.
  - intros; lia.
  - intros sg c _ Hc. unfold byte_ok in Hc. unfold r_st, r_out. cbn [fst snd hexe_mealy m_byte].
    split; [exact I|]. split; [repeat constructor; apply hex_char_byte; lia|cbn; lia].
  - intros. split; [exact I|]. split; [cbn; lia|constructor].
  - intros. split; [exact I|]. split; [cbn; lia|constructor].
  - exists tt; exact I.
Qed.

Lemma hexd_lawful : lawful true hexa_decode_obj hexd_mealy [] 1 1.
Proof.
  eexists _, _, (fun s : list Z => Forall (fun d => 0 <= d < 16) s /\ zlen s <= 1).
  split; [apply hexd_implements; exact fresh_len|]. split; [|split; [apply hexd_new_R; exact fresh_len|split; [constructor|cbn; lia]]].
  apply (potential_growth hexd_mealy _ (fun s : list Z => zlen s)).
  - lia.
  - intros pend (_ & H). pose proof (zlen_nonneg pend). lia.
  - intros pend c (H1 & H2) Hc. cbn [hexd_mealy m_byte] in *.
    pose proof (hex_value_range c) as V.
    destruct (blank c); [unfold r_st, r_out; cbn [fst snd]; change (zlen (@nil Z)) with 0; split; [split; assumption|split; [constructor|lia]]|].
    destruct (hex_value c) as [v|]; [|unfold r_st, r_out; cbn [fst snd]; change (zlen (@nil Z)) with 0; split; [split; assumption|split; [constructor|lia]]].
    destruct (V v eq_refl) as (Hv & _).
    destruct pend as [|p0 r]; unfold r_st, r_out; cbn [fst snd].
    + split; [split; [repeat constructor; lia|cbn; lia]|]. split; [constructor|cbn; lia].
    + apply Forall_cons_iff in H1. destruct H1 as (Q0 & _). rewrite zlen_cons. pose proof (zlen_nonneg r).
      split; [split; [constructor|cbn; lia]|]. split; [repeat constructor; unfold byte_ok; lia|]. rewrite zlen_cons. change (zlen (@nil Z)) with 0. lia.
  - intros pend H. cbn [hexd_mealy m_flush]. destruct pend; (split; [exact H|]; split; [cbn; lia|constructor]).
  - intros pend H. cbn [hexd_mealy m_finish]. destruct pend; (split; [exact H|]; split; [cbn; lia|constructor]).
  - exists []. split; [constructor|cbn; lia].
Qed.

(* ---- stream ciphers ---- *)
Section Stream.
Variables (K : Type) (prim : K -> bytes -> K * out bytes) (wipe : K -> K) (f : streamfn) (rel : K -> sf_st f -> Prop).

(* the primitive consumes one keystream position per byte *)
Definition stream_prim : Prop :=
  (forall k s l, rel k s -> bytes_ok l -> 0 < zlen l ->
     exists k', prim k l = (k', Ret (snd (sf_run f s l))) /\ rel k' (fst (sf_run f s l))) /\
  (forall k s, rel k s -> exists k', prim k [] = (k', Ret []) /\ rel k' s) /\
  (forall k s c, rel k s -> byte_ok c -> byte_ok (snd (sf_step f s c))).
Hypothesis HS : stream_prim.

Lemma sf_run_len l : forall s, zlen (snd (sf_run f s l)) = zlen l.
Proof.
  induction l as [|c l IH]; intros s; [reflexivity|]. cbn [sf_run]. destruct (sf_step f s c) as [s1 x].
  specialize (IH s1). destruct (sf_run f s1 l) as [s2 y]. cbn [snd] in *. rewrite !zlen_cons. lia.
Qed.

Lemma prim_any k s l : rel k s -> bytes_ok l ->
     exists k', prim k l = (k', Ret (snd (sf_run f s l))) /\ rel k' (fst (sf_run f s l)).
Proof.
  intros Hr Hl. destruct HS as (H1 & H2 & _). destruct l as [|c l]; [apply H2; exact Hr|].
  apply H1; [exact Hr|exact Hl|]. rewrite zlen_cons. pose proof (zlen_nonneg l). lia.
Qed.

Lemma stream_m_run l : forall s, m_run (stream_mealy f) s l = (fst (sf_run f s l), snd (sf_run f s l), None).
Proof.
  induction l as [|c l IH]; intros s; [reflexivity|]. cbn [m_run sf_run]. cbn [stream_mealy m_byte].
  destruct (sf_step f s c) as [s1 x].
  change {| m_st := _; m_byte := _; m_flush := _; m_finish := _ |} with (stream_mealy f).
  rewrite IH. destruct (sf_run f s1 l) as [s2 y]. reflexivity.
Qed.

Let C := raw_stream K prim wipe.
Definition sctR (s : sct C) (sg : sf_st f) (q : bytes) : Prop :=
  rel (sct_c C s) sg /\ zlen (sct_buf C s) = 1 /\ bo_inv (sct_bo C s) /\ bo_contents (sct_bo C s) = q /\ bytes_ok q.

(* states reachable from a related pair give bytes *)
Lemma sf_bytes l : forall k s, rel k s -> bytes_ok l -> bytes_ok (snd (sf_run f s l)).
Proof.
  induction l as [|c l IH]; intros k s Hr Hl; [constructor|].
  pose proof Hl as Hl'. apply Forall_cons_iff in Hl. destruct Hl as (Hc & Hl). destruct HS as (H1 & H2 & H3).
  destruct (prim_any k s [c] Hr) as (k' & _ & Hk'); [repeat constructor; apply Hc|].
  specialize (H3 k s c Hr Hc). cbn [sf_run] in *. destruct (sf_step f s c) as [s1 x]. cbn [fst snd] in *.
  specialize (IH k' s1 Hk' Hl). destruct (sf_run f s1 l) as [s2 y]. cbn [snd] in *. constructor; assumption.
Qed.

Lemma sct_put_ok s sg q b o n : sctR s sg q -> in_range b o n = true -> bytes_ok (sub b o n) ->
  zlen b <= max_string_length -> zlen q + n <= max_string_length ->
  exists s', sct_put_substring fresh C s b o n = (s', Ret tt) /\
    sctR s' (fst (sf_run f sg (sub b o n))) (q ++ snd (sf_run f sg (sub b o n))).
Proof.
  intros (Hr & Hb & Hi & Hq & Hqok) Hir Hok Hl Hf. apply in_range_true in Hir. rewrite <- Hq in Hf.
  destruct (ensure_capacity_ok fresh fresh_len (sct_bo C s) n Hi ltac:(lia) Hf) as (b1 & E1 & E2 & E3 & E4).
  unfold sct_put_substring, sct_ensure, lift. rewrite E1. cbn [bind].
  unfold sct_transform. cbn [sct_c sct_bo sct_buf]. unfold C. cbn [raw_stream sc_transform]. pose proof E2 as (P1 & P2 & P3).
  assert (G : ((n <? 0) || (o <? 0) || (o >? zlen b - n) || (oend b1 <? 0) || (oend b1 >? zlen (obuf b1) - n)) = false) by lia.
  destruct (prim_any (sct_c C s) sg (sub b o n) Hr Hok) as (k' & Hp & Hk').
  change (sct_c (raw_stream K prim wipe) s) with (sct_c C s). rewrite Hp. cbn [fst snd bind sct_c sct_bo sct_buf]. rewrite G. cbn [fst snd].
  eexists. split; [reflexivity|]. unfold sct_adv, sctR. cbn [sct_c sct_buf sct_bo obuf obeg oend].
  assert (Ln : zlen (snd (sf_run f sg (sub b o n))) = n) by (rewrite sf_run_len, zlen_sub by lia; lia).
  assert (E4' : oend b1 + zlen (snd (sf_run f sg (sub b o n))) <= zlen (obuf b1)) by lia.
  destruct (bo_append b1 _ _ E2 E4' eq_refl) as (A1 & A2). rewrite Ln in A1, A2.
  split; [exact Hk'|]. split; [exact Hb|]. split; [exact A1|]. split; [rewrite A2, E3, Hq; reflexivity|].
  apply bytes_ok_app. split; [assumption|]. eapply sf_bytes; eassumption.
Qed.

Theorem stream_implements : implements true (stream_transform fresh C) (stream_mealy f) (std_fits (stream_mealy f) 0) sctR.
Proof.
  assert (F1 : forall sg l q, f_put (std_fits (stream_mealy f) 0) sg l q -> zlen q + zlen l <= max_string_length).
  { cbn [std_fits f_put]. intros sg l q. rewrite stream_m_run. unfold r_out. cbn [fst snd]. rewrite sf_run_len. lia. }
  assert (MM : forall q x r, (exists s', r = (s', Ret tt) /\ sctR s' (fst x) (q ++ snd x)) ->
    matches true sctR q (fst x, snd x, None) r).
  { intros q x r (s' & -> & H). unfold matches, r_exn, r_st, r_out. cbn [fst snd]. split; [reflexivity|exact H]. }
  assert (PC : forall s sg q c, sctR s sg q -> byte_ok c -> f_put (std_fits (stream_mealy f) 0) sg [c] q ->
    matches true sctR q (m_run (stream_mealy f) sg [c]) (sct_put_char fresh C s c)).
  { intros s sg q c (Hr & Hb & Hi & Hq & Hqok) Hc Hf. apply F1 in Hf. rewrite zlen_one in Hf. rewrite stream_m_run. apply MM.
    unfold sct_put_char. rewrite bytes_set_ok by lia. cbn [bind].
    assert (Hs : splice (sct_buf C s) 0 [c] = [c]).
    { destruct (sct_buf C s) as [|x [|? ?]]; try reflexivity; rewrite ?zlen_cons in Hb; try (pose proof (zlen_nonneg l)); unfold zlen in *; cbn [length] in *; lia. }
    rewrite Hs.
    assert (HR2 : sctR (SCT C (sct_c C s) [c] (sct_bo C s)) sg q) by (repeat split; assumption || apply Hi).
    pose proof (sct_put_ok _ sg q [c] 0 1 HR2 eq_refl) as P.
    change (sub [c] 0 1) with [c] in P.
    apply P; [repeat constructor; apply Hc| unfold zlen, max_string_length; cbn; lia|lia]. }
  constructor; cbn [stream_transform t_st t_put_substring t_put_string t_put_char
    t_put_byte t_flush t_finish t_available t_get_string t_get_substring t_get_char t_get_byte t_wipe].
  - intros s sg q b o n HR Hir Hb Hl Hf. apply F1 in Hf. pose proof Hir as Hir'. apply in_range_true in Hir'.
    rewrite zlen_sub in Hf by lia. rewrite stream_m_run. apply MM. apply sct_put_ok; assumption.
  - intros s sg q str HR Hok Hl Hf. apply F1 in Hf. rewrite stream_m_run. apply MM.
    assert (Hir : in_range str 0 (zlen str) = true) by (apply in_range_true; pose proof (zlen_nonneg str); lia).
    pose proof (sct_put_ok s sg q str 0 (zlen str) HR Hir) as P. rewrite sub_0_all in P by lia. apply P; assumption.
  - exact PC.
  - intros s sg q c HR Hc Hf. unfold byte_ok in Hc. rewrite Z.mod_small by lia. apply PC; assumption.
  - intros s sg q HR _. unfold matches, r_exn, r_st, r_out. cbn [stream_mealy m_flush fst snd]. rewrite app_nil_r. auto.
  - intros s sg q HR _. unfold matches, r_exn, r_st, r_out. cbn [stream_mealy m_finish fst snd]. rewrite app_nil_r. auto.
  - intros s sg q (H0 & H1 & H2 & H3 & H4). unfold bo_available. rewrite <- H3, bo_contents_len by exact H2. reflexivity.
  - intros s sg q (H0 & H1 & H2 & H3 & H4). destruct (bo_get_string_ok _ H2) as (b' & -> & I1 & I2). rewrite H3.
    eexists; split; [reflexivity|]. repeat split; try assumption; try constructor; apply I1.
  - intros s sg q (H0 & H1 & H2 & H3 & H4).
    destruct (bo_get_substring_ok _ H2) as (b' & -> & P1 & P2 & I1 & I2). rewrite H3 in *.
    do 3 eexists; split; [reflexivity|]. split; [exact P1|]. split; [exact P2|]. split; [apply H2|].
    repeat split; try assumption; try constructor; apply I1.
  - intros s sg q (H0 & H1 & H2 & H3 & H4). pose proof (bo_get_char_ok _ H2) as Hg. rewrite H3 in Hg. destruct q as [|c q'].
    + rewrite Hg. unfold sct_bo_op. cbn [fst snd]. destruct s; reflexivity.
    + destruct Hg as (b' & -> & I1 & I2). apply Forall_cons_iff in H4. destruct H4.
      eexists; split; [reflexivity|]. repeat split; try assumption; apply I1.
  - intros s sg q (H0 & H1 & H2 & H3 & H4). pose proof (bo_get_char_ok _ H2) as Hg. rewrite H3 in Hg. destruct q as [|c q'].
    + rewrite Hg. unfold sct_bo_op. cbn [fst snd]. destruct s; reflexivity.
    + destruct Hg as (b' & -> & I1 & I2). apply Forall_cons_iff in H4. destruct H4.
      eexists; split; [reflexivity|]. repeat split; try assumption; apply I1.
  - intros. eexists; reflexivity.
  - intros s sg q H. apply H.
Qed.

Definition stream_obj (k : K) : tobj := TObj (stream_transform fresh C) (stream_new fresh C k).

Lemma stream_lawful k s : rel k s -> lawful true (stream_obj k) (stream_mealy f) s 1 0.
Proof.
  intros Hr. eexists _, _, (fun s => exists k, rel k s).
  split; [apply stream_implements|]. split.
  2:{ split; [|exists k; exact Hr]. unfold sctR, stream_obj, stream_new. cbn [o_st sct_c sct_buf sct_bo].
      split; [exact Hr|]. split; [apply fresh_len; lia|].
      split; [apply bo_new_inv; [exact fresh_len|unfold max_string_length; lia]|]. split; [reflexivity|constructor]. }
  apply (potential_growth (stream_mealy f) _ (fun _ => 0)).
  - lia.
  - intros; lia.
  - intros sg c (k1 & Hk) Hc. rewrite <- m_run_one. rewrite stream_m_run. unfold r_st, r_out. cbn [fst snd].
    assert (Hc' : bytes_ok [c]) by (repeat constructor; apply Hc).
    destruct (prim_any k1 sg [c] Hk Hc') as (k' & _ & Hk'). split; [eauto|].
    split; [eapply sf_bytes; eassumption|]. rewrite sf_run_len, zlen_one. lia.
  - intros sg H. split; [exact H|]. split; [cbn; lia|constructor].
  - intros sg H. split; [exact H|]. split; [cbn; lia|constructor].
  - eauto.
Qed.

Lemma stream_total s l : m_total (stream_mealy f) s l = (fst (sf_run f s l), snd (sf_run f s l), None).
Proof.
  unfold m_total. rewrite stream_m_run. cbn [m_then stream_mealy m_finish]. rewrite app_nil_r. reflexivity.
Qed.
End Stream.
End EncL.
