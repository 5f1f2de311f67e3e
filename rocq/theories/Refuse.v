(* The encodings after refused input, and put_byte with integers that are not bytes. *)
From Verif Require Import Prelude PreludeFacts BufOutModel BufOut SpecTransducer SpecEnc TransformModel Transform CipherModel EncModel StreamModel
  BlockModel HashModel MacModel AuthModel AeadModel Charwise Encodings EncLawful SpecWipe SpecWipe2 SpecRefuse DesModel Blake2Model SipModel KeccakModel Blake3Model Md5Model PolyModel WipeApi
  ZlibModel EncModel SpecEnc SpecRefuse.
Ltac Zify.zify_post_hook ::= Z.div_mod_to_equations.

Lemma Ret_inj {A} (x y : A) : Ret x = Ret y -> x = y.
Proof. intros H. now injection H. Qed.

(* like matches, and the relation holds after an exception *)
Definition resumes {S Sg} (R : S -> Sg -> bytes -> Prop) (q : bytes) (r : Sg * bytes * option exn) (x : S * out unit) : Prop :=
  snd x = match r_exn r with None => Ret tt | Some e => Raise e end /\ R (fst x) (r_st r) (q ++ r_out r).

Lemma matches_resumes {S Sg} (R : S -> Sg -> bytes -> Prop) q r x : matches true R q r x ->
  (forall e, r_exn r = Some e -> R (fst x) (r_st r) (q ++ r_out r)) -> resumes R q r x.
Proof.
  unfold matches, resumes. destruct (r_exn r) as [e|]; intros H H2.
  - destruct H as (e' & H & He). rewrite He in H by reflexivity. split; [exact H|]. apply (H2 e eq_refl).
  - exact H.
Qed.

Lemma loop_iter (X : Type) (put_char : X * bo -> Z -> (X * bo) * out unit) n : forall s str i, 0 <= i -> i + Z.of_nat n <= zlen str ->
  put_loop X put_char n s str i = put_iter X put_char s (sub str i (Z.of_nat n)).
Proof.
  induction n as [|n IH]; intros s str i Hi Hn.
  - rewrite sub_0_len. reflexivity.
  - cbn [put_loop]. unfold bytes_get. replace ((0 <=? i) && (i <? zlen str)) with true by lia. cbn [bind].
    replace (Z.of_nat (S n)) with (1 + Z.of_nat n) by lia. rewrite sub_app_split by lia.
    assert (Hs : sub str i 1 = [nthZ str i]).
    { unfold sub, nthZ. replace (Z.to_nat 1) with 1%nat by lia.
      assert (Hn' : (Z.to_nat i < length str)%nat) by (unfold zlen in *; lia).
      clear -Hn'. revert Hn'. generalize (Z.to_nat i) as k, str as l.
      induction k as [|k IHk]; intros [|x l] H; cbn [length] in H; try lia; [reflexivity|].
      cbn [skipn nth]. apply IHk; lia. }
    rewrite Hs. cbn [app put_iter]. destruct (put_char s (nthZ str i)) as [s1 [u|e| |]]; cbn [bind]; try reflexivity.
    apply IH; lia.
Qed.

Section Resume.
Variables (X : Type)
  (put_char put_byte : X * bo -> Z -> (X * bo) * out unit)
  (flush finish : X * bo -> (X * bo) * out unit)
  (wipe : X -> X) (M : mealy) (rel : X -> m_st M -> Prop).
Let R := cwR X M rel.
Variables (OK : m_st M -> Prop) (P : m_st M -> Z) (K A : Z).
Hypothesis HK : 1 <= K.
Hypothesis HP : forall sg, OK sg -> 0 <= P sg <= A.
Hypothesis Hbyte : forall sg c, OK sg -> byte_ok c ->
  OK (r_st (m_byte M sg c)) /\ bytes_ok (r_out (m_byte M sg c)) /\
  zlen (r_out (m_byte M sg c)) + P (r_st (m_byte M sg c)) <= K + P sg.
Hypothesis Hflush : forall sg, OK sg ->
  OK (r_st (m_flush M sg)) /\ zlen (r_out (m_flush M sg)) <= A /\ bytes_ok (r_out (m_flush M sg)).
Hypothesis Hfinish : forall sg, OK sg ->
  OK (r_st (m_finish M sg)) /\ zlen (r_out (m_finish M sg)) <= A /\ bytes_ok (r_out (m_finish M sg)).
Let T := charwise X put_char put_byte flush finish wipe.
Hypothesis Im : implements true T M (std_fits M 0) R.
Hypothesis Rput : forall s sg q c, R s sg q -> byte_ok c -> room M q (m_byte M sg c) -> resumes R q (m_byte M sg c) (put_char s c).
Hypothesis Rbyte : forall s sg q n, R s sg q -> byte_ok n -> room M q (m_byte M sg n) -> resumes R q (m_byte M sg n) (put_byte s n).
Hypothesis Rother : forall s sg q n, R s sg q -> is_int n -> is_byte n = false -> zlen q + 2 <= max_string_length ->
  snd (put_byte s n) = Raise Invalid_argument /\ R (fst (put_byte s n)) sg q.
Hypothesis Rflush : forall s sg q, R s sg q -> room M q (m_flush M sg) -> resumes R q (m_flush M sg) (flush s).
Hypothesis Rfinish : forall s sg q, R s sg q -> room M q (m_finish M sg) -> resumes R q (m_finish M sg) (finish s).

Lemma iter_resumes l : forall s sg q, R s sg q -> bytes_ok l -> room M q (m_run M sg l) ->
  resumes R q (m_run M sg l) (put_iter X put_char s l).
Proof.
  induction l as [|c l IH]; intros s sg q HR Hl Hf.
  - unfold resumes, r_exn, r_st, r_out. cbn [m_run put_iter fst snd]. rewrite app_nil_r. auto.
  - apply Forall_cons_iff in Hl. destruct Hl as (Hc & Hl). cbn [put_iter]. unfold room in *.
    pose proof (Rput s sg q c HR Hc) as H. cbn [m_run] in *. unfold room in H.
    destruct (m_byte M sg c) as [[sg1 o1] [e1|]].
    + specialize (H Hf). unfold resumes, r_exn in *. cbn [snd] in *. destruct H as (H1 & H2).
      destruct (put_char s c) as [s1 x]. cbn [fst snd] in *. subst x. cbn [bind fst snd]. auto.
    + specialize (IH (fst (put_char s c)) sg1 (q ++ o1)).
      destruct (m_run M sg1 l) as [[sg2 o2] e2] eqn:E2. unfold resumes, r_exn, r_st, r_out in *. cbn [fst snd] in *.
      rewrite zlen_app in Hf. pose proof (zlen_nonneg o2).
      destruct (H ltac:(lia)) as (H1 & H2). destruct (put_char s c) as [s1 x]. cbn [fst snd] in *. subst x. cbn [bind].
      specialize (IH H2 Hl). rewrite zlen_app in IH. specialize (IH ltac:(lia)). rewrite app_assoc. exact IH.
Qed.

Lemma step_resumes s sg q o : R s sg q -> OK sg -> any_valid o -> zlen q + K * zlen (op_data o) + A + 2 <= max_string_length ->
  let r := spec_any M sg q o in
  snd (t_step T s o) = snd r /\ R (fst (t_step T s o)) (fst (fst r)) (snd (fst r)) /\ OK (fst (fst r)) /\
  zlen (snd (fst r)) <= zlen q + K * zlen (op_data o) + A.
Proof.
  intros HR HO Hv Hz. cbv zeta. pose proof (zlen_nonneg q) as Hq. pose proof (zlen_nonneg (op_data o)) as Hd. pose proof (HP sg HO) as HPs.
  assert (U : forall r x, resumes R q r x -> snd (unit_obs x) = snd (emit_obs q r) /\
    R (fst (unit_obs x)) (fst (fst (emit_obs q r))) (snd (fst (emit_obs q r)))).
  { intros r x (H1 & H2). unfold unit_obs, emit_obs. cbn [fst snd]. rewrite H1. split; [|exact H2]. destruct (r_exn r); reflexivity. }
  assert (G : forall l, bytes_ok l -> zlen q + K * zlen l + A + 2 <= max_string_length -> room M q (m_run M sg l) /\ OK (r_st (m_run M sg l)) /\
      zlen (q ++ r_out (m_run M sg l)) <= zlen q + K * zlen l + A).
  { intros l Hl Hs. destruct (run_potential M OK P K A HK HP Hbyte Hflush Hfinish l sg HO Hl) as (G1 & G2 & G3). pose proof (HP _ G1). unfold room. rewrite zlen_app. split; [lia|]. split; [exact G1|lia]. }
  assert (GP : forall l x, bytes_ok l -> zlen q + K * zlen l + A + 2 <= max_string_length -> x = put_iter X put_char s l ->
     let r := emit_obs q (m_run M sg l) in snd (unit_obs x) = snd r /\ R (fst (unit_obs x)) (fst (fst r)) (snd (fst r)) /\ OK (fst (fst r)) /\
       zlen (snd (fst r)) <= zlen q + K * zlen l + A).
  { intros l x Hl Hs ->. destruct (G l Hl Hs) as (G1 & G2 & G3). destruct (U _ _ (iter_resumes l s sg q HR Hl G1)) as (U1 & U2).
    cbv zeta. split; [exact U1|]. split; [exact U2|]. split; [exact G2|exact G3]. }
  destruct o as [b ofs len|str|c|n| | | | | | |]; cbn [spec_any spec_step t_step op_data any_valid op_valid] in *.
  - apply GP; [apply bytes_ok_sub; tauto|exact Hz|]. destruct Hv as (Hir & Hb & Hl). apply in_range_true in Hir.
    cbn [T charwise t_put_substring]. assert (HM : max_string_length < 2 ^ 57) by (unfold max_string_length; lia).
    rewrite wrap63_id by (unfold is_int; lia). rewrite loop_iter by lia. f_equal. f_equal. lia.
  - apply GP; [tauto|exact Hz|reflexivity].
  - apply (GP [c] (put_char s c)); [constructor; [exact Hv|constructor]|exact Hz|]. cbn [put_iter]. destruct (put_char s c) as [s1 [[]| | |]]; reflexivity.
  - destruct (is_byte n) eqn:En.
    + assert (Hb : bytes_ok [n]) by (constructor; [unfold is_byte in En; unfold byte_ok; lia|constructor]). destruct (G [n] Hb Hz) as (G1 & G2 & G3).
      rewrite m_run_one in G1. assert (Q : resumes R q (m_run M sg [n]) (put_byte s n)) by (rewrite m_run_one; apply Rbyte; [exact HR|apply Forall_inv in Hb; exact Hb|exact G1]).
      destruct (U _ _ Q) as (U1 & U2). cbn [T charwise t_put_byte]. split; [exact U1|]. split; [exact U2|]. split; [exact G2|exact G3].
    + destruct (Rother s sg q n HR Hv En ltac:(lia)) as (H1 & H2). unfold T, unit_obs. cbn [charwise t_st t_put_byte fst snd]. rewrite H1. split; [reflexivity|]. split; [exact H2|]. split; [exact HO|]. nia.
  - destruct (Hflush sg HO) as (G1 & G2 & G3). assert (Hr : room M q (m_flush M sg)) by (unfold room; nia).
    destruct (U _ _ (Rflush s sg q HR Hr)) as (U1 & U2). cbn [T charwise t_flush]. split; [exact U1|]. split; [exact U2|]. split; [exact G1|]. unfold emit_obs. cbn [fst snd]. rewrite zlen_app. nia.
  - destruct (Hfinish sg HO) as (G1 & G2 & G3). assert (Hr : room M q (m_finish M sg)) by (unfold room; nia).
    destruct (U _ _ (Rfinish s sg q HR Hr)) as (U1 & U2). cbn [T charwise t_finish]. split; [exact U1|]. split; [exact U2|]. split; [exact G1|]. unfold emit_obs. cbn [fst snd]. rewrite zlen_app. nia.
  - rewrite (im_available _ _ _ _ _ Im _ _ _ HR). cbn [fst snd]. repeat split; try exact HR; try exact HO; try apply HR. nia.
  - destruct (im_get_string _ _ _ _ _ Im _ _ _ HR) as (s' & -> & HR'). cbn [fst snd bytes_obs]. split; [reflexivity|]. split; [exact HR'|]. split; [exact HO|]. change (zlen (@nil Z)) with 0. nia.
  - destruct (im_get_substring _ _ _ _ _ Im _ _ _ HR) as (s' & b & o & -> & H1 & H2 & H3 & HR').
    unfold substring_obs. cbn [fst snd]. rewrite H1, H2. split; [reflexivity|]. split; [exact HR'|]. split; [exact HO|]. change (zlen (@nil Z)) with 0. nia.
  - pose proof (im_get_char _ _ _ _ _ Im _ _ _ HR) as H. destruct q as [|c q'].
    + rewrite H. cbn [fst snd int_obs]. split; [reflexivity|]. split; [exact HR|]. split; [exact HO|]. nia.
    + destruct H as (s' & -> & HR'). cbn [fst snd int_obs]. split; [reflexivity|]. split; [exact HR'|]. split; [exact HO|]. rewrite zlen_cons. nia.
  - pose proof (im_get_byte _ _ _ _ _ Im _ _ _ HR) as H. destruct q as [|c q'].
    + rewrite H. cbn [fst snd int_obs]. split; [reflexivity|]. split; [exact HR|]. split; [exact HO|]. nia.
    + destruct H as (s' & -> & HR'). cbn [fst snd int_obs]. split; [reflexivity|]. split; [exact HR'|]. split; [exact HO|]. rewrite zlen_cons. nia.
Qed.

Theorem resume_all ops : forall s sg q, R s sg q -> OK sg -> Forall any_valid ops ->
  zlen q + K * given ops + A * (zlen ops + 1) + 2 <= max_string_length ->
  snd (w_run T s (map Call ops)) = spec_all M sg q ops.
Proof.
  induction ops as [|o ops IH]; intros s sg q HR HO Hv Hz; [reflexivity|].
  apply Forall_cons_iff in Hv. destruct Hv as (Hv & Hvs). cbn [given fold_right] in Hz. fold (given ops) in Hz. rewrite zlen_cons in Hz.
  pose proof (HP sg HO). assert (Hg : 0 <= given ops).
  { unfold given. clear. induction ops as [|x l IHl]; cbn [fold_right]; [lia|]. pose proof (zlen_nonneg (op_data x)). lia. }
  pose proof (zlen_nonneg ops). destruct (step_resumes s sg q o HR HO Hv ltac:(nia)) as (H1 & H2 & H3 & H4).
  cbn [map w_run w_step spec_all]. destruct (t_step T s o) as [s1 ob]. destruct (spec_any M sg q o) as [[sg1 q1] ob1]. cbn [fst snd] in *. subst ob1.
  specialize (IH s1 sg1 q1 H2 H3 Hvs ltac:(nia)). destruct (w_run T s1 (map Call ops)) as [s2 obs]. cbn [snd] in *. now rewrite IH.
Qed.
End Resume.

Lemma group_len l : zlen l <= 3 -> zlen (b64e_group l) = match zlen l with 0 => 0 | n => n + 1 end.
Proof.
  intros H. destruct l as [|a [|b [|c [|d r]]]]; try reflexivity.
  rewrite !zlen_cons in H. pose proof (zlen_nonneg r). lia.
Qed.

(* the bounds on the output that EncLawful uses, also for the steps that raise *)
Section Objects.
Variable fresh : Z -> bytes.
Hypothesis fresh_len : forall n, 0 <= n -> zlen (fresh n) = n.

Lemma b64e_put_resumes ml pad s sg q c : cwR b64e (b64e_mealy ml pad) b64e_rel s sg q -> byte_ok c -> room (b64e_mealy ml pad) q (m_byte (b64e_mealy ml pad) sg c) ->
  resumes (cwR b64e (b64e_mealy ml pad) b64e_rel) q (m_byte (b64e_mealy ml pad) sg c) (b64e_put_char fresh ml s c).
Proof.
  intros HR Hc Hf. apply matches_resumes; [apply b64e_put_ok; assumption|]. intros e H. exfalso. destruct sg as [pend col]. cbn [b64e_mealy m_byte] in H.
  destruct (zlen pend =? 2); [|discriminate]. destruct (ml && (col + 4 >=? 72)); discriminate.
Qed.

Lemma b64d_put_resumes s sg q c : cwR b64d b64d_mealy b64d_rel s sg q -> byte_ok c -> room b64d_mealy q (m_byte b64d_mealy sg c) ->
  resumes (cwR b64d b64d_mealy b64d_rel) q (m_byte b64d_mealy sg c) (b64d_put_char fresh s c).
Proof.
  intros HR Hc Hf. apply matches_resumes; [apply b64d_put_ok; assumption|]. intros e H. destruct sg as [pend fin].
  assert (E : m_byte b64d_mealy (pend, fin) c = ((pend, fin), [], Some e) /\ b64d_put_char fresh s c = (s, Raise (Error Bad_encoding))).
  { pose proof HR as ((_ & _ & _ & _ & _ & Hfin) & _). cbn [snd] in Hfin. unfold b64d_put_char. cbn [b64d_mealy m_byte] in *. destruct (c =? 61); [discriminate|].
    rewrite b64_decode_char_ok. pose proof (b64_value_range c) as V. destruct (b64_value c) as [v|].
    - destruct (V v eq_refl) as (Hv & Hb). rewrite Hb in *. cbn [bind]. replace (v >=? 0) with true by lia. rewrite Hfin. destruct fin.
      + unfold r_exn in H. cbn [snd] in H. split; [|reflexivity]. now rewrite <- H.
      + destruct pend as [|a [|b [|d [|? ?]]]]; discriminate.
    - destruct (blank c); [discriminate|]. cbn [bind]. unfold r_exn in H. cbn [snd] in H. split; [|reflexivity]. now rewrite <- H. }
  destruct E as (E1 & E2). rewrite E1, E2. unfold r_st, r_out. cbn [fst snd]. rewrite app_nil_r. exact HR.
Qed.

Lemma b64d_finish_resumes s sg q : cwR b64d b64d_mealy b64d_rel s sg q -> room b64d_mealy q (m_finish b64d_mealy sg) ->
  resumes (cwR b64d b64d_mealy b64d_rel) q (m_finish b64d_mealy sg) (b64d_finish fresh s).
Proof.
  intros HR Hf. apply matches_resumes; [apply b64d_finish_ok; assumption|]. intros e H. destruct sg as [pend fin]. destruct s as [x b].
  pose proof HR as ((H1 & H2 & H3 & H4 & H5 & H6) & H7). cbn [fst snd] in *. cbn [b64d_mealy m_finish] in *.
  destruct pend as [|p0 [|p1 [|p2 [|p3 r]]]]; cbn [b64_bytes] in H |- *; try discriminate.
  - unfold b64d_finish. cbn [bd_upd fst snd bd_ipos]. cbn [bd_ibuf bd_ipos bd_fin]. rewrite H2. change (zlen [p0] =? 1) with true.
    cbn [fst snd r_st r_out]. rewrite app_nil_r. split; [|exact H7]. repeat split; try assumption. cbn [bd_ibuf bd_ipos fst]. rewrite H2 in H4. exact H4.
  - exfalso. rewrite !zlen_cons in H3. pose proof (zlen_nonneg r). lia.
Qed.

Lemma hexe_put_resumes s sg q c : cwR unit hexe_mealy hexe_rel s sg q -> byte_ok c -> room hexe_mealy q (m_byte hexe_mealy sg c) ->
  resumes (cwR unit hexe_mealy hexe_rel) q (m_byte hexe_mealy sg c) (hexe_put_byte fresh s c).
Proof. intros HR Hc Hf. apply matches_resumes; [apply hexe_put_ok; assumption|]. intros e H. discriminate H. Qed.
Lemma hexe_put_other s sg q n : cwR unit hexe_mealy hexe_rel s sg q -> is_int n -> is_byte n = false -> zlen q + 2 <= max_string_length ->
  snd (hexe_put_byte fresh s n) = Raise Invalid_argument /\ cwR unit hexe_mealy hexe_rel (fst (hexe_put_byte fresh s n)) sg q.
Proof.
  intros (H1 & H2 & H3 & H4) Hn Hb Hz. destruct s as [x b]. cbn [fst snd] in *. unfold hexe_put_byte, c_ensure, on_bo. cbn [fst snd].
  destruct (ensure_capacity_ok fresh fresh_len b 2 H2 ltac:(lia) ltac:(rewrite H3; lia)) as (b' & -> & I1 & I2 & I3). cbn [fst snd bind].
  assert (E : bytes_get hex_conv_table (lsr63 n 4) = Raise Invalid_argument).
  { unfold bytes_get. change (zlen hex_conv_table) with 16. unfold lsr63. rewrite Z.shiftr_div_pow2 by lia. change (2 ^ 4) with 16. unfold is_int in Hn. unfold is_byte in Hb.
    replace ((0 <=? n mod 2 ^ 63 / 16) && (n mod 2 ^ 63 / 16 <? 16)) with false; [reflexivity|]. symmetry.
    assert (256 <= n mod 2 ^ 63).
    { destruct (Z.lt_ge_cases n 0); [replace (n mod 2 ^ 63) with (n + 2 ^ 63) by (rewrite <- (Z_mod_plus n 1) by lia; rewrite Z.mod_small by lia; lia)|rewrite Z.mod_small by lia]; lia. }
    apply andb_false_iff. right. apply Z.ltb_ge. apply (Z.div_le_lower_bound); lia. }
  rewrite E. cbn [c_sets bind fst snd]. split; [reflexivity|]. repeat split; cbn [fst snd]; try apply I1; try assumption. rewrite I2; assumption.
Qed.

Lemma hexd_put_resumes s sg q c : cwR hexd hexd_mealy hexd_rel s sg q -> byte_ok c -> room hexd_mealy q (m_byte hexd_mealy sg c) ->
  resumes (cwR hexd hexd_mealy hexd_rel) q (m_byte hexd_mealy sg c) (hexd_put_char fresh s c).
Proof.
  intros HR Hc Hf. apply matches_resumes; [apply hexd_put_ok; assumption|]. intros e H.
  assert (E : m_byte hexd_mealy sg c = (sg, [], Some e) /\ hexd_put_char fresh s c = (s, Raise (Error Bad_encoding))).
  { unfold hexd_put_char. cbn [hexd_mealy m_byte m_st] in *. rewrite hex_decode_char_ok. pose proof (hex_value_range c) as V. destruct (hex_value c) as [v|].
    - destruct (V v eq_refl) as (Hv & Hb). rewrite Hb in *. destruct sg; discriminate.
    - destruct (blank c); [discriminate|]. cbn [bind]. unfold r_exn in H. cbn [snd] in H. split; [|reflexivity]. now rewrite <- H. }
  destruct E as (E1 & E2). rewrite E1, E2. unfold r_st, r_out. cbn [fst snd]. rewrite app_nil_r. exact HR.
Qed.
Lemma hexd_end_resumes er s sg q : cwR hexd hexd_mealy hexd_rel s sg q -> room hexd_mealy q (match sg with [] => (sg, [], None) | _ => (sg, [], Some er) end) ->
  resumes (cwR hexd hexd_mealy hexd_rel) q (match sg with [] => (sg, [], None) | _ => (sg, [], Some er) end)
    (if negb (hd_ipos (fst s) =? 0) then (s, Raise er) else (s, Ret tt)).
Proof.
  intros HR _. apply matches_resumes; [apply (hexd_end_ok fresh fresh_len); assumption|]. intros e H. cbn [hexd_mealy m_st] in sg. pose proof HR as ((_ & H2 & H3 & _) & _).
  destruct sg as [|p0 r]; [discriminate|]. rewrite H2. rewrite zlen_cons. pose proof (zlen_nonneg r). replace (negb (1 + zlen r =? 0)) with true by lia.
  unfold r_st, r_out. cbn [fst snd]. rewrite app_nil_r. exact HR.
Qed.

Lemma b64e_all ml pad ops : Forall any_valid ops -> 2 * given ops + 9 * (zlen ops + 1) + 2 <= max_string_length ->
  all_obs (base64_encode_obj fresh ml pad) ops = spec_all (b64e_mealy ml pad) ([], 0) [] ops.
Proof.
  intros Hvalid Hsize. unfold all_obs.
  refine (resume_all _ _ _ _ _ _ (b64e_mealy ml pad) b64e_rel (fun s : bytes * Z => bytes_ok (fst s) /\ zlen (fst s) <= 2) (fun s : bytes * Z => 2 * zlen (fst s)) 2 9 _ _ _ _ _ _ _ _ _ _ _ ops _ _ _ _ _ Hvalid _).
  - lia.
  - intros [pend col] (_ & H). cbn [fst] in *. pose proof (zlen_nonneg pend). lia.
  - intros [pend col] c (H1 & H2) Hc. cbn [fst snd b64e_mealy m_byte] in *.
    assert (H3 : bytes_ok (pend ++ [c])) by (apply bytes_ok_app; split; [exact H1|repeat constructor; apply Hc]).
    assert (H4 : zlen (pend ++ [c]) = zlen pend + 1) by (rewrite zlen_app, zlen_one; lia).
    destruct (zlen pend =? 2) eqn:E.
    + assert (H5 : zlen (b64e_group (pend ++ [c])) = 4) by (rewrite group_len; rewrite H4; replace (zlen pend) with 2 by lia; [reflexivity|lia]).
      pose proof (b64e_group_ok _ H3). change (zlen (@nil Z)) with 0.
      destruct (ml && (col + 4 >=? 72)); unfold r_st, r_out; cbn [fst snd]; change (zlen (@nil Z)) with 0; (split; [split; [constructor|lia]|]).
      * split; [apply bytes_ok_app; split; [assumption|repeat constructor; unfold byte_ok; lia]|]. rewrite zlen_app, zlen_one. lia.
      * split; [assumption|lia].
    + unfold r_st, r_out; cbn [fst snd]. change (zlen (@nil Z)) with 0. split; [split; [assumption|lia]|]. split; [constructor|lia].
  - intros sg H. cbn [b64e_mealy m_flush]. unfold r_st, r_out; cbn [fst snd]. change (zlen (@nil Z)) with 0. split; [exact H|]. split; [lia|constructor].
  - intros [pend col] (H1 & H2). cbn [fst snd b64e_mealy m_finish] in *. unfold r_st, r_out; cbn [fst snd].
    split; [split; assumption|]. pose proof (zlen_nonneg pend).
    assert (N : Z.of_nat (b64_npad pend) <= 2) by (unfold b64_npad; lia).
    assert (G : zlen (b64e_group pend) <= 3).
    { rewrite group_len by lia. assert (zlen pend = 0 \/ zlen pend = 1 \/ zlen pend = 2) as [->|[->| ->]] by lia; cbv; discriminate. }
    rewrite !zlen_app. split.
    + destruct (ml || pad); destruct (ml && (col >? 0)); rewrite ?zlen_repeat, ?zlen_one; change (zlen (@nil Z)) with 0; lia.
    + repeat (apply bytes_ok_app; split); [apply b64e_group_ok; assumption| |].
      * destruct (ml || pad); [apply bytes_ok_repeat; unfold byte_ok; lia|constructor].
      * destruct (ml && (col >? 0)); [repeat constructor; unfold byte_ok; lia|constructor].
  - apply b64e_implements; exact fresh_len.
  - exact (b64e_put_resumes ml pad).
  - intros s sg q n HR Hn Hf. unfold put_byte_chr. unfold byte_ok in Hn. replace ((0 <=? n) && (n <? 256)) with true by lia. apply b64e_put_resumes; assumption.
  - intros s sg q n HR _ Hn _. unfold put_byte_chr. unfold is_byte in Hn. rewrite Hn. split; [reflexivity|exact HR].
  - intros s sg q HR _. unfold resumes, r_exn, r_st, r_out. cbn [b64e_mealy m_flush b64e_flush fst snd]. rewrite app_nil_r. split; [reflexivity|exact HR].
  - intros s [pend col] q HR Hf. apply matches_resumes; [apply b64e_finish_ok; assumption|]. intros e H. discriminate H.
  - apply b64e_new_R; exact fresh_len.
  - split; [constructor|cbn; lia].
  - change (zlen (@nil Z)) with 0. lia.
Qed.

Lemma b64d_all ops : Forall any_valid ops -> 1 * given ops + 3 * (zlen ops + 1) + 2 <= max_string_length ->
  all_obs (base64_decode_obj fresh) ops = spec_all b64d_mealy ([], false) [] ops.
Proof.
  intros Hvalid Hsize. unfold all_obs.
  refine (resume_all _ _ _ _ _ _ b64d_mealy b64d_rel (fun s : list Z * bool => Forall (fun d => 0 <= d < 64) (fst s) /\ zlen (fst s) <= 3) (fun s : list Z * bool => zlen (fst s)) 1 3 _ _ _ _ _ _ _ _ _ _ _ ops _ _ _ _ _ Hvalid _).
  - lia.
  - intros [pend col] (_ & H). cbn [fst] in *. pose proof (zlen_nonneg pend). lia.
  - intros [pend fin] c (H1 & H2) Hc. cbn [fst snd b64d_mealy m_byte] in *.
    pose proof (b64_value_range c) as V.
    destruct (c =? 61); [unfold r_st, r_out; cbn [fst snd]; change (zlen (@nil Z)) with 0; split; [split; assumption|split; [constructor|lia]]|].
    destruct (blank c); [unfold r_st, r_out; cbn [fst snd]; change (zlen (@nil Z)) with 0; split; [split; assumption|split; [constructor|lia]]|].
    destruct (b64_value c) as [v|]; [|unfold r_st, r_out; cbn [fst snd]; change (zlen (@nil Z)) with 0; split; [split; assumption|split; [constructor|lia]]].
    destruct (V v eq_refl) as (Hv & _).
    destruct fin; [unfold r_st, r_out; cbn [fst snd]; change (zlen (@nil Z)) with 0; split; [split; assumption|split; [constructor|lia]]|].
    assert (D : zlen pend < 3 -> let r := (pend ++ [v], false, [], @None exn) in
      (Forall (fun d => 0 <= d < 64) (fst (r_st r)) /\ zlen (fst (r_st r)) <= 3) /\ bytes_ok (r_out r) /\
      zlen (r_out r) + zlen (fst (r_st r)) <= 1 + zlen pend).
    { intros Hl. unfold r_st, r_out; cbn [fst snd]. change (zlen (@nil Z)) with 0. rewrite zlen_app, zlen_one. split; [|split; [constructor|lia]].
      split; [|lia]. apply Forall_app. split; [exact H1|constructor; [lia|constructor]]. }
    destruct pend as [|p0 [|p1 [|p2 [|? r]]]]; try (apply D; unfold zlen; cbn [length]; lia).
    + apply Forall_cons_iff in H1. destruct H1 as (Q0 & H1). apply Forall_cons_iff in H1. destruct H1 as (Q1 & H1).
      apply Forall_cons_iff in H1. destruct H1 as (Q2 & _).
      unfold r_st, r_out; cbn [fst snd]. split; [split; [constructor|cbn; lia]|].
      split; [apply bytes3_ok, group64_range; assumption|]. unfold zlen. cbn [length bytes3]. lia.
    + exfalso. rewrite !zlen_cons in H2. pose proof (zlen_nonneg r). lia.
  - intros sg H. cbn [b64d_mealy m_flush]. unfold r_st, r_out; cbn [fst snd]. change (zlen (@nil Z)) with 0. split; [exact H|]. split; [lia|constructor].
  - intros [pend fin] (H1 & H2). cbn [fst snd b64d_mealy m_finish] in *.
    destruct pend as [|p0 [|p1 [|p2 [|? r]]]]; cbn [b64_bytes]; unfold r_st, r_out; cbn [fst snd];
      try solve [split; [split; assumption|split; [cbn; lia|constructor]]].
    + apply Forall_cons_iff in H1. pose proof H1 as (Q0 & H1'). apply Forall_cons_iff in H1'. destruct H1' as (Q1 & _).
      split; [split; [constructor; tauto|assumption]|]. split; [unfold zlen; cbn [length bytes3 firstn]; lia|].
      apply Forall_firstn, bytes3_ok, group64_range; lia.
    + apply Forall_cons_iff in H1. pose proof H1 as (Q0 & H1'). apply Forall_cons_iff in H1'. destruct H1' as (Q1 & H1').
      apply Forall_cons_iff in H1'. destruct H1' as (Q2 & _).
      split; [split; [constructor; tauto|assumption]|]. split; [unfold zlen; cbn [length bytes3 firstn]; lia|].
      apply Forall_firstn, bytes3_ok, group64_range; lia.
    + exfalso. rewrite !zlen_cons in H2. pose proof (zlen_nonneg r). lia.
  - apply b64d_implements; exact fresh_len.
  - exact b64d_put_resumes.
  - intros s sg q n HR Hn Hf. unfold put_byte_chr. unfold byte_ok in Hn. replace ((0 <=? n) && (n <? 256)) with true by lia. apply b64d_put_resumes; assumption.
  - intros s sg q n HR _ Hn _. unfold put_byte_chr. unfold is_byte in Hn. rewrite Hn. split; [reflexivity|exact HR].
  - intros s sg q HR _. unfold resumes, r_exn, r_st, r_out. cbn [b64d_mealy m_flush b64d_flush fst snd]. rewrite app_nil_r. split; [reflexivity|exact HR].
  - exact b64d_finish_resumes.
  - apply b64d_new_R; exact fresh_len.
  - split; [constructor|cbn; lia].
  - change (zlen (@nil Z)) with 0. lia.
Qed.

Lemma hexe_all ops : Forall any_valid ops -> 2 * given ops + 0 * (zlen ops + 1) + 2 <= max_string_length ->
  all_obs (hexa_encode_obj fresh) ops = spec_all hexe_mealy tt [] ops.
Proof.
  intros Hvalid Hsize. unfold all_obs.
  refine (resume_all _ _ _ _ _ _ hexe_mealy hexe_rel (fun _ : unit => True) (fun _ : unit => 0) 2 0 _ _ _ _ _ _ _ _ _ _ _ ops _ _ _ _ _ Hvalid _).
  - lia.
  - intros; lia.
  - intros sg c _ Hc. unfold byte_ok in Hc. unfold r_st, r_out. cbn [fst snd hexe_mealy m_byte].
    split; [exact I|]. split; [repeat constructor; apply hex_char_byte; lia|cbn; lia].
  - intros. split; [exact I|]. split; [cbn; lia|constructor].
  - intros. split; [exact I|]. split; [cbn; lia|constructor].
  - apply hexe_implements; exact fresh_len.
  - exact hexe_put_resumes.
  - exact hexe_put_resumes.
  - exact hexe_put_other.
  - intros s sg q HR _. unfold resumes, r_exn, r_st, r_out. cbn [hexe_mealy m_flush nop fst snd]. rewrite app_nil_r. split; [reflexivity|exact HR].
  - intros s sg q HR _. unfold resumes, r_exn, r_st, r_out. cbn [hexe_mealy m_finish nop fst snd]. rewrite app_nil_r. split; [reflexivity|exact HR].
  - apply hexe_new_R; exact fresh_len.
  - exact I.
  - change (zlen (@nil Z)) with 0. lia.
Qed.

Lemma hexd_all ops : Forall any_valid ops -> 1 * given ops + 1 * (zlen ops + 1) + 2 <= max_string_length ->
  all_obs (hexa_decode_obj fresh) ops = spec_all hexd_mealy [] [] ops.
Proof.
  intros Hvalid Hsize. unfold all_obs.
  refine (resume_all _ _ _ _ _ _ hexd_mealy hexd_rel (fun s : list Z => Forall (fun d => 0 <= d < 16) s /\ zlen s <= 1) (fun s : list Z => zlen s) 1 1 _ _ _ _ _ _ _ _ _ _ _ ops _ _ _ _ _ Hvalid _).
  - lia.
  - intros pend (_ & H). pose proof (zlen_nonneg pend). lia.
  - intros pend c (H1 & H2) Hc. cbn [hexd_mealy m_byte] in *.
    pose proof (hex_value_range c) as V.
    destruct (blank c); [unfold r_st, r_out; cbn [fst snd]; change (zlen (@nil Z)) with 0; split; [split; assumption|split; [constructor|lia]]|].
    destruct (hex_value c) as [v|]; [|unfold r_st, r_out; cbn [fst snd]; change (zlen (@nil Z)) with 0; split; [split; assumption|split; [constructor|lia]]].
    destruct (V v eq_refl) as (Hv & _).
    destruct pend as [|p0 r]; unfold r_st, r_out; cbn [fst snd].
    + split; [split; [repeat constructor; lia|cbn; lia]|]. split; [constructor|cbn; lia].
    + apply Forall_cons_iff in H1. destruct H1 as (Q0 & _). rewrite zlen_cons. pose proof (zlen_nonneg r).
      split; [split; [constructor|cbn; lia]|]. split; [repeat constructor; unfold byte_ok; lia|]. rewrite zlen_cons. change (zlen (@nil Z)) with 0. lia.
  - intros pend H. cbn [hexd_mealy m_flush]. destruct pend; (split; [exact H|]; split; [cbn; lia|constructor]).
  - intros pend H. cbn [hexd_mealy m_finish]. destruct pend; (split; [exact H|]; split; [cbn; lia|constructor]).
  - apply hexd_implements; exact fresh_len.
  - exact hexd_put_resumes.
  - intros s sg q n HR Hn Hf. unfold put_byte_chr. unfold byte_ok in Hn. replace ((0 <=? n) && (n <? 256)) with true by lia. apply hexd_put_resumes; assumption.
  - intros s sg q n HR _ Hn _. unfold put_byte_chr. unfold is_byte in Hn. rewrite Hn. split; [reflexivity|exact HR].
  - exact (hexd_end_resumes (Error Wrong_data_length)).
  - exact (hexd_end_resumes (Error Bad_encoding)).
  - apply hexd_new_R; exact fresh_len.
  - split; [constructor|cbn; lia].
  - change (zlen (@nil Z)) with 0. lia.
Qed.

End Objects.

(* hexadecimal text: what the transducer does with the strings given, the refused ones included *)
Lemma hexd_run_accepted t : forall sg, m_run hexd_mealy sg t =
  (r_st (m_run hexd_mealy sg (accepted t)), r_out (m_run hexd_mealy sg (accepted t)), if forallb hex_ok t then None else Some (Error Bad_encoding)).
Proof.
  induction t as [|c t IH]; intros sg; [reflexivity|]. cbn [accepted forallb]. assert (Eh : hex_ok c = blank c || match hex_value c with Some _ => true | None => false end) by reflexivity. rewrite Eh. cbn [m_run hexd_mealy m_byte].
  pose proof (hex_value_range c) as V. destruct (blank c) eqn:Eb; cbn [orb andb m_run].
  - cbn [hexd_mealy m_byte]. rewrite Eb. rewrite (IH sg). destruct (m_run hexd_mealy sg (accepted t)) as [[s1 o1] e1]. reflexivity.
  - destruct (hex_value c) as [v|] eqn:Ev; cbn [andb m_run].
    + cbn [hexd_mealy m_byte]. rewrite Eb, Ev. destruct sg as [|a r].
      * rewrite (IH [v]). destruct (m_run hexd_mealy [v] (accepted t)) as [[s1 o1] e1]. reflexivity.
      * rewrite (IH []). destruct (m_run hexd_mealy [] (accepted t)) as [[s1 o1] e1]. reflexivity.
    + reflexivity.
Qed.
Definition odd_rest (l : list Z) : list Z := if Nat.odd (length l) then [last l 0] else [].
Lemma pairs_app l1 : forall l2, pairs (l1 ++ l2) = pairs l1 ++ pairs (odd_rest l1 ++ l2).
Proof.
  enough (H : forall n l1, (length l1 <= n)%nat -> forall l2, pairs (l1 ++ l2) = pairs l1 ++ pairs (odd_rest l1 ++ l2)) by (intros l2; apply (H (length l1)); lia).
  clear l1. induction n as [|n IH]; intros l1 Hl l2; [destruct l1; [reflexivity|cbn in Hl; lia]|].
  destruct l1 as [|a [|b r]]; [reflexivity|reflexivity|]. cbn [app pairs length] in *. rewrite (IH r) by lia. cbn [app]. f_equal. f_equal. f_equal.
  unfold odd_rest. cbn [length]. rewrite Nat.odd_succ, Nat.even_succ. destruct (Nat.odd (length r)) eqn:Eo; [|reflexivity]. destruct r; [discriminate|reflexivity].
Qed.
Lemma hexd_run_digits t : forall sg, zlen sg <= 1 -> accepted t = t ->
  r_st (m_run hexd_mealy sg t) = odd_rest (sg ++ digits t) /\ r_out (m_run hexd_mealy sg t) = pairs (sg ++ digits t).
Proof.
  induction t as [|c t IH]; intros sg Hs Ha.
  - cbn [m_run digits flat_map]. rewrite app_nil_r. unfold r_st, r_out. cbn [fst snd]. destruct sg as [|a [|b r]]; [split; reflexivity|split; reflexivity|].
    exfalso. rewrite !zlen_cons in Hs. pose proof (zlen_nonneg r). lia.
  - cbn [accepted] in Ha. destruct (hex_ok c) eqn:Eo; [|discriminate]. injection Ha as Ha. unfold hex_ok in Eo.
    cbn [m_run hexd_mealy m_byte digits flat_map]. pose proof (hex_value_range c) as V. destruct (hex_value c) as [v|] eqn:Ev.
    + destruct (V v eq_refl) as (_ & ->). cbn [app]. destruct sg as [|a [|b r]].
      * specialize (IH [v] ltac:(rewrite zlen_one; lia) Ha). destruct (m_run hexd_mealy [v] t) as [[s1 o1] e1]. exact IH.
      * specialize (IH [] ltac:(change (zlen (@nil Z)) with 0; lia) Ha). destruct (m_run hexd_mealy [] t) as [[s1 o1] e1]. unfold r_st, r_out in *. cbn [fst snd app pairs] in *.
        destruct IH as (-> & ->). split; [|reflexivity]. fold (digits t). unfold odd_rest. cbn [length]. rewrite Nat.odd_succ, Nat.even_succ.
        destruct (Nat.odd (length (digits t))) eqn:E2; [|reflexivity]. destruct (digits t); [discriminate|reflexivity].
      * exfalso. rewrite !zlen_cons in Hs. pose proof (zlen_nonneg r). lia.
    + rewrite orb_false_r in Eo. rewrite Eo. cbn [app]. specialize (IH sg Hs Ha). fold (digits t). destruct (m_run hexd_mealy sg t) as [[s1 o1] e1]. exact IH.
Qed.
Lemma accepted_twice t : accepted (accepted t) = accepted t.
Proof. induction t as [|c t IH]; [reflexivity|]. cbn [accepted]. destruct (hex_ok c) eqn:E; [|reflexivity]. cbn [accepted]. now rewrite E, IH. Qed.
Lemma digits_app a b : digits (a ++ b) = digits a ++ digits b.
Proof. apply flat_map_app. Qed.
Lemma odd_rest_short l : zlen (odd_rest l) <= 1.
Proof. unfold odd_rest. destruct (Nat.odd (length l)); [rewrite zlen_one|change (zlen (@nil Z)) with 0]; lia. Qed.
Lemma last_app_cons (l1 : list Z) x l2 : last (l1 ++ x :: l2) 0 = last (x :: l2) 0.
Proof. destruct (@exists_last _ (x :: l2) ltac:(discriminate)) as (l & y & ->). now rewrite app_assoc, !last_last. Qed.
Lemma odd_rest_app l1 l2 : odd_rest (odd_rest l1 ++ l2) = odd_rest (l1 ++ l2).
Proof.
  destruct l2 as [|x l2].
  - rewrite !app_nil_r. unfold odd_rest. destruct (Nat.odd (length l1)); reflexivity.
  - unfold odd_rest at 1 3. rewrite !last_app_cons, !app_length, !Nat.odd_add.
    replace (Nat.odd (length (odd_rest l1))) with (Nat.odd (length l1)) by (unfold odd_rest; destruct (Nat.odd (length l1)); reflexivity). reflexivity.
Qed.
Lemma hexd_strings ts : forall d, spec_all hexd_mealy (odd_rest d) (pairs d) (map PutString ts ++ [GetString]) =
  map (fun t => if forallb hex_ok t then OUnit else OExn (Error Bad_encoding)) ts ++ [OBytes (pairs (d ++ digits (concat (map accepted ts))))].
Proof.
  induction ts as [|t ts IH]; intros d.
  - cbn. now rewrite app_nil_r.
  - cbn [map app spec_all spec_any spec_step op_data]. rewrite hexd_run_accepted. unfold emit_obs. cbn [r_st r_out r_exn fst snd].
    destruct (hexd_run_digits (accepted t) (odd_rest d) (odd_rest_short d) (accepted_twice t)) as (-> & ->).
    rewrite odd_rest_app, <- pairs_app. rewrite IH. cbn [concat]. rewrite digits_app, app_assoc. f_equal. destruct (forallb hex_ok t); reflexivity.
Qed.
Theorem hexd_refuses fresh ts : (forall n, 0 <= n -> zlen (fresh n) = n) -> Forall bytes_ok ts -> 2 * zlen (concat ts) + 2 * zlen ts + 10 <= max_string_length ->
  all_obs (hexa_decode_obj fresh) (map PutString ts ++ [GetString]) =
  map (fun t => if forallb hex_ok t then OUnit else OExn (Error Bad_encoding)) ts ++ [OBytes (pairs (digits (concat (map accepted ts))))].
Proof.
  intros F Ht Hz. rewrite hexd_all; [apply (hexd_strings ts [])|exact F| |].
  - apply Forall_app. split; [|constructor; [exact I|constructor]]. apply Forall_map. rewrite Forall_forall in *. intros t Hin. split; [apply Ht, Hin|].
    apply in_split in Hin. destruct Hin as (l1 & l2 & ->). rewrite concat_app in Hz. cbn [concat] in Hz. rewrite !zlen_app in Hz.
    pose proof (zlen_nonneg t). pose proof (zlen_nonneg (concat l1)). pose proof (zlen_nonneg (concat l2)). pose proof (zlen_nonneg l1). pose proof (zlen_nonneg (t :: l2)). lia.
  - assert (G : given (map PutString ts ++ [GetString]) = zlen (concat ts)).
    { clear. induction ts as [|t ts IH]; [reflexivity|]. cbn [map app concat]. unfold given in *. cbn [fold_right op_data]. rewrite IH, zlen_app. reflexivity. }
    rewrite G, zlen_app, zlen_map, zlen_one. pose proof (zlen_nonneg (concat ts)). pose proof (zlen_nonneg ts). lia.
Qed.

(* the low 8 bits *)
Definition takes_low (T : transform) : Prop := forall s n, t_put_byte T s n = t_put_char T s (n mod 256).
Lemma cipher_takes_low fresh o : cipher_first fresh o -> takes_low (o_tr o).
Proof.
  induction 1 as [nb m p iv key d o H|key d o H|iv ctr key d o H|o1 o2 _ IH].
  - unfold make_cipher, make_block_cipher in H. destruct (nb (normalize_dir m d) key) as [c| | |]; try discriminate. cbn [obind] in H.
    destruct (chain fresh _ d iv c) as [cc| | |]; try discriminate. cbn [obind] in H. apply Ret_inj in H. subst o. intros s n.
    destruct p as [p|]; [destruct d|]; reflexivity.
  - unfold Cipher_arcfour in H. destruct (new_arcfour key); try discriminate. cbn [obind] in H. apply Ret_inj in H. subst o. intros s n. reflexivity.
  - unfold Cipher_chacha20 in H. destruct (new_chacha20 fresh iv ctr key); try discriminate. cbn [obind] in H. apply Ret_inj in H. subst o. intros s n. reflexivity.
  - intros s n. cbn [composed o_tr compose t_put_byte t_put_char]. now rewrite IH.
Qed.
Lemma w_run_low T : takes_low T -> forall l s, w_run T s l = w_run T s (map wlow l).
Proof.
  intros H. induction l as [|w l IH]; intros s; [reflexivity|]. cbn [map w_run].
  replace (w_step T s (wlow w)) with (w_step T s w); [destruct (w_step T s w) as [s1 ob]; now rewrite IH|].
  destruct w as [[]|]; cbn [wlow low w_step t_step]; try reflexivity. now rewrite H.
Qed.
Theorem cipher_low fresh o l : cipher_first fresh o -> w_run (o_tr o) (o_st o) l = w_run (o_tr o) (o_st o) (map wlow l).
Proof. intros H. apply w_run_low. now apply (cipher_takes_low fresh). Qed.

Definition takes_low_h (H : hash) : Prop := forall s n, h_add_byte H s n = h_add_char H s (n mod 256).
Ltac ret H :=
  repeat match type of H with
  | obind ?x _ = Ret _ => destruct x; try discriminate H; cbn [obind] in H
  | (if ?b then _ else _) = Ret _ => destruct b; try discriminate H
  end; apply Ret_inj in H; subst.
Lemma mac_takes_low fresh iv p c m : mac_new fresh iv p c = Ret m -> takes_low_h (ho_class m).
Proof. unfold mac_new. intros H. ret H. intros s n. reflexivity. Qed.
Lemma hash_takes_low fresh o : any_hash fresh o -> takes_low_h (ho_class o).
Proof.
  induction 1 as [o B H|rt|o B key m _ IH H|sz key o H|sz key o H|sz b o H|sz key o H|nb iv p key o H|nb iv p key o H|nb iv key o H].
  - destruct H as [(-> & _)|[(-> & _)|[(-> & _)|[(-> & _)|[(-> & _)|(-> & _)]]]]]; intros s n; reflexivity.
  - intros s n. reflexivity.
  - unfold hmac_of, hmac_new in H. ret H. intros s n. apply IH.
  - destruct H as [H|H]; [unfold blake2b_obj in H|unfold blake2s_obj in H]; unfold blake2_new in H; ret H; intros s n; reflexivity.
  - unfold blake3_obj in H. ret H. intros s n. reflexivity.
  - unfold sha3_new in H. ret H. intros s n. reflexivity.
  - unfold siphash_new in H. ret H. intros s n. reflexivity.
  - unfold block_mac in H. destruct (nb key) as [c| | |]; try discriminate. cbn [obind] in H. apply (mac_takes_low _ _ _ _ _ H).
  - unfold des_final_triple_des, mac_final_triple_new in H. ret H. intros s n. reflexivity.
  - unfold aes_cmac, cmac_new in H. ret H. intros s n. reflexivity.
Qed.
Theorem hash_low fresh o l : any_hash fresh o -> h_run (ho_class o) (ho_st o) l = h_run (ho_class o) (ho_st o) (map hlow l).
Proof.
  intros A. pose proof (hash_takes_low fresh o A) as H. generalize (ho_st o). induction l as [|w l IH]; intros s; [reflexivity|]. cbn [map h_run].
  replace (h_step (ho_class o) s (hlow w)) with (h_step (ho_class o) s w); [destruct (h_step (ho_class o) s w) as [s1 ob]; now rewrite IH|].
  destruct w; cbn [hlow h_step]; try reflexivity. now rewrite H.
Qed.

Lemma auth_takes_low fresh o : any_auth fresh o -> takes_low (data_view (ao_class o)).
Proof.
  intros [tr h H|tr h H H2|accel nb header iv key d o' H|P header iv key d o' H].
  - intros s n. cbn [new_transform_then_hash ao_class transform_then_hash data_view t_put_byte t_put_char a_put_byte a_put_char]. now rewrite (cipher_takes_low _ _ H).
  - intros s n. cbn [new_transform_and_hash ao_class transform_and_hash data_view t_put_byte t_put_char a_put_byte a_put_char]. rewrite (cipher_takes_low _ _ H).
    destruct (ah_on_tr _ _ s _) as [s1 [u|e| |]]; cbn [bind]; try reflexivity. now rewrite (hash_takes_low _ _ H2).
  - unfold aes_gcm in H. destruct (nb key) as [c| | |]; try discriminate. cbn [obind] in H. destruct (gcm_setup fresh _ accel header iv _) as [[[h e0] g]| | |]; try discriminate.
    cbn [obind] in H. apply Ret_inj in H. subst o'. destruct d; intros s n; reflexivity.
  - unfold chacha20_poly1305 in H. destruct (new_chacha20 fresh (Some iv) 0 key) as [c| | |]; try discriminate. cbn [obind] in H.
    destruct (snd (poly1305_init_hash fresh P _ _ header)) as [h| | |]; try discriminate. cbn [obind] in H. apply Ret_inj in H. subst o'. destruct d; intros s n; reflexivity.
Qed.
Theorem auth_low fresh o l : any_auth fresh o -> a_run (ao_class o) (ao_st o) l = a_run (ao_class o) (ao_st o) (map alow l).
Proof.
  intros A. pose proof (auth_takes_low fresh o A) as H. generalize (ao_st o). induction l as [|w l IH]; intros s; [reflexivity|]. cbn [map a_run].
  replace (a_step (ao_class o) s (alow w)) with (a_step (ao_class o) s w); [destruct (a_step (ao_class o) s w) as [s1 ob]; now rewrite IH|].
  destruct w as [[]| |]; cbn [alow low a_step t_step]; try reflexivity. now rewrite H.
Qed.

(* a call that raises and leaves the state as it was, among other calls *)
Lemma w_run_app T l1 : forall s l2, w_run T s (l1 ++ l2) =
  (fst (w_run T (fst (w_run T s l1)) l2), snd (w_run T s l1) ++ snd (w_run T (fst (w_run T s l1)) l2)).
Proof.
  induction l1 as [|w l1 IH]; intros s l2; [cbn [app w_run fst snd]; apply surjective_pairing|].
  cbn [app w_run]. destruct (w_step T s w) as [s1 ob]. rewrite IH. destruct (w_run T s1 l1) as [s2 obs]. reflexivity.
Qed.
Lemma w_run_length T l : forall s, length (snd (w_run T s l)) = length l.
Proof. induction l as [|w l IH]; intros s; [reflexivity|]. cbn [w_run]. destruct (w_step T s w) as [s1 ob]. specialize (IH s1). destruct (w_run T s1 l). cbn [snd length] in *. lia. Qed.
Lemma refused_among T s l1 l2 w ob : (forall s, w_step T s w = (s, ob)) ->
  snd (w_run T s (l1 ++ w :: l2)) = snd (w_run T s l1) ++ ob :: skipn (length l1) (snd (w_run T s (l1 ++ l2))).
Proof.
  intros H. rewrite !w_run_app. cbn [snd w_run]. rewrite H. rewrite skipn_app, w_run_length, Nat.sub_diag, skipn_all2 by (rewrite w_run_length; lia). cbn [app skipn].
  destruct (w_run T (fst (w_run T s l1)) l2) as [s2 obs]. reflexivity.
Qed.
Theorem zlib_refuses fresh zs zlib zend fuel s l1 l2 n : is_byte n = false ->
  (let T := compress fresh zs zlib zend fuel in snd (w_run T s (l1 ++ Call (PutByte n) :: l2)) = snd (w_run T s l1) ++ OExn Invalid_argument :: skipn (length l1) (snd (w_run T s (l1 ++ l2)))) /\
  (let T := uncompress fresh zs zlib zend fuel in snd (w_run T s (l1 ++ Call (PutByte n) :: l2)) = snd (w_run T s l1) ++ OExn Invalid_argument :: skipn (length l1) (snd (w_run T s (l1 ++ l2)))).
Proof.
  unfold is_byte. intros Hn. split; apply refused_among; intros s0; cbn [w_step t_step compress uncompress z_class t_put_byte]; rewrite Hn; reflexivity.
Qed.
Theorem encodings_all fresh : (forall n, 0 <= n -> zlen (fresh n) = n) -> forall ops, Forall any_valid ops ->
  2 * given ops + 9 * (zlen ops + 1) + 2 <= max_string_length ->
  (forall ml pad, all_obs (base64_encode_obj fresh ml pad) ops = spec_all (b64e_mealy ml pad) ([], 0) [] ops) /\
  all_obs (base64_decode_obj fresh) ops = spec_all b64d_mealy ([], false) [] ops /\
  all_obs (hexa_encode_obj fresh) ops = spec_all hexe_mealy tt [] ops /\
  all_obs (hexa_decode_obj fresh) ops = spec_all hexd_mealy [] [] ops.
Proof.
  intros F ops Hv Hz. assert (0 <= given ops) by (clear; unfold given; induction ops as [|o l IH]; cbn [fold_right]; [lia|pose proof (zlen_nonneg (op_data o)); lia]).
  pose proof (zlen_nonneg ops). split; [intros ml pad; apply b64e_all; assumption|]. split; [apply b64d_all; assumption || lia|]. split; [apply hexe_all; assumption || lia|apply hexd_all; assumption || lia].
Qed.
