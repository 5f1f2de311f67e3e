(* The combinators transform_then_hash and transform_and_hash. *)
From Verif Require Import Prelude PreludeFacts BufOutModel BufOut SpecTransducer SpecBlock TransformModel Transform TransformTotal
  BlockModel CipherModel CipherSpec CipherFacts CipherApi BlockFits History Lawful EncModel SpecEnc EncLawful EncApi LibTransform
  HashModel HashSpec HashFacts MiscModel Misc AuthModel Auth.

(* [D] never goes wrong *)
Definition defined (D : bytes -> out bytes) : Prop := forall m, (exists d, D m = Ret d) \/ (exists e, D m = Raise e).
(* the library transforms other than compositions *)
Inductive simple_transform (fresh : Z -> bytes) : tobj -> Z -> Z -> Prop :=
  | ST_cipher nb key bs E D m p iv d o :
      block_family nb key bs E D -> mode_ok bs (dmode m) -> iv_ok bs (dmode m) iv ->
      make_cipher fresh nb m (option_map scheme_of p) iv key d = Ret o ->
      simple_transform fresh o 1 (4 * mode_bs bs (dmode m))
  | ST_stream K prim wipe f rel k s :
      stream_prim K prim f rel -> rel k s -> simple_transform fresh (stream_obj fresh K prim wipe k) 1 0
  | ST_b64e ml pad : simple_transform fresh (base64_encode_obj fresh ml pad) 2 9
  | ST_b64d : simple_transform fresh (base64_decode_obj fresh) 1 3
  | ST_hexe : simple_transform fresh (hexa_encode_obj fresh) 2 0
  | ST_hexd : simple_transform fresh (hexa_decode_obj fresh) 1 1.
Lemma simple_lawful fresh (fresh_len : forall n, 0 <= n -> zlen (fresh n) = n) o K A : simple_transform fresh o K A ->
  exists M sg, lawful true o M sg K A.
Proof.
  induction 1 as [nb key bs E D m p iv d o HF Hm Hiv Ho|K prim wipe f rel k s Hp Hr|ml pad| | |].
  - destruct (make_cipher_lawful fresh fresh_len nb key bs E D m p iv d HF Hm Hiv) as (o' & f & sg & fin & Ho' & L).
    rewrite Ho in Ho'. injection Ho' as <-. eexists _, _. exact L.
  - eexists _, _. eapply stream_lawful; eassumption.
  - eexists _, _. apply b64e_lawful; assumption.
  - eexists _, _. apply b64d_lawful; assumption.
  - eexists _, _. apply hexe_lawful; assumption.
  - eexists _, _. apply hexd_lawful; assumption.
Qed.

Section Run.
Variable M : mealy.
(* the transducer that remembers its output *)
Definition out_mealy : mealy := {|
  m_st := (m_st M * bytes)%type;
  m_byte := fun s c => let '(sg, o, e) := m_byte M (fst s) c in ((sg, snd s ++ o), o, e);
  m_flush := fun s => let '(sg, o, e) := m_flush M (fst s) in ((sg, snd s ++ o), o, e);
  m_finish := fun s => let '(sg, o, e) := m_finish M (fst s) in ((sg, snd s ++ o), o, e) |}.
Lemma out_run l : forall sg acc, m_run out_mealy (sg, acc) l =
  ((r_st (m_run M sg l), acc ++ r_out (m_run M sg l)), r_out (m_run M sg l), r_exn (m_run M sg l)).
Proof.
  induction l as [|c l IH]; intros sg acc.
  - cbn. rewrite app_nil_r. reflexivity.
  - cbn [m_run]. cbn [out_mealy m_byte fst snd]. destruct (m_byte M sg c) as [[sg1 o1] [e|]]; [reflexivity|].
    change {| m_st := _; m_byte := _; m_flush := _; m_finish := _ |} with out_mealy. rewrite IH.
    unfold r_st, r_out, r_exn. destruct (m_run M sg1 l) as [[sg2 o2] e2]. cbn [fst snd]. rewrite app_assoc. reflexivity.
Qed.
(* the transducer that remembers its input *)
Definition in_mealy : mealy := {|
  m_st := (m_st M * bytes)%type;
  m_byte := fun s c => let '(sg, o, e) := m_byte M (fst s) c in ((sg, snd s ++ [c]), o, e);
  m_flush := fun s => let '(sg, o, e) := m_flush M (fst s) in ((sg, snd s), o, e);
  m_finish := fun s => let '(sg, o, e) := m_finish M (fst s) in ((sg, snd s), o, e) |}.
Lemma in_run l : forall sg acc,
  r_out (m_run in_mealy (sg, acc) l) = r_out (m_run M sg l) /\ r_exn (m_run in_mealy (sg, acc) l) = r_exn (m_run M sg l) /\
  fst (r_st (m_run in_mealy (sg, acc) l)) = r_st (m_run M sg l) /\
  (r_exn (m_run M sg l) = None -> snd (r_st (m_run in_mealy (sg, acc) l)) = acc ++ l).
Proof.
  induction l as [|c l IH]; intros sg acc.
  - cbn. rewrite app_nil_r. auto.
  - cbn [m_run]. cbn [in_mealy m_byte fst snd]. destruct (m_byte M sg c) as [[sg1 o1] [e|]]; [repeat split; discriminate|].
    change {| m_st := _; m_byte := _; m_flush := _; m_finish := _ |} with in_mealy.
    specialize (IH sg1 (acc ++ [c])). unfold r_st, r_out, r_exn in *. destruct (m_run in_mealy (sg1, acc ++ [c]) l) as [[s2 o2] e2].
    destruct (m_run M sg1 l) as [[sg2 o3] e3]. cbn [fst snd] in *. destruct IH as (-> & -> & -> & H4). repeat split.
    intros He. rewrite H4 by exact He. rewrite <- app_assoc. reflexivity.
Qed.
End Run.

Section Obj.
Variables (D : bytes -> out bytes) (M : mealy).
Definition then_fin (s : m_st (out_mealy M)) : out (bytes * bytes) :=
  match m_finish M (fst s) with
  | (_, o, None) => olet d := D (snd s ++ o) in Ret (o, d)
  | (_, _, Some e) => Raise e
  end.
Definition and_fin (s : m_st (in_mealy M)) : out (bytes * bytes) :=
  match m_finish M (fst s) with
  | (_, o, None) => olet d := D (snd s) in Ret (o, d)
  | (_, _, Some e) => Raise e
  end.
Lemma then_result sg msg : auth_result (out_mealy M) then_fin (sg, []) msg =
  match m_total M sg msg with (_, o, None) => olet d := D o in Ret (o, d) | (_, _, Some e) => Raise e end.
Proof.
  unfold auth_result. rewrite out_run. unfold m_total, m_then, then_fin, r_st, r_out, r_exn. destruct (m_run M sg msg) as [[sg1 o1] [e|]]; cbn [fst snd]; [reflexivity|].
  destruct (m_finish M sg1) as [[sg2 o2] [e|]]; cbn [obind fst snd app]; [reflexivity|]. destruct (D (o1 ++ o2)); reflexivity.
Qed.
Lemma and_result sg msg : auth_result (in_mealy M) and_fin (sg, []) msg =
  match m_total M sg msg with (_, o, None) => olet d := D msg in Ret (o, d) | (_, _, Some e) => Raise e end.
Proof.
  unfold auth_result. pose proof (in_run M msg sg []) as (H1 & H2 & H3 & H4). unfold m_total, m_then, and_fin, r_st, r_out, r_exn in *.
  destruct (m_run (in_mealy M) (sg, []) msg) as [[s1 o1] e1]. destruct (m_run M sg msg) as [[sg2 o2] e2]. cbn [fst snd app] in *. subst o1 e1.
  destruct e2 as [e|]; [reflexivity|]. rewrite H3, (H4 eq_refl).
  destruct (m_finish M sg2) as [[sg3 o3] [e|]]; cbn [obind fst snd app]; [reflexivity|]. destruct (D msg); reflexivity.
Qed.

Variable fresh : Z -> bytes.
Hypothesis fresh_len : forall n, 0 <= n -> zlen (fresh n) = n.
Variables (T : transform) (F : fits M) (RT : t_st T -> m_st M -> bytes -> Prop) (OK : m_st M -> Prop) (K B : Z).
Variable st : bool.
Hypothesis HT : implements st T M F RT.
Hypothesis HG : growth M F OK K B.
Variables (H : hash) (RH : h_st H -> bytes -> Prop).
Hypothesis HH : himpl (fun _ => True) H D RH.
Hypothesis HD : defined D.

(* ------------------------------ then ------------------------------ *)
Definition thR (s : ths T H) (sg : m_st (out_mealy M)) (q : bytes) : Prop :=
  RT (th_tr s) (fst sg) [] /\ RH (th_h s) (snd sg) /\ bo_inv (th_bo s) /\ bo_contents (th_bo s) = q /\ bytes_ok q.
Definition th_fits : fits (out_mealy M) := Fits (out_mealy M)
  (fun sg l q => f_put F (fst sg) l [] /\ (r_exn (m_run M (fst sg) l) = None -> zlen q + zlen (r_out (m_run M (fst sg) l)) <= max_string_length))
  (fun sg q => f_flush F (fst sg) [])
  (fun sg q => f_finish F (fst sg) [] /\ (r_exn (m_finish M (fst sg)) = None -> zlen q + zlen (r_out (m_finish M (fst sg))) <= max_string_length)).

Lemma transfer_ok s sg acc q o : RT (th_tr s) sg o -> RH (th_h s) acc -> bo_inv (th_bo s) -> bo_contents (th_bo s) = q -> bytes_ok q ->
  zlen q + zlen o <= max_string_length ->
  exists s', th_transfer fresh T H s = (s', Ret tt) /\ RT (th_tr s') sg [] /\ RH (th_h s') (acc ++ o) /\
    bo_inv (th_bo s') /\ bo_contents (th_bo s') = q ++ o /\ bytes_ok (q ++ o).
Proof.
  intros R1 R2 R3 R4 R5 Hsz. unfold th_transfer.
  destruct (im_get_substring _ _ _ _ _ HT _ _ _ R1) as (t' & b & of_ & E & Hir & Hsub & Hlb & R1').
  pose proof (im_bytes _ _ _ _ _ HT _ _ _ R1) as Bo.
  unfold th_on_tr. rewrite E. cbn [fst snd bind th_tr th_h th_bo].
  destruct (hi_op _ _ _ _ HH (th_h s) acc (HSub b of_ (zlen o)) R2) as (h' & E2 & R2').
  { cbn [hop_valid]. rewrite Hsub. auto. } { exact I. }
  cbn [h_step hop_bytes] in E2, R2'. rewrite Hsub in R2'. unfold th_on_h. cbn [th_tr th_h th_bo]. rewrite E2. cbn [fst snd bind].
  unfold th_on_bo. cbn [th_tr th_h th_bo]. pose proof (zlen_nonneg o) as Hz.
  destruct (ensure_capacity_ok fresh fresh_len (th_bo s) (zlen o) R3 Hz ltac:(rewrite R4; exact Hsz)) as (b1 & E3 & I1 & I2 & I3).
  rewrite E3. cbn [fst snd bind th_tr th_h th_bo]. apply in_range_true in Hir. pose proof I1 as (J1 & J2 & J3).
  rewrite blit_ok by lia. cbn [bind]. rewrite Hsub. cbn [th_tr th_h th_bo].
  destruct (bo_append b1 o _ I1 I3 eq_refl) as (A1 & A2).
  eexists. split; [reflexivity|]. cbn [th_tr th_h th_bo]. split; [exact R1'|]. split; [exact R2'|]. split; [exact A1|].
  split; [rewrite A2, I2, R4; reflexivity|apply bytes_ok_app; split; assumption].
Qed.

Lemma th_put s sg q l (r : t_st T * out unit) : thR s sg q -> f_put th_fits sg l q ->
  matches st RT [] (m_run M (fst sg) l) r ->
  matches st thR q (m_run (out_mealy M) sg l) (let! (s, u) := th_on_tr T H s r in th_transfer fresh T H s).
Proof.
  intros (R1 & R2 & R3 & R4 & R5) (F1 & F2) Hm. destruct sg as [sg acc]. cbn [fst snd] in *. rewrite out_run. unfold matches in *. unfold r_exn at 1. cbn [fst snd].
  destruct (r_exn (m_run M sg l)) as [e|].
  - destruct Hm as (e' & He & Hs). unfold th_on_tr. destruct r as [t' rr]. cbn [fst snd] in *. subst rr. cbn [bind snd]. exists e'. auto.
  - destruct Hm as (He & HR). unfold th_on_tr. destruct r as [t' rr]. cbn [fst snd] in *. subst rr. cbn [bind]. cbn [app] in HR.
    destruct (transfer_ok (TH t' (th_h s) (th_bo s)) (r_st (m_run M sg l)) acc q (r_out (m_run M sg l)) HR R2 R3 R4 R5 (F2 eq_refl)) as (s' & -> & P1 & P2 & P3 & P4 & P5).
    split; [reflexivity|]. unfold r_st, r_out in *. repeat split; cbn [fst snd]; assumption || apply P3.
Qed.

Lemma th_implements : auth_implements st (transform_then_hash fresh T H) (out_mealy M) th_fits then_fin thR.
Proof.
  constructor.
  - constructor; cbn [data_view transform_then_hash t_st a_st t_put_substring t_put_string t_put_char t_put_byte t_flush t_finish t_available
      t_get_string t_get_substring t_get_char t_get_byte t_wipe a_put_substring a_put_string a_put_char a_put_byte a_finish a_available
      a_get_string a_get_substring a_get_char a_get_byte a_wipe data_fits f_put f_flush f_finish]; try (intros; contradiction).
    + intros s sg q b o n HR H1 H2 H3 Hf. apply th_put; [exact HR|exact Hf|]. apply (im_put_substring _ _ _ _ _ HT); try assumption; [apply HR|apply Hf].
    + intros s sg q str HR H1 H2 Hf. apply th_put; [exact HR|exact Hf|]. apply (im_put_string _ _ _ _ _ HT); try assumption; [apply HR|apply Hf].
    + intros s sg q c HR H1 Hf. apply th_put; [exact HR|exact Hf|]. apply (im_put_char _ _ _ _ _ HT); try assumption; [apply HR|apply Hf].
    + intros s sg q c HR H1 Hf. apply th_put; [exact HR|exact Hf|]. apply (im_put_byte _ _ _ _ _ HT); try assumption; [apply HR|apply Hf].
    + intros s sg q (R1 & R2 & R3 & R4 & R5). unfold bo_available. rewrite <- R4, bo_contents_len by exact R3. reflexivity.
    + intros s sg q (R1 & R2 & R3 & R4 & R5). unfold th_on_bo. destruct (bo_get_string_ok _ R3) as (b' & -> & I1 & I2). rewrite R4.
      eexists; split; [reflexivity|]. repeat split; cbn [th_tr th_h th_bo]; try assumption; try constructor; apply I1.
    + intros s sg q (R1 & R2 & R3 & R4 & R5). unfold th_on_bo.
      destruct (bo_get_substring_ok _ R3) as (b' & -> & P1 & P2 & I1 & I2). rewrite R4 in *.
      do 3 eexists; split; [reflexivity|]. split; [exact P1|]. split; [exact P2|]. split; [apply R3|].
      repeat split; cbn [th_tr th_h th_bo]; try assumption; try constructor; apply I1.
    + intros s sg q (R1 & R2 & R3 & R4 & R5). unfold th_on_bo. pose proof (bo_get_char_ok _ R3) as Hg. rewrite R4 in Hg. destruct q as [|c q'].
      * rewrite Hg. cbn [fst snd]. destruct s; reflexivity.
      * destruct Hg as (b' & -> & I1 & I2). apply Forall_cons_iff in R5. destruct R5.
        eexists; split; [reflexivity|]. repeat split; cbn [th_tr th_h th_bo]; try assumption; apply I1.
    + intros s sg q (R1 & R2 & R3 & R4 & R5). unfold th_on_bo. pose proof (bo_get_char_ok _ R3) as Hg. rewrite R4 in Hg. destruct q as [|c q'].
      * rewrite Hg. cbn [fst snd]. destruct s; reflexivity.
      * destruct Hg as (b' & -> & I1 & I2). apply Forall_cons_iff in R5. destruct R5.
        eexists; split; [reflexivity|]. repeat split; cbn [th_tr th_h th_bo]; try assumption; apply I1.
    + intros. eexists; reflexivity.
    + intros s sg q HR. apply HR.
  - intros s sg q (R1 & R2 & R3 & R4 & R5) (F1 & F2). unfold then_fin. destruct sg as [sg acc]. cbn [fst snd] in *.
    pose proof (im_finish _ _ _ _ _ HT _ _ _ R1 F1) as Hm. unfold matches, r_exn, r_st, r_out in *.
    cbn [transform_then_hash a_finish a_get_string a_wipe].
    destruct (m_finish M sg) as [[sg1 o] [e|]]; cbn [fst snd] in *.
    + destruct Hm as (e' & He & Hs). exists e'. split; [|exact Hs]. unfold th_on_tr. destruct (t_finish T (th_tr s)) as [t' rr]. cbn [fst snd] in *. subst rr. reflexivity.
    + destruct Hm as (He & HR). unfold th_on_tr. destruct (t_finish T (th_tr s)) as [t' rr]. cbn [fst snd app] in *. subst rr. cbn [bind].
      destruct (transfer_ok (TH t' (th_h s) (th_bo s)) sg1 acc q o HR R2 R3 R4 R5 (F2 eq_refl)) as (s' & Et & P1 & P2 & P3 & P4 & P5). rewrite Et. cbn [bind].
      pose proof (hi_res _ _ _ _ HH _ _ P2 I) as Hr. pose proof (hi_wipe _ _ _ _ HH _ _ P2 I) as Hw. unfold th_on_h.
      destruct (h_result H (th_h s')) as [h2 rr]. cbn [fst snd] in *. subst rr.
      destruct (HD (acc ++ o)) as [(d & Ed)|(e & Ed)]; rewrite Ed; cbn [obind fst snd]; [|eexists; split; reflexivity].
      destruct (im_wipe _ _ _ _ _ HT _ _ _ P1) as (t3 & Et3).
      destruct (bo_get_string_ok _ P3) as (b' & Eb & I1 & I2).
      destruct (h_wipe H h2) as [h3 rw] eqn:Ew. cbn [fst snd] in Hw. subst rw.
      do 4 eexists. split; [reflexivity|]. cbn [th_tr th_h th_bo]. unfold th_on_bo. cbn [th_tr th_h th_bo].
      rewrite Eb, P4. cbn [fst snd th_tr th_h th_bo]. split; [reflexivity|].
      split; cbn [th_tr th_h th_bo]; rewrite Et3; cbn [fst snd bind th_tr th_h th_bo]; rewrite ?Ew; reflexivity.
Qed.
Lemma th_growth : growth (out_mealy M) th_fits (fun s => OK (fst s)) K B.
Proof.
  pose proof (g_KA _ _ _ _ _ HG) as (HK & HB).
  assert (Fin : forall (x y : m_st M * bytes * option exn) acc, x = y -> (r_exn x = None -> OK (r_st x) /\ zlen (r_out x) <= B /\ bytes_ok (r_out x)) ->
     let z := let '(sg, o, e) := y in ((sg, acc ++ o), o, e) in r_exn z = None -> OK (fst (r_st z)) /\ zlen (r_out z) <= B /\ bytes_ok (r_out z)).
  { intros x [[sg o] e] acc -> Hx z. exact Hx. }
  constructor.
  - split; assumption.
  - intros [sg acc] l HO Hl. rewrite out_run. unfold r_exn at 1, r_st at 1, r_out at 2 4. cbn [fst snd]. intros He. apply (g_run _ _ _ _ _ HG); assumption.
  - intros [sg acc] HO. cbn [fst] in HO. apply (Fin _ _ acc eq_refl). apply (g_flush _ _ _ _ _ HG); exact HO.
  - intros [sg acc] HO. cbn [fst] in HO. apply (Fin _ _ acc eq_refl). apply (g_finish _ _ _ _ _ HG); exact HO.
  - intros [sg acc] l q HO Hl Hs. cbn [fst] in *. pose proof (zlen_nonneg q). split; cbn [fst].
    + apply (g_put_fits _ _ _ _ _ HG); try assumption. change (zlen (@nil Z)) with 0. lia.
    + intros He. destruct (g_run _ _ _ _ _ HG sg l HO Hl He) as (_ & Hb & _). lia.
  - intros [sg acc] q HO Hs. pose proof (zlen_nonneg q). apply (g_flush_fits _ _ _ _ _ HG); [exact HO|]. change (zlen (@nil Z)) with 0. lia.
  - intros [sg acc] q HO Hs. cbn [fst] in *. pose proof (zlen_nonneg q). split; cbn [fst].
    + apply (g_finish_fits _ _ _ _ _ HG); [exact HO|]. change (zlen (@nil Z)) with 0. lia.
    + intros He. destruct (g_finish _ _ _ _ _ HG sg HO He) as (_ & Hb & _). lia.
Qed.

(* ------------------------------ and ------------------------------ *)
Definition ahR (s : ahs T H) (sg : m_st (in_mealy M)) (q : bytes) : Prop := RT (fst s) (fst sg) q /\ RH (snd s) (snd sg).
Definition ah_fits : fits (in_mealy M) := Fits (in_mealy M) (fun sg => f_put F (fst sg)) (fun sg => f_flush F (fst sg)) (fun sg => f_finish F (fst sg)).

Lemma ah_put s sg q o l (r : t_st T * out unit) : ahR s sg q -> hop_valid o -> hop_bytes o = l ->
  matches st RT q (m_run M (fst sg) l) r ->
  matches st ahR q (m_run (in_mealy M) sg l) (let! (s, u) := ah_on_tr T H s r in ah_on_h T H s (h_step H (snd s) o)).
Proof.
  intros (R1 & R2) Hv Hl Hm. destruct sg as [sg acc]. destruct (in_run M l sg acc) as (E1 & E2 & E3 & E4). unfold matches in *. rewrite E2. cbn [fst snd] in *.
  destruct (r_exn (m_run M sg l)) as [e|].
  - destruct Hm as (e' & He & Hs). unfold ah_on_tr. destruct r as [t' rr]. cbn [fst snd] in *. subst rr. cbn [bind snd]. exists e'. auto.
  - destruct Hm as (He & HR). unfold ah_on_tr. destruct r as [t' rr]. cbn [fst snd] in *. subst rr. cbn [bind snd].
    destruct (hi_op _ _ _ _ HH (snd s) acc o R2 Hv I) as (h' & Eh & RH'). rewrite Eh. unfold ah_on_h. cbn [fst snd]. split; [reflexivity|].
    unfold ahR. rewrite E1, E3, (E4 eq_refl), <- Hl. split; [rewrite Hl; exact HR|exact RH'].
Qed.

Lemma ah_implements : auth_implements st (transform_and_hash T H) (in_mealy M) ah_fits and_fin ahR.
Proof.
  constructor.
  - constructor; cbn [data_view transform_and_hash t_st a_st t_put_substring t_put_string t_put_char t_put_byte t_flush t_finish t_available
      t_get_string t_get_substring t_get_char t_get_byte t_wipe a_put_substring a_put_string a_put_char a_put_byte a_finish a_available
      a_get_string a_get_substring a_get_char a_get_byte a_wipe data_fits f_put f_flush f_finish ah_fits]; try (intros; contradiction).
    + intros s sg q b o n HR H1 H2 H3 Hf. apply (ah_put s sg q (HSub b o n)); [exact HR|cbn; auto|reflexivity|]. apply (im_put_substring _ _ _ _ _ HT); try assumption; apply HR.
    + intros s sg q str HR H1 H2 Hf. apply (ah_put s sg q (HString str)); [exact HR|cbn; auto|reflexivity|]. apply (im_put_string _ _ _ _ _ HT); try assumption; apply HR.
    + intros s sg q c HR H1 Hf. apply (ah_put s sg q (HChar c)); [exact HR|cbn; auto|reflexivity|]. apply (im_put_char _ _ _ _ _ HT); try assumption; apply HR.
    + intros s sg q c HR H1 Hf. apply (ah_put s sg q (HByte c)); [exact HR|cbn; auto| |].
      * cbn. unfold byte_ok in H1. rewrite Z.mod_small by lia. reflexivity.
      * apply (im_put_byte _ _ _ _ _ HT); try assumption; apply HR.
    + intros s sg q (R1 & R2). apply (im_available _ _ _ _ _ HT _ _ _ R1).
    + intros s sg q (R1 & R2). destruct (im_get_string _ _ _ _ _ HT _ _ _ R1) as (t' & E & R'). unfold ah_on_tr. rewrite E.
      eexists; split; [reflexivity|]. split; assumption.
    + intros s sg q (R1 & R2). destruct (im_get_substring _ _ _ _ _ HT _ _ _ R1) as (t' & b & o & E & P1 & P2 & P3 & R'). unfold ah_on_tr. rewrite E.
      do 3 eexists; split; [reflexivity|]. split; [exact P1|]. split; [exact P2|]. split; [exact P3|]. split; assumption.
    + intros s sg q (R1 & R2). pose proof (im_get_char _ _ _ _ _ HT _ _ _ R1) as Hg. unfold ah_on_tr. destruct q as [|c q'].
      * rewrite Hg. destruct s; reflexivity.
      * destruct Hg as (t' & -> & R'). eexists; split; [reflexivity|]. split; assumption.
    + intros s sg q (R1 & R2). pose proof (im_get_byte _ _ _ _ _ HT _ _ _ R1) as Hg. unfold ah_on_tr. destruct q as [|c q'].
      * rewrite Hg. destruct s; reflexivity.
      * destruct Hg as (t' & -> & R'). eexists; split; [reflexivity|]. split; assumption.
    + intros. eexists; reflexivity.
    + intros s sg q (R1 & R2). apply (im_bytes _ _ _ _ _ HT _ _ _ R1).
  - intros [t h] [sg acc] q (R1 & R2) Hf. cbn [fst snd] in *. unfold and_fin. cbn [fst snd].
    pose proof (im_finish _ _ _ _ _ HT _ _ _ R1 Hf) as Hm. unfold matches, r_exn, r_st, r_out in *.
    cbn [transform_and_hash a_finish a_get_string a_wipe]. unfold ah_on_tr, ah_on_h. cbn [fst snd].
    destruct (m_finish M sg) as [[sg1 o] [e|]]; cbn [fst snd] in *.
    + destruct Hm as (e' & He & Hs). exists e'. split; [|exact Hs]. destruct (t_finish T t) as [t' rr]. cbn [fst snd] in *. subst rr. reflexivity.
    + destruct Hm as (He & HR). destruct (t_finish T t) as [t' rr]. cbn [fst snd app] in *. subst rr. cbn [bind fst snd].
      pose proof (hi_res _ _ _ _ HH _ _ R2 I) as Hr. pose proof (hi_wipe _ _ _ _ HH _ _ R2 I) as Hw.
      destruct (h_result H h) as [h2 rr]. cbn [fst snd] in *. subst rr.
      destruct (HD acc) as [(d & Ed)|(e & Ed)]; rewrite Ed; cbn [obind fst snd]; [|eexists; split; reflexivity].
      destruct (im_get_string _ _ _ _ _ HT _ _ _ HR) as (t2 & E2 & HR2).
      destruct (im_wipe _ _ _ _ _ HT _ _ _ HR) as (t3 & E3). destruct (im_wipe _ _ _ _ _ HT _ _ _ HR2) as (t4 & E4).
      destruct (h_wipe H h2) as [h3 rw] eqn:Ew. cbn [fst snd] in Hw. subst rw.
      do 4 eexists. split; [reflexivity|]. cbn [fst snd]. rewrite E2. cbn [fst snd]. split; [reflexivity|].
      split; cbn [fst snd]; rewrite ?E3, ?E4; cbn [fst snd bind]; rewrite ?Ew; reflexivity.
Qed.
Lemma ah_growth : growth (in_mealy M) ah_fits (fun s => OK (fst s)) K B.
Proof.
  assert (Fin : forall (x y : m_st M * bytes * option exn) (acc : bytes), x = y -> (r_exn x = None -> OK (r_st x) /\ zlen (r_out x) <= B /\ bytes_ok (r_out x)) ->
     let z := let '(sg, o, e) := y in ((sg, acc), o, e) in r_exn z = None -> OK (fst (r_st z)) /\ zlen (r_out z) <= B /\ bytes_ok (r_out z)).
  { intros x [[sg o] e] acc -> Hx z. exact Hx. }
  constructor.
  - exact (g_KA _ _ _ _ _ HG).
  - intros [sg acc] l HO Hl. destruct (in_run M l sg acc) as (E1 & E2 & E3 & E4). rewrite E1, E2, E3. intros He. apply (g_run _ _ _ _ _ HG); assumption.
  - intros [sg acc] HO. cbn [fst] in HO. apply (Fin _ _ acc eq_refl). apply (g_flush _ _ _ _ _ HG); exact HO.
  - intros [sg acc] HO. cbn [fst] in HO. apply (Fin _ _ acc eq_refl). apply (g_finish _ _ _ _ _ HG); exact HO.
  - intros [sg acc] l q HO Hl Hs. apply (g_put_fits _ _ _ _ _ HG); assumption.
  - intros [sg acc] q HO Hs. apply (g_flush_fits _ _ _ _ _ HG); assumption.
  - intros [sg acc] q HO Hs. apply (g_finish_fits _ _ _ _ _ HG); assumption.
Qed.
End Obj.

(* ------------------------------------------------------------------ *)
Section Api.
Variable fresh : Z -> bytes.
Hypothesis fresh_len : forall n, 0 <= n -> zlen (fresh n) = n.
Variables (tr : tobj) (K A : Z).
Variables (st : bool) (M : mealy) (sg : m_st M).
Hypothesis L : lawful st tr M sg K A.
Variables (h : hobj) (D : bytes -> out bytes).
Hypothesis Hh : computes_on (fun _ => True) h D.
Hypothesis HD : defined D.

Definition then_res (msg : bytes) : out (bytes * bytes) := olet c := run_string tr msg in olet t := D c in Ret (c, t).
Definition and_res (msg : bytes) : out (bytes * bytes) := olet c := run_string tr msg in olet t := D msg in Ret (c, t).


(* the specification's answer differs from that of [run_string] only in the exception *)
Lemma string_agrees msg : bytes_ok msg -> K * zlen msg + 2 * A <= max_string_length ->
  agrees st (run_string tr msg) (match m_total M sg msg with (_, o, None) => Ret o | (_, _, Some e) => Raise e end).
Proof.
  intros Hm Hs. pose proof (lawful_string _ _ _ _ _ _ L msg Hm Hs) as E. unfold r_exn, r_out in *.
  destruct (m_total M sg msg) as [[s o] [e|]]; cbn [fst snd agrees] in *; exact E.
Qed.
Definition then_mres (msg : bytes) : out (bytes * bytes) := auth_result (out_mealy M) (then_fin D M) (sg, []) msg.
Definition and_mres (msg : bytes) : out (bytes * bytes) := auth_result (in_mealy M) (and_fin D M) (sg, []) msg.
Lemma then_lawful : auth_lawful st (new_transform_then_hash fresh tr h) (out_mealy M) (then_fin D M) (sg, []) K A.
Proof.
  pose proof L as (F & R & OK & HI & G & HR & HO).
  destruct (computes_himpl (fun _ => True) h D (fun _ _ _ => I) Hh) as (HH & R0).
  exists (th_fits M F), (thR M (o_tr tr) R (ho_class h) (reached h)), (fun s => OK (fst s)).
  split; [|split; [|split]].
  + exact (th_implements D M fresh fresh_len (o_tr tr) F R st HI (ho_class h) (reached h) HH HD).
  + eapply th_growth; eassumption.
  + unfold thR, new_transform_then_hash. cbn [ao_st th_tr th_h th_bo fst snd]. split; [exact HR|]. split; [exact R0|].
    split; [apply (bo_new_inv fresh fresh_len); unfold max_string_length; lia|]. split; [reflexivity|constructor].
  + exact HO.
Qed.
Lemma and_lawful : auth_lawful st (new_transform_and_hash tr h) (in_mealy M) (and_fin D M) (sg, []) K A.
Proof.
  pose proof L as (F & R & OK & HI & G & HR & HO).
  destruct (computes_himpl (fun _ => True) h D (fun _ _ _ => I) Hh) as (HH & R0).
  exists (ah_fits M F), (ahR M (o_tr tr) R (ho_class h) (reached h)), (fun s => OK (fst s)).
  split; [|split; [|split]].
  + eapply ah_implements; eassumption.
  + eapply ah_growth; eassumption.
  + split; assumption.
  + exact HO.
Qed.
(* both run the transform on the message *)
Lemma then_mres_agrees msg : bytes_ok msg -> K * zlen msg + 2 * A <= max_string_length -> agrees st (then_res msg) (then_mres msg).
Proof.
  intros Hm Hs. unfold then_mres. rewrite then_result. pose proof (string_agrees msg Hm Hs) as E. unfold then_res.
  destruct (m_total M sg msg) as [[s o] [e|]]; cbn [agrees] in *.
  - destruct E as (e' & -> & E). exists e'. split; [reflexivity|exact E].
  - rewrite E. cbn [obind]. apply agrees_refl.
Qed.
Lemma and_mres_agrees msg : bytes_ok msg -> K * zlen msg + 2 * A <= max_string_length -> agrees st (and_res msg) (and_mres msg).
Proof.
  intros Hm Hs. unfold and_mres. rewrite and_result. pose proof (string_agrees msg Hm Hs) as E. unfold and_res.
  destruct (m_total M sg msg) as [[s o] [e|]]; cbn [agrees] in *.
  - destruct E as (e' & -> & E). exists e'. split; [reflexivity|exact E].
  - rewrite E. cbn [obind]. apply agrees_refl.
Qed.
Lemma agrees_via {X} (x r m : out X) : agrees st r m -> agrees st x m -> agrees st x r.
Proof.
  clear. destruct m as [v|e| |]; cbn [agrees]; intros H1 H2.
  - subst r. exact H2.
  - destruct H1 as (e1 & -> & H1), H2 as (e2 & -> & H2). exists e2. split; [reflexivity|]. intros E. rewrite H1, H2 by exact E. reflexivity.
  - subst r. exact H2.
  - subst r. exact H2.
Qed.
Lemma whole_via o msg r m : agrees st r m -> auth_whole_upto st o msg m -> auth_whole_upto st o msg r.
Proof.
  clear. intros H (W1 & W2 & W3). split; [exact (agrees_via _ _ _ H W1)|]. split.
  - refine (agrees_via _ _ _ _ W2). destruct m as [v|e| |]; cbn [agrees] in H; try (subst r; reflexivity).
    destruct H as (e' & -> & H). exists e'. split; [reflexivity|exact H].
  - intros ops Ho. exact (agrees_via _ _ _ H (W3 ops Ho)).
Qed.
Lemma then_whole_upto msg : bytes_ok msg -> K * zlen msg + 2 * A <= max_string_length -> auth_whole_upto st (new_transform_then_hash fresh tr h) msg (then_res msg).
Proof. intros Hm Hs. exact (whole_via _ _ _ _ (then_mres_agrees msg Hm Hs) (auth_lawful_upto _ _ _ _ _ _ _ _ then_lawful Hm Hs)). Qed.
Lemma and_whole_upto msg : bytes_ok msg -> K * zlen msg + 2 * A <= max_string_length -> auth_whole_upto st (new_transform_and_hash tr h) msg (and_res msg).
Proof. intros Hm Hs. exact (whole_via _ _ _ _ (and_mres_agrees msg Hm Hs) (auth_lawful_upto _ _ _ _ _ _ _ _ and_lawful Hm Hs)). Qed.

Hypothesis Hsize : 0 <= h_size (ho_class h).
Lemma KA_pos : 1 <= K.
Proof. destruct L as (F & R & OK & HI & G & _). apply (g_KA _ _ _ _ _ G). Qed.
Lemma body_small (str : bytes) : K * zlen str + 2 * A <= max_string_length -> h_size (ho_class h) <= zlen str ->
  K * zlen (sub str 0 (zlen str - h_size (ho_class h))) + 2 * A <= max_string_length.
Proof. pose proof KA_pos. intros H1 H2. rewrite zlen_sub by lia. nia. Qed.
Lemma checks_via o size (res mres : bytes -> out (bytes * bytes)) str :
  (size <= zlen str -> agrees st (res (sub str 0 (zlen str - size))) (mres (sub str 0 (zlen str - size)))) ->
  auth_checks_upto st o size mres str -> auth_checks_upto st o size res str.
Proof.
  clear. intros H (C1 & C2). split; [exact C1|]. intros Hl. specialize (H Hl). specialize (C2 Hl).
  destruct (mres _) as [[x y]|e| |]; cbn [agrees] in H; try contradiction.
  - rewrite H. exact C2.
  - destruct H as (e1 & -> & H1), C2 as (e2 & -> & H2). exists e2. split; [reflexivity|]. intros E. rewrite H1, H2 by exact E. reflexivity.
Qed.
Lemma then_checks_upto str : bytes_ok str -> K * zlen str + 2 * A <= max_string_length ->
  auth_checks_upto st (new_transform_then_hash fresh tr h) (h_size (ho_class h)) then_res str.
Proof.
  intros Hb Hs. apply (checks_via _ _ _ then_mres).
  - intros Hl. apply then_mres_agrees; [apply bytes_ok_sub, Hb|apply body_small; assumption].
  - exact (auth_lawful_checks_upto _ _ _ _ _ _ _ str then_lawful Hb Hsize Hs).
Qed.
Lemma and_checks_upto str : bytes_ok str -> K * zlen str + 2 * A <= max_string_length ->
  auth_checks_upto st (new_transform_and_hash tr h) (h_size (ho_class h)) and_res str.
Proof.
  intros Hb Hs. apply (checks_via _ _ _ and_mres).
  - intros Hl. apply and_mres_agrees; [apply bytes_ok_sub, Hb|apply body_small; assumption].
  - exact (auth_lawful_checks_upto _ _ _ _ _ _ _ str and_lawful Hb Hsize Hs).
Qed.
End Api.

Section Simple.
Variable fresh : Z -> bytes.
Hypothesis fresh_len : forall n, 0 <= n -> zlen (fresh n) = n.
Variables (tr : tobj) (K A : Z).
Hypothesis HTr : simple_transform fresh tr K A.
Variables (h : hobj) (D : bytes -> out bytes).
Hypothesis Hh : computes_on (fun _ => True) h D.
Hypothesis HD : defined D.
Lemma then_whole msg : bytes_ok msg -> K * zlen msg + 2 * A <= max_string_length -> auth_whole (new_transform_then_hash fresh tr h) msg (then_res tr D msg).
Proof. intros Hm Hs. destruct (simple_lawful fresh fresh_len _ _ _ HTr) as (M & sg & L). apply upto_whole. eapply then_whole_upto; eassumption. Qed.
Lemma and_whole msg : bytes_ok msg -> K * zlen msg + 2 * A <= max_string_length -> auth_whole (new_transform_and_hash tr h) msg (and_res tr D msg).
Proof. intros Hm Hs. destruct (simple_lawful fresh fresh_len _ _ _ HTr) as (M & sg & L). apply upto_whole. eapply and_whole_upto; eassumption. Qed.
Hypothesis Hsize : 0 <= h_size (ho_class h).
Lemma then_checks str : bytes_ok str -> K * zlen str + 2 * A <= max_string_length ->
  auth_checks (new_transform_then_hash fresh tr h) (h_size (ho_class h)) (then_res tr D) str.
Proof. intros Hm Hs. destruct (simple_lawful fresh fresh_len _ _ _ HTr) as (M & sg & L). apply upto_checks. eapply then_checks_upto; eassumption. Qed.
Lemma and_checks str : bytes_ok str -> K * zlen str + 2 * A <= max_string_length ->
  auth_checks (new_transform_and_hash tr h) (h_size (ho_class h)) (and_res tr D) str.
Proof. intros Hm Hs. destruct (simple_lawful fresh fresh_len _ _ _ HTr) as (M & sg & L). apply upto_checks. eapply and_checks_upto; eassumption. Qed.
End Simple.

(* all the library's transforms, compositions included: which exception is raised is not determined *)
Lemma agrees_weaken {X} st (x r : out X) : agrees st x r -> agrees false x r.
Proof. destruct r; cbn [agrees]; try exact (fun H => H). intros (e' & -> & _). exists e'. split; [reflexivity|discriminate]. Qed.
Section Lib.
Variable fresh : Z -> bytes.
Hypothesis fresh_len : forall n, 0 <= n -> zlen (fresh n) = n.
Variables (tr : tobj) (K A : Z).
Hypothesis HTr : lib_transform fresh tr K A.
Variables (h : hobj) (D : bytes -> out bytes).
Hypothesis Hh : computes_on (fun _ => True) h D.
Hypothesis HD : defined D.
Lemma whole_weaken st o msg r : auth_whole_upto st o msg r -> auth_whole_upto false o msg r.
Proof.
  clear. intros (H1 & H2 & H3). split; [exact (agrees_weaken _ _ _ H1)|]. split; [exact (agrees_weaken _ _ _ H2)|].
  intros ops Ho. exact (agrees_weaken _ _ _ (H3 ops Ho)).
Qed.
Lemma checks_weaken st o size res str : auth_checks_upto st o size res str -> auth_checks_upto false o size res str.
Proof.
  clear. intros (C1 & C2). split; [exact C1|]. intros Hl. specialize (C2 Hl). destruct (res _) as [[x y]|e| |]; try exact C2.
  destruct C2 as (e' & -> & _). exists e'. split; [reflexivity|discriminate].
Qed.
Lemma then_whole_lib msg : bytes_ok msg -> K * zlen msg + 2 * A <= max_string_length -> auth_whole_upto false (new_transform_then_hash fresh tr h) msg (then_res tr D msg).
Proof. intros Hm Hs. destruct (lib_lawful fresh fresh_len _ _ _ HTr) as (st & M & sg & L). apply (whole_weaken st). eapply then_whole_upto; eassumption. Qed.
Lemma and_whole_lib msg : bytes_ok msg -> K * zlen msg + 2 * A <= max_string_length -> auth_whole_upto false (new_transform_and_hash tr h) msg (and_res tr D msg).
Proof. intros Hm Hs. destruct (lib_lawful fresh fresh_len _ _ _ HTr) as (st & M & sg & L). apply (whole_weaken st). eapply and_whole_upto; eassumption. Qed.
Hypothesis Hsize : 0 <= h_size (ho_class h).
Lemma then_checks_lib str : bytes_ok str -> K * zlen str + 2 * A <= max_string_length ->
  auth_checks_upto false (new_transform_then_hash fresh tr h) (h_size (ho_class h)) (then_res tr D) str.
Proof. intros Hm Hs. destruct (lib_lawful fresh fresh_len _ _ _ HTr) as (st & M & sg & L). apply (checks_weaken st). eapply then_checks_upto; eassumption. Qed.
Lemma and_checks_lib str : bytes_ok str -> K * zlen str + 2 * A <= max_string_length ->
  auth_checks_upto false (new_transform_and_hash tr h) (h_size (ho_class h)) (and_res tr D) str.
Proof. intros Hm Hs. destruct (lib_lawful fresh fresh_len _ _ _ HTr) as (st & M & sg & L). apply (checks_weaken st). eapply and_checks_upto; eassumption. Qed.
End Lib.

Lemma split_tag (c t : bytes) n : zlen t = n -> sub (c ++ t) 0 (zlen (c ++ t) - n) = c /\ sub (c ++ t) (zlen (c ++ t) - n) n = t.
Proof.
  intros <-. rewrite zlen_app. replace (zlen c + zlen t - zlen t) with (zlen c) by lia. unfold zlen, sub. rewrite !Nat2Z.id. cbn [Z.to_nat skipn].
  rewrite firstn_app, skipn_app, Nat.sub_diag, firstn_all, skipn_all, firstn_all. cbn [firstn app]. rewrite app_nil_r. auto.
Qed.

(* the round trips, and rejection *)
Lemma then_and_round fresh (fresh_len : forall n, 0 <= n -> zlen (fresh n) = n) e K1 A1 d K2 A2 h D msg c t :
  lib_transform fresh e K1 A1 -> lib_transform fresh d K2 A2 -> computes_on (fun _ => True) h D -> defined D ->
  bytes_ok msg -> bytes_ok c -> bytes_ok t -> K1 * zlen msg + 2 * A1 <= max_string_length -> K2 * (zlen c + zlen t) + 2 * A2 <= max_string_length ->
  run_string e msg = Ret c -> run_string d c = Ret msg -> D c = Ret t -> zlen t = h_size (ho_class h) ->
  auth_string (new_transform_then_hash fresh e h) msg = Ret (c ++ t) /\
  auth_check (new_transform_and_hash d h) (c ++ t) = Ret (Some msg) /\
  (forall t', bytes_ok t' -> zlen t' = zlen t -> t' <> t -> auth_check (new_transform_and_hash d h) (c ++ t') = Ret None).
Proof.
  intros He Hd Hh HD Bm Bc Bt S1 S2 E1 E2 E3 E4. pose proof (zlen_nonneg t) as Hz. pose proof (zlen_nonneg c) as Hc.
  destruct (then_whole_lib fresh fresh_len e K1 A1 He h D Hh HD msg Bm S1) as (_ & W & _). unfold then_res in W. rewrite E1 in W. cbn [obind] in W. rewrite E3 in W. cbn [obind fst snd] in W.
  assert (C : forall t', bytes_ok t' -> zlen t' = zlen t -> auth_checks_upto false (new_transform_and_hash d h) (h_size (ho_class h)) (and_res d D) (c ++ t')).
  { intros t' Bt' Lt'. apply (and_checks_lib fresh fresh_len d K2 A2 Hd h D Hh HD); [lia|apply bytes_ok_app; auto|rewrite zlen_app, Lt'; exact S2]. }
  assert (R : forall t', zlen t' = zlen t -> and_res d D (sub (c ++ t') 0 (zlen (c ++ t') - h_size (ho_class h))) = Ret (msg, t) /\ sub (c ++ t') (zlen (c ++ t') - h_size (ho_class h)) (h_size (ho_class h)) = t').
  { intros t' Lt'. destruct (split_tag c t' (h_size (ho_class h)) ltac:(lia)) as (F1 & F2). rewrite F1, F2. split; [|reflexivity]. unfold and_res. rewrite E2. cbn [obind]. rewrite E3. reflexivity. }
  split; [exact W|]. split.
  - destruct (C t Bt eq_refl) as (_ & C2). destruct (R t eq_refl) as (R1 & R2). rewrite R1, R2 in C2. apply C2; [rewrite zlen_app; lia|reflexivity].
  - intros t' Bt' Lt' Ht. destruct (C t' Bt' Lt') as (_ & C2). destruct (R t' Lt') as (R1 & R2). rewrite R1, R2 in C2. apply C2; [rewrite zlen_app; lia|congruence].
Qed.
Lemma and_then_round fresh (fresh_len : forall n, 0 <= n -> zlen (fresh n) = n) e K1 A1 d K2 A2 h D msg c t :
  lib_transform fresh e K1 A1 -> lib_transform fresh d K2 A2 -> computes_on (fun _ => True) h D -> defined D ->
  bytes_ok msg -> bytes_ok c -> bytes_ok t -> K1 * zlen msg + 2 * A1 <= max_string_length -> K2 * (zlen c + zlen t) + 2 * A2 <= max_string_length ->
  run_string e msg = Ret c -> run_string d c = Ret msg -> D msg = Ret t -> zlen t = h_size (ho_class h) ->
  auth_string (new_transform_and_hash e h) msg = Ret (c ++ t) /\
  auth_check (new_transform_then_hash fresh d h) (c ++ t) = Ret (Some msg) /\
  (forall t', bytes_ok t' -> zlen t' = zlen t -> t' <> t -> auth_check (new_transform_then_hash fresh d h) (c ++ t') = Ret None).
Proof.
  intros He Hd Hh HD Bm Bc Bt S1 S2 E1 E2 E3 E4. pose proof (zlen_nonneg t) as Hz. pose proof (zlen_nonneg c) as Hc.
  destruct (and_whole_lib fresh fresh_len e K1 A1 He h D Hh HD msg Bm S1) as (_ & W & _). unfold and_res in W. rewrite E1 in W. cbn [obind] in W. rewrite E3 in W. cbn [obind fst snd] in W.
  assert (C : forall t', bytes_ok t' -> zlen t' = zlen t -> auth_checks_upto false (new_transform_then_hash fresh d h) (h_size (ho_class h)) (then_res d D) (c ++ t')).
  { intros t' Bt' Lt'. apply (then_checks_lib fresh fresh_len d K2 A2 Hd h D Hh HD); [lia|apply bytes_ok_app; auto|rewrite zlen_app, Lt'; exact S2]. }
  assert (R : forall t', zlen t' = zlen t -> then_res d D (sub (c ++ t') 0 (zlen (c ++ t') - h_size (ho_class h))) = Ret (msg, t) /\ sub (c ++ t') (zlen (c ++ t') - h_size (ho_class h)) (h_size (ho_class h)) = t').
  { intros t' Lt'. destruct (split_tag c t' (h_size (ho_class h)) ltac:(lia)) as (F1 & F2). rewrite F1, F2. split; [|reflexivity]. unfold then_res. rewrite E2. cbn [obind]. rewrite E3. reflexivity. }
  split; [exact W|]. split.
  - destruct (C t Bt eq_refl) as (_ & C2). destruct (R t eq_refl) as (R1 & R2). rewrite R1, R2 in C2. apply C2; [rewrite zlen_app; lia|reflexivity].
  - intros t' Bt' Lt' Ht. destruct (C t' Bt' Lt') as (_ & C2). destruct (R t' Lt') as (R1 & R2). rewrite R1, R2 in C2. apply C2; [rewrite zlen_app; lia|congruence].
Qed.
(* a hash object with a wrong hash_size: nothing is ever accepted *)
Lemma wrong_size_rejects fresh (fresh_len : forall n, 0 <= n -> zlen (fresh n) = n) d K A h D str txt :
  lib_transform fresh d K A -> computes_on (fun _ => True) h (fun m => Ret (D m)) -> 0 <= h_size (ho_class h) ->
  (forall m, zlen (D m) <> h_size (ho_class h)) -> bytes_ok str -> K * zlen str + 2 * A <= max_string_length ->
  auth_check (new_transform_and_hash d h) str <> Ret (Some txt) /\ auth_check (new_transform_then_hash fresh d h) str <> Ret (Some txt).
Proof.
  intros Hd Hh Hsz HD Hb Hs. assert (Df : defined (fun m => Ret (D m))) by (intros m; left; eexists; reflexivity).
  assert (G : forall o res, (forall m r t, res m = Ret (r, t) -> exists x, t = D x) -> auth_checks_upto false o (h_size (ho_class h)) res str -> auth_check o str <> Ret (Some txt)).
  { intros o res Hr (C1 & C2). destruct (Z.ltb_spec (zlen str) (h_size (ho_class h))) as [Hl|Hl]; [rewrite (C1 Hl); discriminate|]. specialize (C2 Hl).
    specialize (Hr (sub str 0 (zlen str - h_size (ho_class h)))). destruct (res _) as [[r t]|e| |]; try contradiction; [|destruct C2 as (e' & C2 & _); rewrite C2; discriminate].
    destruct (Hr r t eq_refl) as (x & ->). destruct C2 as (_ & C3). rewrite C3; [discriminate|]. intros E. apply (HD x). rewrite E. apply zlen_sub; lia. }
  split.
  - eapply G; [|apply (and_checks_lib fresh fresh_len d K A Hd h _ Hh Df Hsz str Hb Hs)].
    intros m r t. unfold and_res. destruct (run_string d m); cbn [obind]; try discriminate. intros E. injection E as _ <-. eauto.
  - eapply G; [|apply (then_checks_lib fresh fresh_len d K A Hd h _ Hh Df Hsz str Hb Hs)].
    intros m r t. unfold then_res. destruct (run_string d m); cbn [obind]; try discriminate. intros E. injection E as _ <-. eauto.
Qed.
