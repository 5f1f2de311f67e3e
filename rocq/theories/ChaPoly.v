(* ChaCha20-Poly1305 as modelled computes RFC 8439 section 2.8. *)
From Verif Require Import Prelude PreludeFacts BytesNum Word BufOutModel BufOut SpecTransducer TransformModel Transform TransformTotal
  SpecBlock BlockTotal EncModel SpecEnc EncLawful CipherModel CipherFacts Lawful EncApi SpecStream StreamModel StreamObj Chacha StreamApi
  MdModel MdHash SpecPoly PolyModel Poly AuthModel AeadModel Auth SpecAead AesField Gcm.
Ltac Zify.zify_post_hook ::= Z.div_mod_to_equations.

(* class Stream.cipher over an object that may refuse data *)
Section Stream.
Variable fresh : Z -> bytes.
Hypothesis fresh_len : forall n, 0 <= n -> zlen (fresh n) = n.
Variables (W : stream_cipher) (M : mealy) (rel : sc_st W -> m_st M -> Prop).
Hypothesis HW : forall k sg src so dst d len, rel k sg -> 0 <= len <= max_string_length -> 0 <= so <= zlen src - len -> 0 <= d <= zlen dst - len ->
  bytes_ok (sub src so len) ->
  match m_run M sg (sub src so len) with
  | (sg', o, None) => exists k', sc_transform W k src so dst d len = ((k', splice dst d o), Ret tt) /\ rel k' sg' /\ zlen o = len /\ bytes_ok o
  | (_, _, Some e) => snd (sc_transform W k src so dst d len) = Raise e
  end.
Hypothesis HM : forall sg, m_flush M sg = (sg, [], None) /\ m_finish M sg = (sg, [], None).

Definition sgR (s : sct W) (sg : m_st M) (q : bytes) : Prop :=
  rel (sct_c W s) sg /\ zlen (sct_buf W s) = 1 /\ bo_inv (sct_bo W s) /\ bo_contents (sct_bo W s) = q /\ bytes_ok q.
Definition sg_fits : fits M := Fits M (fun _ l q => zlen q + zlen l <= max_string_length) (fun _ _ => True) (fun _ q => zlen q <= max_string_length).

Lemma sg_put_ok s sg q b o n : sgR s sg q -> in_range b o n = true -> bytes_ok (sub b o n) -> zlen q + n <= max_string_length ->
  matches true sgR q (m_run M sg (sub b o n)) (sct_put_substring fresh W s b o n).
Proof.
  intros (Hr & Hb & Hi & Hq & Hqok) Hir Hok Hf. apply in_range_true in Hir. rewrite <- Hq in Hf. pose proof (zlen_nonneg (bo_contents (sct_bo W s))) as Hz.
  destruct (ensure_capacity_ok fresh fresh_len (sct_bo W s) n Hi ltac:(lia) Hf) as (b1 & E1 & E2 & E3 & E4).
  unfold sct_put_substring, sct_ensure, lift. rewrite E1. cbn [bind].
  unfold sct_transform. cbn [sct_c sct_bo sct_buf]. pose proof E2 as (P1 & P2 & P3).
  pose proof (HW (sct_c W s) sg b o (obuf b1) (oend b1) n Hr ltac:(lia) ltac:(lia) ltac:(lia) Hok) as H.
  unfold matches, r_exn, r_st, r_out. destruct (m_run M sg (sub b o n)) as [[sg' x] [e|]]; cbn [fst snd].
  - destruct (sc_transform W _ b o _ _ n) as [[k' d'] r]. cbn [fst snd] in *. subst r. cbn [bind snd]. eexists. split; [reflexivity|auto].
  - destruct H as (k' & E & Hk & Hl & Hx). rewrite E. cbn [fst snd bind]. split; [reflexivity|]. unfold sct_adv, sgR. cbn [sct_c sct_buf sct_bo obuf obeg oend].
    destruct (bo_append b1 x _ E2 ltac:(lia) eq_refl) as (A1 & A2). rewrite Hl in A1, A2.
    split; [exact Hk|]. split; [exact Hb|]. split; [exact A1|]. split; [rewrite A2, E3, Hq; reflexivity|]. apply bytes_ok_app. split; assumption.
Qed.

Lemma sg_implements : implements true (stream_transform fresh W) M sg_fits sgR.
Proof.
  assert (PC : forall s sg q c, sgR s sg q -> byte_ok c -> f_put sg_fits sg [c] q -> matches true sgR q (m_run M sg [c]) (sct_put_char fresh W s c)).
  { intros s sg q c (Hr & Hb & Hi & Hq & Hqok) Hc Hf. cbn [sg_fits f_put] in Hf. rewrite zlen_one in Hf.
    unfold sct_put_char. rewrite bytes_set_ok by lia. cbn [bind].
    assert (Hs : splice (sct_buf W s) 0 [c] = [c]).
    { destruct (sct_buf W s) as [|x [|? ?]]; try reflexivity; rewrite ?zlen_cons in Hb; try (pose proof (zlen_nonneg l)); unfold zlen in *; cbn [length] in *; lia. }
    rewrite Hs. assert (HR2 : sgR (SCT W (sct_c W s) [c] (sct_bo W s)) sg q) by (repeat split; assumption || apply Hi).
    pose proof (sg_put_ok _ sg q [c] 0 1 HR2 eq_refl) as P. change (sub [c] 0 1) with [c] in P.
    apply P; [repeat constructor; apply Hc|exact Hf]. }
  constructor; cbn [stream_transform t_st t_put_substring t_put_string t_put_char
    t_put_byte t_flush t_finish t_available t_get_string t_get_substring t_get_char t_get_byte t_wipe].
  - intros s sg q b o n HR Hir Hb Hl Hf. cbn [sg_fits f_put] in Hf. pose proof Hir as Hir'. apply in_range_true in Hir'.
    rewrite zlen_sub in Hf by lia. apply sg_put_ok; assumption.
  - intros s sg q str HR Hok Hl Hf. cbn [sg_fits f_put] in Hf.
    assert (Hir : in_range str 0 (zlen str) = true) by (apply in_range_true; pose proof (zlen_nonneg str); lia).
    pose proof (sg_put_ok s sg q str 0 (zlen str) HR Hir) as P. rewrite sub_0_all in P by lia. apply P; assumption.
  - exact PC.
  - intros s sg q c HR Hc Hf. unfold byte_ok in Hc. rewrite Z.mod_small by lia. apply PC; assumption.
  - intros s sg q HR _. destruct (HM sg) as (-> & _). unfold matches, r_exn, r_st, r_out. cbn [fst snd]. rewrite app_nil_r. auto.
  - intros s sg q HR _. destruct (HM sg) as (_ & ->). unfold matches, r_exn, r_st, r_out. cbn [fst snd]. rewrite app_nil_r. auto.
  - intros s sg q (H0 & H1 & H2 & H3 & H4). unfold bo_available. rewrite <- H3, bo_contents_len by exact H2. reflexivity.
  - intros s sg q (H0 & H1 & H2 & H3 & H4). destruct (bo_get_string_ok _ H2) as (b' & -> & I1 & I2). rewrite H3.
    eexists; split; [reflexivity|]. repeat split; try assumption; try constructor; apply I1.
  - intros s sg q (H0 & H1 & H2 & H3 & H4).
    destruct (bo_get_substring_ok _ H2) as (b' & -> & P1 & P2 & I1 & I2). rewrite H3 in *.
    do 3 eexists; split; [reflexivity|]. split; [exact P1|]. split; [exact P2|]. split; [apply H2|].
    repeat split; try assumption; try constructor; apply I1.
  - intros s sg q (H0 & H1 & H2 & H3 & H4). pose proof (bo_get_char_ok _ H2) as Hg. rewrite H3 in Hg. destruct q as [|c q'].
    + rewrite Hg. unfold sct_bo_op. cbn [fst snd]. destruct s; reflexivity.
    + destruct Hg as (b' & -> & I1 & I2). apply Forall_cons_iff in H4. destruct H4.
      eexists; split; [reflexivity|]. repeat split; try assumption; apply I1.
  - intros s sg q (H0 & H1 & H2 & H3 & H4). pose proof (bo_get_char_ok _ H2) as Hg. rewrite H3 in Hg. destruct q as [|c q'].
    + rewrite Hg. unfold sct_bo_op. cbn [fst snd]. destruct s; reflexivity.
    + destruct Hg as (b' & -> & I1 & I2). apply Forall_cons_iff in H4. destruct H4.
      eexists; split; [reflexivity|]. repeat split; try assumption; apply I1.
  - intros. eexists; reflexivity.
  - intros s sg q H. apply H.
Qed.
End Stream.

(* ------------------------------------------------------------------ *)
(* the transducer: its state is the ciphertext so far *)
Section Cp.
Variables (ks : nat -> Z) (enc : bool) (lim : option Z).
Hypothesis Hks : forall n, byte_ok (ks n).
Definition too_long (n : Z) : bool := enc && match lim with Some m => n >? m | None => false end.
Definition cp_mealy : mealy := {|
  m_st := bytes;
  m_byte := fun C c =>
    let x := Z.lxor c (ks (length C)) in
    let C' := C ++ [if enc then x else c] in
    if too_long (zlen C') then (C', [], Some (Error Message_too_long)) else (C', [x], None);
  m_flush := fun C => (C, [], None); m_finish := fun C => (C, [], None) |}.

Lemma cp_run l : forall C, too_long (zlen C) = false ->
  if too_long (zlen C + zlen l) then r_exn (m_run cp_mealy C l) = Some (Error Message_too_long)
  else m_run cp_mealy C l = (C ++ (if enc then ks_xor ks (length C) l else l), ks_xor ks (length C) l, None).
Proof.
  induction l as [|c l IH]; intros C HC.
  - change (zlen (@nil Z)) with 0. rewrite Z.add_0_r, HC. cbn [m_run]. replace (if enc then ks_xor ks (length C) [] else []) with (@nil Z) by (destruct enc; reflexivity).
    rewrite app_nil_r. reflexivity.
  - cbn [m_run]. cbn [cp_mealy m_byte]. change {| m_st := _; m_byte := _; m_flush := _; m_finish := _ |} with cp_mealy.
    set (C' := C ++ [if enc then Z.lxor c (ks (length C)) else c]).
    assert (L' : zlen C' = zlen C + 1) by (unfold C'; rewrite zlen_app; reflexivity).
    assert (Ln : length C' = S (length C)) by (unfold C'; rewrite app_length; cbn; lia).
    rewrite zlen_cons. replace (zlen C + (1 + zlen l)) with (zlen C' + zlen l) by lia. pose proof (zlen_nonneg l).
    destruct (too_long (zlen C')) eqn:E.
    + assert (E' : too_long (zlen C' + zlen l) = true) by (unfold too_long in *; destruct enc, lim; cbn [andb] in *; lia).
      rewrite E'. reflexivity.
    + specialize (IH C' E). destruct (too_long (zlen C' + zlen l)).
      * unfold r_exn in *. destruct (m_run cp_mealy C' l) as [[s o] e]. exact IH.
      * rewrite IH, Ln, ks_xor_cons. unfold C'. rewrite <- app_assoc. destruct enc; reflexivity.
Qed.
Definition cpOK (C : bytes) : Prop := bytes_ok C /\ too_long (zlen C) = false.
Lemma cp_growth : growth cp_mealy (sg_fits cp_mealy) cpOK 1 0.
Proof.
  constructor.
  - lia.
  - intros C l (HC & HT) Hl He. pose proof (cp_run l C HT) as R. destruct (too_long (zlen C + zlen l)) eqn:E; [congruence|]. rewrite R. unfold r_st, r_out. cbn [fst snd].
    assert (Hx : bytes_ok (ks_xor ks (length C) l)) by (apply ks_xor_ok; assumption).
    assert (Lx : zlen (ks_xor ks (length C) l) = zlen l) by apply ks_xor_zlen.
    split; [|split; [lia|exact Hx]]. split.
    + apply bytes_ok_app. split; [exact HC|destruct enc; assumption].
    + rewrite zlen_app. replace (zlen (if enc then ks_xor ks (length C) l else l)) with (zlen l) by (destruct enc; lia). exact E.
  - intros C HC _. unfold r_st, r_out. cbn. split; [exact HC|]. split; [lia|constructor].
  - intros C HC _. unfold r_st, r_out. cbn. split; [exact HC|]. split; [lia|constructor].
  - intros C l q _ _ H. cbn [sg_fits f_put]. lia.
  - intros; exact I.
  - intros C q _ H. cbn [sg_fits f_finish]. lia.
Qed.
End Cp.

(* ------------------------------------------------------------------ *)
Lemma ks_xor_shift key iv n l : ks_xor (chacha20 key 0 iv) (64 + n) l = ks_xor (chacha20 key 1 iv) n l.
Proof.
  revert n. induction l as [|c l IH]; intros n; [reflexivity|]. rewrite !ks_xor_cons. apply (f_equal2 cons).
  - apply (f_equal (Z.lxor c)). unfold chacha20. replace ((64 + n) mod 64)%nat with (n mod 64)%nat by (replace (64 + n)%nat with (n + 1 * 64)%nat by lia; rewrite Nat.mod_add by lia; reflexivity).
    replace ((64 + n) / 64)%nat with (1 + n / 64)%nat by (replace (64 + n)%nat with (n + 1 * 64)%nat by lia; rewrite Nat.div_add by lia; lia).
    replace (0 + Z.of_nat (1 + n / 64)) with (1 + Z.of_nat (n / 64)) by lia. reflexivity.
  - apply (IH (S n)).
Qed.
Lemma ks_first key iv : length (chacha_block key 0 iv) = 64%nat -> ks_xor (chacha20 key 0 iv) 0 (zeros 64) = chacha_block key 0 iv.
Proof.
  intros H. apply (nth_ext _ _ 0 0); [rewrite ks_xor_length, H; reflexivity|].
  intros n Hn. rewrite ks_xor_length in Hn. change (length (zeros 64)) with 64%nat in Hn.
  assert (G : forall l m n, (n < length l)%nat -> nth n (ks_xor (chacha20 key 0 iv) m l) 0 = Z.lxor (nth n l 0) (chacha20 key 0 iv (m + n))).
  { induction l as [|c l IH]; intros m k Hk; [cbn in Hk; lia|]. rewrite ks_xor_cons. destruct k as [|k].
    - cbn [nth]. rewrite Nat.add_0_r. reflexivity.
    - cbn [nth]. cbn [length] in Hk. rewrite IH by lia. do 2 f_equal. lia. }
  rewrite G by exact Hn. unfold zeros at 1. rewrite nth_repeat, Z.lxor_0_l. unfold chacha20.
  rewrite Nat.add_0_l, Nat.mod_small, Nat.div_small by lia. reflexivity.
Qed.
Lemma poly_key_prefix k msg : poly1305 k msg = poly1305 (firstn 32 k) msg.
Proof.
  unfold poly1305, poly_r, poly_s.
  replace (sub (firstn 32 k) 0 16) with (sub k 0 16) by (unfold sub; cbn [Z.to_nat skipn]; rewrite firstn_firstn; reflexivity).
  replace (sub (firstn 32 k) 16 16) with (sub k 16 16); [reflexivity|].
  unfold sub. rewrite skipn_firstn_comm, firstn_firstn. reflexivity.
Qed.

Section Obj.
Variable fresh : Z -> bytes.
Hypothesis fresh_len : forall n, 0 <= n -> zlen (fresh n) = n.
Variables (P : poly_impl) (O : poly_ok P).
Variables (key iv header : bytes).
Hypothesis Hkey : zlen key = 16 \/ zlen key = 32.
Hypothesis Hiv : zlen iv = 8 \/ zlen iv = 12.
Hypothesis Bkey : bytes_ok key.
Hypothesis Biv : bytes_ok iv.
Hypothesis Bheader : bytes_ok header.
Notation C := chacha20_class.
Notation ks0 := (chacha20 key 0 iv).
Notation ks1 := (chacha20 key 1 iv).
Notation pkey := (chacha_block key 0 iv).

Lemma cpa : chacha_args (Some iv) 0 key.
Proof. split; [exact Hkey|]. split; [destruct Hiv; [left|right]; cbn; lia|]. split; assumption. Qed.
Lemma ks0_byte n : byte_ok (ks0 n).
Proof. exact (cc_Q (Some iv) 0 key cpa n). Qed.
Lemma ks1_byte n : byte_ok (ks1 n).
Proof.
  pose proof (ks0_byte (64 + n)) as H. replace (ks1 n) with (ks0 (64 + n)); [exact H|].
  pose proof (ks_xor_shift key iv n [0]) as E. rewrite !ks_xor_cons in E. injection E as E. exact E.
Qed.

Lemma update_rel c msg buf ofs len : poly_rel P O pkey c msg -> 0 <= len -> 0 <= ofs <= zlen buf - len -> bytes_ok (sub buf ofs len) ->
  exists c', poly1305_update P c buf ofs len = (c', Ret tt) /\ poly_rel P O pkey c' (msg ++ sub buf ofs len).
Proof.
  intros R H1 H2 H3. unfold poly1305_update. replace (in_range buf ofs len) with true by (symmetry; apply in_range_true; lia).
  destruct (update_ok P O pkey c msg (sub buf ofs len) R H3) as (c' & -> & R'). exists c'. auto.
Qed.
Lemma pad_rel c msg x : poly_rel P O pkey c (msg ++ x) -> exists c', poly1305_update_pad P c (Z.land (zlen x) 15) = (c', Ret tt) /\ poly_rel P O pkey c' (msg ++ pad16 x).
Proof.
  intros R. unfold poly1305_update_pad. pose proof (zlen_nonneg x) as Hx.
  assert (E : Z.land (16 - Z.land (zlen x) 15) 15 = (- zlen x) mod 16).
  { change 15 with (Z.ones 4). rewrite !Z.land_ones by lia. change (2 ^ 4) with 16. lia. }
  rewrite E. unfold pad16. rewrite app_assoc. set (n := (- zlen x) mod 16). assert (Hn : 0 <= n < 16) by (unfold n; lia). clearbody n.
  destruct (n >? 0) eqn:En.
  - destruct (update_rel c (msg ++ x) (zeros n) 0 n R ltac:(lia)) as (c' & E1 & R1); [rewrite zlen_zeros by lia; lia|apply bytes_ok_sub, bytes_ok_zeros|].
    rewrite sub_0_all in R1 by (symmetry; apply zlen_zeros; lia). exists c'. auto.
  - replace n with 0 by lia. exists c. rewrite app_nil_r. auto.
Qed.

Definition cprel (m : cpst P C) (T : bytes) : Prop :=
  cc_rel key 0 iv (cp_cha m) (64 + length T) /\ poly_rel P O pkey (cp_h m) (pad16 header ++ T) /\ cp_clen m = zlen T mod 2 ^ 64.

Lemma max_63 : max_string_length < 2 ^ 58. Proof. reflexivity. Qed.

(* the limits of the two IV lengths *)
Definition cp_lim : option Z := if zlen iv =? 12 then Some 0x4000000000 else None.
Definition cp_maxlen : Z := if zlen iv =? 12 then 0x4000000000 else 2 ^ 63 - 1.

Lemma limit_ok T len : too_long true cp_lim T = false -> 0 <= T -> 0 <= len <= max_string_length ->
  (signed64 ((T + len) mod 2 ^ 64) >? cp_maxlen) = too_long true cp_lim (T + len).
Proof.
  unfold too_long, cp_lim, cp_maxlen. destruct (zlen iv =? 12); cbn [andb]; intros H1 H2 H3.
  - pose proof max_63. rewrite signed64_small; [reflexivity|]. split; [lia|]. clear - H1 H3 H. change (2 ^ 63) with (32 * 2 ^ 58). change (0x4000000000) with (2 ^ 38) in H1. assert (2 ^ 38 < 2 ^ 58) by reflexivity. lia.
  - pose proof (Z.mod_pos_bound (T + len) (2 ^ 64) ltac:(lia)) as B. remember ((T + len) mod 2 ^ 64) as z. clear Heqz. unfold signed64. destruct (z <? 2 ^ 63) eqn:E; [|change (2 ^ 64) with (2 * 2 ^ 63) in *]; lia.
Qed.

Lemma cha_ok c (T : bytes) src so dst d len : cc_rel key 0 iv c (64 + length T) -> 0 <= len -> 0 <= so <= zlen src - len -> 0 <= d <= zlen dst - len -> bytes_ok (sub src so len) ->
  exists c', sc_transform C c src so dst d len = ((c', splice dst d (ks_xor ks1 (length T) (sub src so len))), Ret tt) /\
    cc_rel key 0 iv c' (64 + length T + length (sub src so len)).
Proof.
  intros R H1 H2 H3 H4. unfold chacha20_class, raw_stream. cbn [sc_transform].
  replace ((len <? 0) || (so <? 0) || (so >? zlen src - len) || (d <? 0) || (d >? zlen dst - len)) with false by lia.
  destruct (cc_P (Some iv) 0 key cpa c _ (sub src so len) R H4) as (c' & E & R'). cbn [iv_of] in *. rewrite E. exists c'. rewrite ks_xor_shift. auto.
Qed.

Lemma clen_add (T x : bytes) : ((zlen T mod 2 ^ 64) + zlen x) mod 2 ^ 64 = zlen (T ++ x) mod 2 ^ 64.
Proof. rewrite zlen_app. apply Z.add_mod_idemp_l. discriminate. Qed.

Lemma enc_ok k (T : bytes) src so dst d len : cprel k T /\ cpOK true cp_lim T -> 0 <= len <= max_string_length -> 0 <= so <= zlen src - len -> 0 <= d <= zlen dst - len ->
  bytes_ok (sub src so len) ->
  match m_run (cp_mealy ks1 true cp_lim) T (sub src so len) with
  | (T', o, None) => exists k', sc_transform (chapoly_enc P C cp_maxlen) k src so dst d len = ((k', splice dst d o), Ret tt) /\ (cprel k' T' /\ cpOK true cp_lim T') /\ zlen o = len /\ bytes_ok o
  | (_, _, Some e) => snd (sc_transform (chapoly_enc P C cp_maxlen) k src so dst d len) = Raise e
  end.
Proof.
  intros ((R1 & R2 & R3) & (B1 & B2)) H1 H2 H3 H4. destruct k as [c h n]. cbn [cp_cha cp_h cp_clen] in *.
  set (l := sub src so len) in *. assert (Hl : zlen l = len) by (unfold l; apply zlen_sub; lia).
  destruct (cha_ok c T src so dst d len R1 ltac:(lia) H2 H3 H4) as (c' & E1 & R1'). fold l in E1, R1'. set (x := ks_xor ks1 (length T) l) in *.
  assert (Lx : zlen x = len) by (unfold x; rewrite ks_xor_zlen; exact Hl). assert (Bx : bytes_ok x) by (apply ks_xor_ok; [exact ks1_byte|exact H4]).
  assert (Sx : sub (splice dst d x) d len = x) by (apply sub_splice_same; lia).
  destruct (update_rel h (pad16 header ++ T) (splice dst d x) d len R2 ltac:(lia)) as (h' & E2 & R2'); [rewrite zlen_splice; lia|rewrite Sx; exact Bx|]. rewrite Sx in R2'.
  cbn [chapoly_enc sc_transform]. unfold cp_transform. cbn [fst snd cp_cha cp_h cp_clen]. rewrite E1. cbn [bind fst snd]. unfold cp_update. cbn [fst snd cp_cha cp_h cp_clen]. rewrite E2. cbn [bind fst snd]. unfold cp_add. cbn [fst snd cp_cha cp_h cp_clen].
  assert (En : (n + len) mod 2 ^ 64 = (zlen T + len) mod 2 ^ 64) by (rewrite R3; apply Z.add_mod_idemp_l; discriminate). rewrite En.
  rewrite limit_ok by (try assumption; apply zlen_nonneg).
  pose proof (cp_run ks1 true cp_lim l T B2) as RR. rewrite Hl in RR. destruct (too_long true cp_lim (zlen T + len)) eqn:Et.
  - destruct (m_run (cp_mealy ks1 true cp_lim) T l) as [[s o] e]. unfold r_exn in RR. cbn [fst snd] in RR. subst e. reflexivity.
  - rewrite RR. fold x. eexists. split; [reflexivity|]. split; [|split; assumption]. split.
    + split; [|split].
      * cbn [cp_cha]. rewrite app_length. replace (length x) with (length l) by (unfold zlen in *; lia). rewrite Nat.add_assoc. exact R1'.
      * cbn [cp_h]. rewrite app_assoc. exact R2'.
      * cbn [cp_clen]. rewrite zlen_app, Lx. reflexivity.
    + split; [apply bytes_ok_app; split; assumption|]. rewrite zlen_app, Lx. exact Et.
Qed.
Lemma dec_ok k (T : bytes) src so dst d len : cprel k T /\ cpOK false cp_lim T -> 0 <= len <= max_string_length -> 0 <= so <= zlen src - len -> 0 <= d <= zlen dst - len ->
  bytes_ok (sub src so len) ->
  match m_run (cp_mealy ks1 false cp_lim) T (sub src so len) with
  | (T', o, None) => exists k', sc_transform (chapoly_dec P C) k src so dst d len = ((k', splice dst d o), Ret tt) /\ (cprel k' T' /\ cpOK false cp_lim T') /\ zlen o = len /\ bytes_ok o
  | (_, _, Some e) => snd (sc_transform (chapoly_dec P C) k src so dst d len) = Raise e
  end.
Proof.
  intros ((R1 & R2 & R3) & (B1 & B2)) H1 H2 H3 H4. destruct k as [c h n]. cbn [cp_cha cp_h cp_clen] in *.
  set (l := sub src so len) in *. assert (Hl : zlen l = len) by (unfold l; apply zlen_sub; lia).
  destruct (cha_ok c T src so dst d len R1 ltac:(lia) H2 H3 H4) as (c' & E1 & R1'). fold l in E1, R1'. set (x := ks_xor ks1 (length T) l) in *.
  assert (Lx : zlen x = len) by (unfold x; rewrite ks_xor_zlen; exact Hl). assert (Bx : bytes_ok x) by (apply ks_xor_ok; [exact ks1_byte|exact H4]).
  destruct (update_rel h (pad16 header ++ T) src so len R2 ltac:(lia) H2 H4) as (h' & E2 & R2'). fold l in R2'.
  cbn [chapoly_dec sc_transform]. unfold cp_update. cbn [fst snd cp_cha cp_h cp_clen]. rewrite E2. cbn [bind fst snd]. unfold cp_transform. cbn [fst snd cp_cha cp_h cp_clen]. rewrite E1. cbn [bind fst snd]. unfold cp_add. cbn [fst snd cp_cha cp_h cp_clen].
  pose proof (cp_run ks1 false cp_lim l T B2) as RR. cbn [too_long andb] in RR. change (too_long false cp_lim (zlen T + zlen l)) with false in RR. cbn iota in RR. rewrite RR. fold x.
  eexists. split; [reflexivity|]. split; [|split; assumption]. split.
  - split; [|split].
    + cbn [cp_cha]. rewrite app_length, Nat.add_assoc. exact R1'.
    + cbn [cp_h]. rewrite app_assoc. exact R2'.
    + cbn [cp_clen]. rewrite R3, <- Hl. apply clen_add.
  - split; [apply bytes_ok_app; split; assumption|reflexivity].
Qed.

Definition cp_tag (T : bytes) : bytes := poly1305 pkey (pad16 header ++ pad16 T ++ to_le 8 (zlen header mod 2 ^ 64) ++ to_le 8 (zlen T mod 2 ^ 64)).
Lemma set_two_le fr a b : zlen fr = 16 ->
  (olet buf := set_int64_le fr 0 a in set_int64_le buf 8 b) = Ret (to_le 8 (a mod 2 ^ 64) ++ to_le 8 (b mod 2 ^ 64)).
Proof.
  intros Hf. unfold set_int64_le. replace (in_range fr 0 8) with true by (symmetry; apply in_range_true; lia). cbn [obind].
  set (x := to_le 8 (a mod 2 ^ 64)). set (y := to_le 8 (b mod 2 ^ 64)).
  assert (Hx : zlen x = 8) by apply zlen_to_le. assert (Hy : zlen y = 8) by apply zlen_to_le.
  replace (in_range (splice fr 0 x) 8 8) with true by (symmetry; apply in_range_true; rewrite zlen_splice; lia).
  f_equal. unfold splice. cbn [Z.to_nat firstn app]. unfold zlen in *.
  rewrite firstn_app, firstn_all2 by lia. replace (Pos.to_nat 8 - length x)%nat with 0%nat by lia. cbn [firstn]. rewrite app_nil_r.
  f_equal. rewrite skipn_all2; [apply app_nil_r|]. rewrite app_length, skipn_length. lia.
Qed.
Lemma tag_ok h T : poly_rel P O pkey h (pad16 header ++ T) -> exists h', poly1305_finish_and_get_tag fresh P h (zlen header) (zlen T mod 2 ^ 64) = (h', Ret (cp_tag T)).
Proof.
  intros R. unfold poly1305_finish_and_get_tag.
  assert (E : Z.land (zlen T mod 2 ^ 64) 15 = Z.land (zlen T) 15).
  { change 15 with (Z.ones 4). rewrite !Z.land_ones by lia. change (2 ^ 64) with (2 ^ 4 * 2 ^ 60). rewrite Z.rem_mul_r by lia. rewrite Z.mul_comm, Z_mod_plus_full. apply Z.mod_mod. lia. }
  rewrite E. destruct (pad_rel h (pad16 header) T R) as (h1 & -> & R1). cbn [bind].
  pose proof (set_two_le (fresh 16) (zlen header) (zlen T mod 2 ^ 64) ltac:(apply fresh_len; lia)) as Hs.
  destruct (set_int64_le (fresh 16) 0 (zlen header)) as [b0| | |]; cbn [obind] in Hs; try discriminate. cbn [bind]. rewrite Hs. cbn [bind]. rewrite Z.mod_mod by lia.
  set (B := to_le 8 (zlen header mod 2 ^ 64) ++ to_le 8 (zlen T mod 2 ^ 64)).
  assert (HB : zlen B = 16) by (unfold B; rewrite zlen_app, !zlen_to_le; reflexivity).
  assert (HBb : bytes_ok B) by (apply bytes_ok_app; split; apply bytes_ok_to_le).
  destruct (update_rel h1 _ B 0 16 R1 ltac:(lia) ltac:(lia)) as (h2 & -> & R2); [apply bytes_ok_sub, HBb|]. cbn [bind]. rewrite sub_0_all in R2 by (symmetry; exact HB).
  pose proof (finish_ok P O pkey h2 _ R2) as F. unfold poly1305_final. destruct (poly_finish P h2) as [h3 r]. cbn [snd] in F. subst r. exists h3. unfold cp_tag. fold B. rewrite <- app_assoc. reflexivity.
Qed.

Lemma init_ok : exists c h, poly1305_init_hash fresh P C (chacha20_init fresh key iv 0) header = (c, Ret h) /\ cprel (CP c h 0) [].
Proof.
  unfold poly1305_init_hash. pose proof (cc_rel_0 fresh (Some iv) 0 key cpa) as R. cbn [iv_of] in R.
  unfold chacha20_class, raw_stream. cbn [sc_transform]. rewrite (zlen_zeros 64) by lia.
  change ((64 <? 0) || (0 <? 0) || (0 >? 64 - 64) || (0 <? 0) || (0 >? 64 - 64)) with false. cbn iota.
  rewrite (sub_0_all (zeros 64) 64) by (symmetry; apply zlen_zeros; lia).
  destruct (cc_P (Some iv) 0 key cpa _ _ (zeros 64) R (bytes_ok_zeros 64)) as (c1 & E1 & R1). cbn [iv_of] in E1, R1. rewrite E1. cbn [fst snd bind].
  destruct (args_key _ _ _ cpa) as (K1 & K2). cbn [iv_of] in K2. destruct (block_length key 0 iv K1 K2) as (BL & BB).
  rewrite ks_first by exact BL. rewrite splice_all by (rewrite zlen_zeros by lia; unfold zlen; rewrite BL; reflexivity).
  destruct (rel_init P O pkey fresh) as (h0 & E2 & R2); [unfold zlen; rewrite BL; lia|exact BB|apply fresh_len; lia|]. rewrite E2. cbn [bind fst snd].
  pose proof (zlen_nonneg header) as Hh.
  destruct (update_rel h0 [] header 0 (zlen header) R2 ltac:(lia) ltac:(lia)) as (h1 & E3 & R3); [apply bytes_ok_sub, Bheader|]. rewrite E3. cbn [bind fst snd]. rewrite sub_0_all in R3 by reflexivity.
  destruct (pad_rel h1 [] header R3) as (h2 & E4 & R4). rewrite E4. cbn [bind fst snd].
  exists c1, h2. split; [reflexivity|]. split; [exact R1|]. split; [|reflexivity]. cbn [cp_h]. rewrite app_nil_r. exact R4.
Qed.
End Obj.

(* the transform and tag of a whole message *)
Definition aead_res (key iv A : bytes) (d : dir) (msg : bytes) : out (bytes * bytes) :=
  match d with
  | Encrypt => if (zlen iv =? 12) && (zlen msg >? 2 ^ 38) then Raise (Error Message_too_long)
               else Ret (aead_C key iv msg, aead_T key iv A (aead_C key iv msg))
  | Decrypt => Ret (aead_C key iv msg, aead_T key iv A msg)
  end.

Lemma chapoly_lawful_full (fresh : Z -> bytes) P (O : poly_ok P) header iv key d : (forall n, 0 <= n -> zlen (fresh n) = n) ->
  zlen key = 16 \/ zlen key = 32 -> zlen iv = 8 \/ zlen iv = 12 -> bytes_ok key -> bytes_ok iv -> bytes_ok header -> zlen header < 2 ^ 64 ->
  exists o M Fin sg, chacha20_poly1305 fresh P header iv key d = Ret o /\ a_tag_size (ao_class o) = 16 /\ auth_lawful true o M Fin sg 1 0 /\
    (forall msg, zlen msg < 2 ^ 64 -> auth_result M Fin sg msg = aead_res key iv header d msg) /\
    (d = Decrypt -> forall msg, exists s', m_run M sg msg = (s', aead_C key iv msg, None)).
Proof.
  intros Hfresh Hk Hi Bk Bi Bh Lh. unfold chacha20_poly1305.
  pose proof (new_chacha20_ok fresh (Some iv) 0 key (cpa key iv Hk Hi Bk Bi)) as En. rewrite En. cbn [obind so_sc so_st].
  destruct (init_ok fresh Hfresh P O key iv header Hk Hi Bk Bi Bh) as (c & h & E & R). cbn [iv_of]. rewrite E. cbn [fst snd obind].
  set (enc := match d with Encrypt => true | Decrypt => false end).
  set (M := cp_mealy (chacha20 key 1 iv) enc (cp_lim iv)).
  set (Fin := fun T : m_st M => Ret (@nil Z, cp_tag key iv header T)).
  change (if zlen iv =? 12 then 0x4000000000 else 2 ^ 63 - 1) with (cp_maxlen iv).
  assert (Res : forall msg, zlen msg < 2 ^ 64 -> auth_result M Fin [] msg = aead_res key iv header d msg).
  { intros msg Hm. unfold auth_result. pose proof (zlen_nonneg msg) as Hmn. pose proof (zlen_nonneg header) as Hhn.
    assert (T0 : too_long enc (cp_lim iv) (zlen (@nil Z)) = false) by (unfold too_long, cp_lim; change (zlen (@nil Z)) with 0; destruct enc, (zlen iv =? 12); reflexivity).
    pose proof (cp_run (chacha20 key 1 iv) enc (cp_lim iv) msg [] T0) as RR. fold M in RR. change (zlen (@nil Z) + zlen msg) with (zlen msg) in RR.
    assert (TL : too_long enc (cp_lim iv) (zlen msg) = match d with Encrypt => (zlen iv =? 12) && (zlen msg >? 2 ^ 38) | Decrypt => false end).
    { unfold too_long, cp_lim, enc. destruct d; cbn [andb]; [|reflexivity]. destruct (zlen iv =? 12); reflexivity. }
    assert (TG : forall T : bytes, zlen T < 2 ^ 64 -> cp_tag key iv header T = aead_T key iv header T).
    { intros T HT. pose proof (zlen_nonneg T). unfold cp_tag, aead_T, aead_key. rewrite <- poly_key_prefix. rewrite !Z.mod_small by lia. reflexivity. }
    destruct (too_long enc (cp_lim iv) (zlen msg)).
    - destruct (m_run M [] msg) as [[s o] e]. unfold r_exn in RR. cbn [snd] in RR. subst e. unfold aead_res. destruct d; [|discriminate]. rewrite <- TL. reflexivity.
    - rewrite RR. cbn [length app]. unfold Fin. cbn [obind fst snd]. rewrite app_nil_r. unfold aead_res, enc, aead_C.
      destruct d; [rewrite <- TL|]; cbn iota; rewrite TG; try reflexivity; [rewrite ks_xor_zlen|]; exact Hm. }
  assert (Rel : enc = false -> forall msg, exists s', m_run M [] msg = (s', aead_C key iv msg, None)).
  { intros He msg. pose proof (cp_run (chacha20 key 1 iv) enc (cp_lim iv) msg [] ltac:(rewrite He; reflexivity)) as RR. fold M in RR.
    replace (too_long enc (cp_lim iv) (zlen (@nil Z) + zlen msg)) with false in RR by (rewrite He; reflexivity). rewrite RR. eexists. reflexivity. }
  assert (Fin_ok : forall W (get : sc_st W -> cpst P chacha20_class) put (T : bytes) q (s : sct W), cprel P O key iv header (get (sct_c W s)) T -> bo_inv (sct_bo W s) -> bo_contents (sct_bo W s) = q ->
    exists s1 s2 s3 s4, chapoly_finish fresh P chacha20_class W get put (zlen header) s = (s1, Ret (cp_tag key iv header T)) /\
      t_get_string (stream_transform fresh W) s1 = (s2, Ret (q ++ [])) /\ t_wipe (stream_transform fresh W) s2 = (s3, Ret tt) /\ t_wipe (stream_transform fresh W) s1 = (s4, Ret tt)).
  { intros W get put T q s (R1 & R2 & R3) Hbo Hq. unfold chapoly_finish. rewrite R3.
    destruct (tag_ok fresh Hfresh P O key iv header (cp_h (get (sct_c W s))) T R2) as (h' & Et). rewrite Et. cbn [fst snd].
    destruct (bo_get_string_ok _ Hbo) as (b' & Eb & _). 
    do 4 eexists. split; [reflexivity|]. cbn [stream_transform t_get_string t_wipe]. unfold sct_bo_op. cbn [sct_bo sct_c sct_buf]. rewrite Eb, Hq, app_nil_r. cbn [fst snd].
    split; [reflexivity|]. split; reflexivity. }
  assert (New : forall W (st : sc_st W) (rel : sc_st W -> m_st M -> Prop), rel st [] -> sgR W M rel (stream_new fresh W st) [] []).
  { intros W st rel Hr. unfold sgR, stream_new. cbn [sct_c sct_buf sct_bo]. split; [exact Hr|]. split; [apply Hfresh; lia|].
    split; [apply (bo_new_inv fresh Hfresh); unfold max_string_length; lia|]. split; [reflexivity|constructor]. }
  assert (OK0 : cpOK enc (cp_lim iv) []).
  { split; [constructor|]. unfold too_long, cp_lim. change (zlen (@nil Z)) with 0. destruct enc, (zlen iv =? 12); reflexivity. }
  pose proof (cp_growth (chacha20 key 1 iv) enc (cp_lim iv) (ks1_byte key iv Hk Hi Bk Bi)) as G. fold M in G.
  destruct d.
  - set (W := chapoly_enc P chacha20_class (cp_maxlen iv)).
    pose proof (sg_implements fresh Hfresh W M (fun k T => cprel P O key iv header k T /\ cpOK true (cp_lim iv) T) (enc_ok fresh Hfresh P O key iv header Hk Hi Bk Bi) (fun sg => conj eq_refl eq_refl)) as I.
    eexists _, M, Fin, []. split; [reflexivity|]. split; [reflexivity|]. split; [|split; [exact Res|discriminate]].
    exists (sg_fits M), (sgR W M (fun k T => cprel P O key iv header k T /\ cpOK true (cp_lim iv) T)), (cpOK enc (cp_lim iv)).
    split; [|split; [exact G|split; [apply New; split; assumption|exact OK0]]]. constructor.
    + destruct I. constructor; cbn [data_fits f_put f_flush f_finish]; try assumption; intros; try contradiction. eexists; reflexivity.
    + intros s sg q (H0 & H1 & H2 & H3 & H4) _. apply Fin_ok; try assumption. apply H0.
  - set (W := chapoly_dec P chacha20_class).
    pose proof (sg_implements fresh Hfresh W M (fun k T => cprel P O key iv header k T /\ cpOK false (cp_lim iv) T) (dec_ok fresh Hfresh P O key iv header Hk Hi Bk Bi) (fun sg => conj eq_refl eq_refl)) as I.
    eexists _, M, Fin, []. split; [reflexivity|]. split; [reflexivity|]. split; [|split; [exact Res|intros _; exact (Rel eq_refl)]].
    exists (sg_fits M), (sgR W M (fun k T => cprel P O key iv header k T /\ cpOK false (cp_lim iv) T)), (cpOK enc (cp_lim iv)).
    split; [|split; [exact G|split; [apply New; split; assumption|exact OK0]]]. constructor.
    + destruct I. constructor; cbn [data_fits f_put f_flush f_finish]; try assumption; intros; try contradiction. eexists; reflexivity.
    + intros s sg q (H0 & H1 & H2 & H3 & H4) _. apply Fin_ok; try assumption. apply H0.
Qed.
Lemma chapoly_lawful (fresh : Z -> bytes) P (O : poly_ok P) header iv key d : (forall n, 0 <= n -> zlen (fresh n) = n) ->
  zlen key = 16 \/ zlen key = 32 -> zlen iv = 8 \/ zlen iv = 12 -> bytes_ok key -> bytes_ok iv -> bytes_ok header -> zlen header < 2 ^ 64 ->
  exists o M Fin sg, chacha20_poly1305 fresh P header iv key d = Ret o /\ a_tag_size (ao_class o) = 16 /\ auth_lawful true o M Fin sg 1 0 /\
    forall msg, zlen msg < 2 ^ 64 -> auth_result M Fin sg msg = aead_res key iv header d msg.
Proof.
  intros. destruct (chapoly_lawful_full fresh P O header iv key d) as (o & M & Fin & sg & Q0 & Q1 & Q2 & Q3 & _); try assumption. exists o, M, Fin, sg. auto.
Qed.
