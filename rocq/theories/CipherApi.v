(* Whole-message and history theorems for the Cipher entry points. *)
From Verif Require Import Prelude PreludeFacts BytesNum SpecTransducer SpecBlock SpecModes
  SpecModesFacts SpecPadding Padding TransformModel Transform TransformTotal BlockModel BlockCipher BlockTotal BlockFits
  Modes CipherModel CipherSpec CipherFacts.
Ltac Zify.zify_post_hook ::= Z.div_mod_to_equations.

(* the function applied to blocks: the inverse cipher only for ECB and CBC
   decryption *)
Definition mode_fun (E D : bytes -> bytes) (m : chaining_mode) (d : dir) : bytes -> bytes :=
  match m, d with ECB, Decrypt | CBC, Decrypt => D | _, _ => E end.

(* [nb] is a pair of block cipher classes: for this key they can be created,
   compute E and D on blocks of bs bytes, and D inverts E *)
Record block_family (nb : dir -> bytes -> out bobj) (key : bytes) (bs : Z) (E D : bytes -> bytes) : Prop := {
  fam_bs : 0 < bs < 2 ^ 50;
  fam_new : forall d, exists c gd, nb d key = Ret c /\ bc_blocksize (b_bc c) = bs /\
    bc_implements (b_bc c) (ecb_fn (match d with Encrypt => E | Decrypt => D end)) (fun s _ => gd s) /\ gd (b_st c);
  fam_len : forall b, zlen b = bs -> bytes_ok b -> zlen (E b) = bs /\ bytes_ok (E b);
  fam_inv : forall b, zlen b = bs -> bytes_ok b -> D (E b) = b }.

Definition dmode (m : option chaining_mode) : chaining_mode := match m with Some m => m | None => CBC end.
Definition blocks_ok (bs : Z) (X : list bytes) : Prop := Forall (fun b => zlen b = bs /\ bytes_ok b) X.

Lemma blocks_ok_len bs X : blocks_ok bs X -> Forall (fun b => zlen b = bs) X.
Proof. apply Forall_impl. tauto. Qed.
Lemma blocks_ok_concat bs X : blocks_ok bs X -> bytes_ok (concat X).
Proof.
  induction X as [|x X IH]; intros H; [constructor|]. apply Forall_cons_iff in H. destruct H as ((_ & H1) & H2).
  cbn [concat]. apply bytes_ok_app. auto.
Qed.

Section Modes.
Variables (bs : Z) (bs_pos : 0 < bs).

Lemma iv_val_len m iv : iv_ok bs m iv -> m <> ECB -> zlen (iv_val bs iv) = bs /\ bytes_ok (iv_val bs iv).
Proof.
  intros H Hne. destruct iv as [v|]; cbn [iv_val iv_ok] in *.
  - destruct H as (H1 & [H2|H2]); [contradiction|]. auto.
  - split; [apply zlen_zeros; lia|apply bytes_ok_zeros].
Qed.

Lemma mode_run F m d iv X : mode_ok bs m -> (m <> ECB -> zlen iv = bs /\ bytes_ok iv) ->
  (within_limit bs m (zlen X) -> exists s Y, bf_run (mode_fn bs F m d) (mode_st0 bs F m d iv) X = (s, Some Y) /\
      mode_spec bs F m d iv X Y) /\
  (~ within_limit bs m (zlen X) -> snd (bf_run (mode_fn bs F m d) (mode_st0 bs F m d iv) X) = None).
Proof.
  intros Hm Hiv.
  assert (Hl : forall n, 1 <= ctr_limit n).
  { intros n. unfold ctr_limit. pose proof (Z.pow_pos_nonneg 256 (Z.of_nat (Nat.min n 8))). lia. }
  assert (Hc : forall n, 0 < n <= bs -> m <> ECB ->
    (zlen X <= ctr_limit (Z.to_nat n) - 1 -> exists s Y, bf_run (ctr_fn F (Z.to_nat n)) (iv, ctr_limit (Z.to_nat n)) X = (s, Some Y)
       /\ ctr_spec F (Z.to_nat n) iv X Y) /\
    (~ zlen X <= ctr_limit (Z.to_nat n) - 1 -> snd (bf_run (ctr_fn F (Z.to_nat n)) (iv, ctr_limit (Z.to_nat n)) X) = None)).
  { intros n Hn Hne. destruct (Hiv Hne) as (I1 & I2).
    destruct (ctr_run F (Z.to_nat n) X iv (ctr_limit (Z.to_nat n))) as (R1 & R2);
      [unfold zlen in I1; lia|exact I2|apply Hl|].
    split; intros; [|apply R2; lia]. destruct R1 as (C & R & S); [lia|]. eauto. }
  assert (Hs : forall (f : blockfn) s (P : list bytes -> Prop), (exists Y, snd (bf_run f s X) = Some Y /\ P Y) ->
    (True -> exists s' Y, bf_run f s X = (s', Some Y) /\ P Y) /\ (~ True -> snd (bf_run f s X) = None)).
  { intros f s P (Y & H1 & H2). split; [|tauto]. intros _. destruct (bf_run f s X) as [s' o]. cbn in H1. subst. eauto. }
  destruct m; unfold within_limit; cbn [mode_limit mode_fn mode_st0 mode_spec mode_ok] in *;
    try (destruct d; apply Hs; first [apply ecb_run|apply cbc_enc_run|apply cbc_dec_run|apply cfb_enc_run|apply cfb_dec_run|apply ofb_run]).
  - destruct d; apply Hc; (lia || discriminate).
  - destruct d; apply Hc; (lia || discriminate).
Qed.

Lemma mode_inverse E D m iv : mode_ok bs m -> (m <> ECB -> zlen iv = bs /\ bytes_ok iv) ->
  (forall b, zlen b = bs -> bytes_ok b -> zlen (E b) = bs /\ bytes_ok (E b)) ->
  (forall b, zlen b = bs -> bytes_ok b -> D (E b) = b) ->
  let Fe := mode_fun E D m Encrypt in
  let Fd := mode_fun E D m Decrypt in
  forall X s Y, blocks_ok (mode_bs bs m) X ->
  bf_run (mode_fn bs Fe m Encrypt) (mode_st0 bs Fe m Encrypt iv) X = (s, Some Y) ->
  exists t, bf_run (mode_fn bs Fd m Decrypt) (mode_st0 bs Fd m Decrypt iv) Y = (t, Some X).
Proof.
  intros Hm Hiv HE HD Fe Fd X s Y HX HR.
  set (ok b := zlen b = mode_bs bs m /\ bytes_ok b).
  set (okb b := zlen b = bs /\ bytes_ok b).
  assert (Hxl : forall a b : bytes, zlen a = zlen b -> length a = length b) by (unfold zlen; intros; lia).
  assert (Hfn : forall n b, 0 < n <= bs -> okb b -> zlen (firstn (Z.to_nat n) b) = n /\ bytes_ok (firstn (Z.to_nat n) b)).
  { intros n b Hn (B1 & B2). split; [unfold zlen in *; rewrite firstn_length; lia|apply Forall_firstn; exact B2]. }
  assert (Hsh : forall n a b, 0 < n <= bs -> okb a -> zlen b = n -> bytes_ok b -> okb (skipn (Z.to_nat n) a ++ b)).
  { intros n a b Hn (A1 & A2) B1 B2. split; [|apply bytes_ok_app; split; [apply Forall_skipn; exact A2|exact B2]].
    rewrite zlen_app. unfold zlen in *. rewrite skipn_length. lia. }
  assert (Hx : forall n a k, zlen a = n -> bytes_ok a -> zlen k = n -> bytes_ok k ->
     zlen (xorb a k) = n /\ bytes_ok (xorb a k) /\ xorb (xorb a k) k = a).
  { intros n a k A1 A2 K1 K2. split; [rewrite zlen_xorb; lia|]. split; [apply bytes_ok_xorb; assumption|].
    apply xorb_cancel, Hxl. lia. }
  assert (HcR : forall n (Rl := fun s t : bytes * Z => s = t /\ okb (fst s)), 0 < n <= bs ->
    forall s s' b c t, Rl s t -> okb b -> bf_step (ctr_fn E (Z.to_nat n)) s b = (s', Some c) ->
    exists t', bf_step (ctr_fn E (Z.to_nat n)) t c = (t', Some b) /\ Rl s' t').
  { intros n Rl Hn [t room] s' b c t' (<- & Ht) (B1 & B2) Hstep. cbn [ctr_fn bf_step fst] in *.
    destruct (room =? 1); [discriminate|]. injection Hstep as <- <-.
    destruct Ht as (T1 & T2). destruct (HE t T1 T2) as (E1 & E2).
    destruct (Hx bs b (E t) B1 B2 E1 E2) as (_ & _ & ->).
    eexists. split; [reflexivity|]. split; [reflexivity|]. cbn [fst].
    split; [rewrite (zlen_ctr_block E); [exact T1|unfold zlen in T1; lia]|apply bytes_ok_ctr_block; exact T2]. }
  destruct m as [| |n|n| |n]; cbn [mode_fn mode_st0 mode_bs mode_ok mode_fun] in *; unfold Fe, Fd in *.
  - destruct (bf_run_inverse (ecb_fn E) (ecb_fn D) (fun _ _ => True) ok) with (blks := X) (s := tt) (t := tt) (s' := s) (cs := Y)
      as (t' & Ht & _); [|exact I|exact HX|exact HR|exists t'; exact Ht].
    intros ? ? b c ? _ (B1 & B2) Hs. cbn in Hs |- *. injection Hs as <- <-.
    exists tt. rewrite HD by assumption. auto.
  - destruct (bf_run_inverse (cbc_enc_fn E) (cbc_dec_fn D) (fun s t => s = t /\ okb s) ok) with (blks := X) (s := iv) (t := iv) (s' := s) (cs := Y)
      as (t' & Ht & _); [|split; [reflexivity|apply Hiv; discriminate]|exact HX|exact HR|exists t'; exact Ht].
    intros s1 s2 b c ? (<- & (S1 & S2)) (B1 & B2) Hs. cbn in Hs |- *. injection Hs as <- <-.
    eexists. destruct (Hx bs b s1) as (X1 & X2 & X3); try assumption.
    rewrite HD by assumption. rewrite X3. split; [reflexivity|]. split; [reflexivity|]. apply HE; assumption.
  - destruct (bf_run_inverse (cfb_enc_fn E (Z.to_nat n)) (cfb_dec_fn E (Z.to_nat n)) (fun s t => s = t /\ okb s) ok) with (blks := X) (s := iv) (t := iv) (s' := s) (cs := Y)
      as (t' & Ht & _); [|split; [reflexivity|apply Hiv; discriminate]|exact HX|exact HR|exists t'; exact Ht].
    intros s1 s2 b c ? (<- & (S1 & S2)) (B1 & B2) Hs. cbn in Hs |- *. cbn [mode_bs] in B1. injection Hs as <- <-.
    eexists. destruct (Hfn n (E s1) Hm (HE s1 S1 S2)) as (F1 & F2).
    destruct (Hx n b (firstn (Z.to_nat n) (E s1))) as (X1 & X2 & X3); try assumption.
    rewrite X3. split; [reflexivity|]. split; [reflexivity|]. apply Hsh; try assumption. split; assumption.
  - destruct (bf_run_inverse (ofb_fn E (Z.to_nat n)) (ofb_fn E (Z.to_nat n)) (fun s t => s = t /\ okb s) ok) with (blks := X) (s := iv) (t := iv) (s' := s) (cs := Y)
      as (t' & Ht & _); [|split; [reflexivity|apply Hiv; discriminate]|exact HX|exact HR|exists t'; exact Ht].
    intros s1 s2 b c ? (<- & (S1 & S2)) (B1 & B2) Hs. cbn in Hs |- *. cbn [mode_bs] in B1. injection Hs as <- <-.
    eexists. destruct (Hfn n (E s1) Hm (HE s1 S1 S2)) as (F1 & F2).
    destruct (Hx n b (firstn (Z.to_nat n) (E s1))) as (X1 & X2 & X3); try assumption.
    rewrite X3. split; [reflexivity|]. split; [reflexivity|]. apply HE; assumption.
  - destruct (bf_run_inverse (ctr_fn E (Z.to_nat bs)) (ctr_fn E (Z.to_nat bs)) _ okb (HcR bs ltac:(lia))) with (blks := X)
      (s := (iv, ctr_limit (Z.to_nat bs))) (t := (iv, ctr_limit (Z.to_nat bs))) (s' := s) (cs := Y)
      as (t' & Ht & _); [split; [reflexivity|apply Hiv; discriminate]|exact HX|exact HR|exists t'; exact Ht].
  - destruct (bf_run_inverse (ctr_fn E (Z.to_nat n)) (ctr_fn E (Z.to_nat n)) _ okb (HcR n Hm)) with (blks := X)
      (s := (iv, ctr_limit (Z.to_nat n))) (t := (iv, ctr_limit (Z.to_nat n))) (s' := s) (cs := Y)
      as (t' & Ht & _); [split; [reflexivity|apply Hiv; discriminate]|exact HX|exact HR|exists t'; exact Ht].
Qed.
End Modes.

Section Api.
Variable fresh : Z -> bytes.
Hypothesis fresh_len : forall n, 0 <= n -> zlen (fresh n) = n.

Lemma make_cipher_ok nb key bs E D m p iv d : block_family nb key bs E D ->
  mode_ok bs (dmode m) -> iv_ok bs (dmode m) iv ->
  let F := mode_fun E D (dmode m) d in
  exists o, make_cipher fresh nb m (option_map scheme_of p) iv key d = Ret o /\
    behaves o (mode_bs bs (dmode m)) (mode_fn bs F (dmode m) d) (mode_st0 bs F (dmode m) d (iv_val bs iv))
      (fin_of (mode_bs bs (dmode m)) (mode_fn bs F (dmode m) d) p d).
Proof.
  intros [Hbs Hnew HE HD] Hm Hiv F. unfold make_cipher.
  destruct (Hnew (normalize_dir m d)) as (c & gd & Hc & Hcb & HC & Hg). rewrite Hc. cbn [obind].
  assert (HF : match normalize_dir m d with Encrypt => E | Decrypt => D end = F).
  { unfold F, mode_fun, normalize_dir, dmode. destruct m as [[| |n|n| |n]|]; destruct d; reflexivity. }
  rewrite HF in HC. rewrite <- Hcb in *.
  eapply (make_block_cipher_ok fresh fresh_len m p iv d c); eassumption.
Qed.

(* a data history, of any splitting, for the whole message [msg] *)
Definition history_of (msg : bytes) (ops : list op) : Prop :=
  Forall op_valid ops /\ forallb data_op ops = true /\ fed ops = msg.

Lemma behaves_result o bs f sg fin msg r : behaves o bs f sg fin -> 0 < bs -> bytes_ok msg ->
  zlen msg + 3 * bs <= max_string_length ->
  r_exn (m_total (block_mealy bs f fin) (sg, []) msg) = None ->
  r_out (m_total (block_mealy bs f fin) (sg, []) msg) = r ->
  run_string o msg = Ret r /\ (forall ops, history_of msg ops -> out_of o ops = r).
Proof.
  intros B Hbs Hok Hsz He <-. split.
  - pose proof (bh_string _ _ _ _ _ B msg Hok Hsz) as H.
    match type of H with match ?x with _ => _ end => change x with (r_exn (m_total (block_mealy bs f fin) (sg, []) msg)) in H end.
    rewrite He in H. exact H.
  - intros ops (H1 & H2 & <-). apply (behaves_out o bs f sg fin); assumption.
Qed.

Lemma behaves_raise o bs f sg fin msg e : behaves o bs f sg fin -> bytes_ok msg ->
  zlen msg + 3 * bs <= max_string_length ->
  r_exn (m_total (block_mealy bs f fin) (sg, []) msg) = Some e ->
  run_string o msg = Raise e.
Proof.
  intros B Hok Hsz He.
  pose proof (bh_string _ _ _ _ _ B msg Hok Hsz) as H.
  match type of H with match ?x with _ => _ end => change x with (r_exn (m_total (block_mealy bs f fin) (sg, []) msg)) in H end.
  rewrite He in H. exact H.
Qed.

Lemma mode_bs_pos bs m : 0 < bs -> mode_ok bs m -> 0 < mode_bs bs m.
Proof. destruct m; cbn; lia. Qed.

Lemma mode_spec_length bs F m d iv X Y : mode_spec bs F m d iv X Y -> length Y = length X.
Proof. destruct m, d; cbn; unfold ecb_spec, cbc_enc_spec, cbc_dec_spec, cfb_enc_spec, cfb_dec_spec, ofb_spec, ctr_spec; tauto. Qed.

(* sizes of the blocks of a run *)
Lemma behaves_sizes o bs f sg fin : behaves o bs f sg fin ->
  forall X s Y, blocks_ok bs X -> bf_run f sg X = (s, Some Y) -> blocks_ok bs Y.
Proof.
  intros B.
  assert (H : forall X sg0, (exists W, fst (bf_run f sg W) = sg0 /\ blocks_ok bs W /\ snd (bf_run f sg W) <> None) ->
     forall s Y, blocks_ok bs X -> bf_run f sg0 X = (s, Some Y) -> blocks_ok bs Y).
  { induction X as [|x X IH]; intros sg0 (W & HW & HWok & HWs) s Y HX Hr; cbn [bf_run] in Hr.
    - injection Hr as <- <-. constructor.
    - apply Forall_cons_iff in HX. destruct HX as ((X1 & X2) & X3).
      destruct (bf_step f sg0 x) as [s1 [o1|]] eqn:Es; [|discriminate].
      destruct (bf_run f s1 X) as [s2 [Y'|]] eqn:Er; [|discriminate]. injection Hr as <- <-.
      constructor.
      + eapply (bh_step _ _ _ _ _ B sg0 x o1 s1); try assumption. exists W. auto.
      + eapply (IH s1); try eassumption. exists (W ++ [x]). rewrite bf_run_app.
        destruct (bf_run f sg W) as [sw [ow|]]; cbn [fst snd] in *; [|congruence]. subst sw.
        cbn [bf_run]. rewrite Es. cbn [fst snd]. repeat split; [|discriminate].
        apply Forall_app. split; [exact HWok|]. repeat constructor; assumption. }
  intros X s Y HX Hr. eapply H; try eassumption. exists []. repeat split; [constructor|discriminate].
Qed.

(* C08 *)
Lemma cipher_computes_mode nb key bs E D m iv d X : block_family nb key bs E D ->
  mode_ok bs (dmode m) -> iv_ok bs (dmode m) iv ->
  blocks_ok (mode_bs bs (dmode m)) X ->
  zlen (concat X) + 3 * mode_bs bs (dmode m) <= max_string_length ->
  exists o, make_cipher fresh nb m None iv key d = Ret o /\
  (within_limit bs (dmode m) (zlen X) ->
   exists Y, mode_spec bs (mode_fun E D (dmode m) d) (dmode m) d (iv_val bs iv) X Y /\
     run_string o (concat X) = Ret (concat Y) /\
     (forall ops, history_of (concat X) ops -> out_of o ops = concat Y)) /\
  (~ within_limit bs (dmode m) (zlen X) -> run_string o (concat X) = Raise (Error Message_too_long)).
Proof.
  intros HF Hm Hiv HX Hsz.
  destruct (make_cipher_ok nb key bs E D m None iv d HF Hm Hiv) as (o & Ho & B). exists o. split; [exact Ho|].
  pose proof (fam_bs _ _ _ _ _ HF) as Hbs. pose proof (mode_bs_pos bs _ (proj1 Hbs) Hm) as Hbm.
  set (F := mode_fun E D (dmode m) d) in *.
  destruct (mode_run bs ltac:(lia) F (dmode m) d (iv_val bs iv) X Hm (fun Hne => iv_val_len bs ltac:(lia) _ iv Hiv Hne)) as (R1 & R2).
  pose proof (plain_total (mode_bs bs (dmode m)) (mode_fn bs F (dmode m) d) Hbm (mode_st0 bs F (dmode m) d (iv_val bs iv)) X (blocks_ok_len _ _ HX)) as Ht.
  replace (fin_of (mode_bs bs (dmode m)) (mode_fn bs F (dmode m) d) None d) with (block_flush (mode_bs bs (dmode m)) (mode_fn bs F (dmode m) d)) in B by (destruct d; reflexivity).
  split.
  - intros Hw. destruct (R1 Hw) as (s & Y & HR & HS). exists Y. split; [exact HS|].
    rewrite HR in Ht. apply (behaves_result _ _ _ _ _ _ _ B Hbm (blocks_ok_concat _ _ HX) Hsz);
      unfold plain_mealy in Ht; rewrite Ht; reflexivity.
  - intros Hw. specialize (R2 Hw).
    destruct (bf_run (mode_fn bs F (dmode m) d) (mode_st0 bs F (dmode m) d (iv_val bs iv)) X) as [s [Y|]]; [discriminate|].
    exact (behaves_raise _ _ _ _ _ _ _ B (blocks_ok_concat _ _ HX) Hsz Ht).
Qed.

(* messages as blocks *)
Lemma as_blocks n msg : 0 < n -> bytes_ok msg -> exists X tail, msg = concat X ++ tail /\ blocks_ok n X /\
  bytes_ok tail /\ zlen tail = zlen msg mod n /\ zlen X = zlen msg / n /\ zlen tail < n.
Proof.
  intros Hn Hok. destruct (split_blocks n msg Hn) as (X & tail & E & HX & Hl & Hm & Hk).
  destruct (Hk Hok) as (K1 & K2). exists X, tail. split; [exact E|]. split.
  - apply Forall_forall. intros b Hb. rewrite Forall_forall in HX, K1. auto.
  - repeat split; try assumption. rewrite E, zlen_app, (zlen_concat n X HX).
    pose proof (zlen_nonneg tail). rewrite Z.mul_comm, Z.div_add_l by lia. rewrite Z.div_small by lia. lia.
Qed.

(* C09 *)
Lemma decrypt_encrypt_plain nb key bs E D m iv msg : block_family nb key bs E D ->
  mode_ok bs (dmode m) -> iv_ok bs (dmode m) iv ->
  bytes_ok msg -> zlen msg + 3 * mode_bs bs (dmode m) <= max_string_length ->
  within_limit bs (dmode m) (zlen msg / mode_bs bs (dmode m)) ->
  exists oe od, make_cipher fresh nb m None iv key Encrypt = Ret oe /\
    make_cipher fresh nb m None iv key Decrypt = Ret od /\
  (zlen msg mod mode_bs bs (dmode m) = 0 ->
   exists c, run_string oe msg = Ret c /\ run_string od c = Ret msg /\ zlen c = zlen msg /\
     (forall ops, history_of msg ops -> out_of oe ops = c) /\
     (forall ops, history_of c ops -> out_of od ops = msg)) /\
  (zlen msg mod mode_bs bs (dmode m) <> 0 ->
   run_string oe msg = Raise (Error Wrong_data_length) /\ run_string od msg = Raise (Error Wrong_data_length)).
Proof.
  intros HF Hm Hiv Hok Hsz Hw.
  destruct (make_cipher_ok nb key bs E D m None iv Encrypt HF Hm Hiv) as (oe & Hoe & Be).
  destruct (make_cipher_ok nb key bs E D m None iv Decrypt HF Hm Hiv) as (od & Hod & Bd).
  exists oe, od. split; [exact Hoe|]. split; [exact Hod|].
  pose proof (fam_bs _ _ _ _ _ HF) as Hbs. pose proof (mode_bs_pos bs _ (proj1 Hbs) Hm) as Hbm.
  cbn [fin_of] in Be, Bd.
  set (m' := dmode m) in *. set (Fe := mode_fun E D m' Encrypt) in *. set (Fd := mode_fun E D m' Decrypt) in *.
  set (bm := mode_bs bs m') in *. set (ivv := iv_val bs iv) in *.
  assert (Hivl : m' <> ECB -> zlen ivv = bs /\ bytes_ok ivv) by (apply iv_val_len; [lia|exact Hiv]).
  destruct (as_blocks bm msg Hbm Hok) as (X & tail & Emsg & HX & Hto & Htl & HXl & Htb).
  rewrite <- HXl in Hw.
  split.
  - intros Hmod. assert (tail = []) as -> by (destruct tail; [reflexivity|unfold zlen in *; cbn [length] in *; lia]).
    rewrite app_nil_r in Emsg.
    destruct (proj1 (mode_run bs ltac:(lia) Fe m' Encrypt ivv X Hm Hivl) Hw) as (s & Y & HR & HS).
    pose proof (behaves_sizes _ _ _ _ _ Be X s Y HX HR) as HY.
    destruct (mode_inverse bs ltac:(lia) E D m' ivv Hm Hivl (fam_len _ _ _ _ _ HF) (fam_inv _ _ _ _ _ HF) X s Y HX HR) as (t & HRd).
    pose proof (mode_spec_length _ _ _ _ _ _ _ HS) as HYl.
    assert (Hzc : zlen (concat Y) = zlen msg).
    { rewrite Emsg, (zlen_concat bm Y (blocks_ok_len _ _ HY)), (zlen_concat bm X (blocks_ok_len _ _ HX)).
      unfold zlen. rewrite HYl. reflexivity. }
    exists (concat Y).
    pose proof (plain_total bm (mode_fn bs Fe m' Encrypt) Hbm (mode_st0 bs Fe m' Encrypt ivv) X (blocks_ok_len _ _ HX)) as Te.
    rewrite HR in Te. rewrite <- Emsg in Te.
    pose proof (plain_total bm (mode_fn bs Fd m' Decrypt) Hbm (mode_st0 bs Fd m' Decrypt ivv) Y (blocks_ok_len _ _ HY)) as Td.
    fold Fd in HRd. rewrite HRd in Td. unfold plain_mealy in Te, Td.
    assert (Hszc : zlen (concat Y) + 3 * bm <= max_string_length) by lia.
    destruct (behaves_result _ _ _ _ _ msg (concat Y) Be Hbm Hok Hsz) as (P1 & P2); [rewrite Te; reflexivity|rewrite Te; reflexivity|].
    destruct (behaves_result _ _ _ _ _ (concat Y) msg Bd Hbm (blocks_ok_concat _ _ HY) Hszc) as (Q1 & Q2);
      [rewrite Td; reflexivity|rewrite Td, Emsg; reflexivity|].
    repeat split; assumption.
  - intros Hmod. split.
    + destruct (proj1 (mode_run bs ltac:(lia) Fe m' Encrypt ivv X Hm Hivl) Hw) as (s & Y & HR & _).
      apply (behaves_raise _ _ _ _ _ _ _ Be Hok Hsz). rewrite Emsg.
      pose proof (plain_total_bad bm (mode_fn bs Fe m' Encrypt) Hbm (mode_st0 bs Fe m' Encrypt ivv) X tail (blocks_ok_len _ _ HX) ltac:(lia)) as T.
      rewrite HR in T. exact T.
    + destruct (proj1 (mode_run bs ltac:(lia) Fd m' Decrypt ivv X Hm Hivl) Hw) as (s & Y & HR & _).
      apply (behaves_raise _ _ _ _ _ _ _ Bd Hok Hsz). rewrite Emsg.
      pose proof (plain_total_bad bm (mode_fn bs Fd m' Decrypt) Hbm (mode_st0 bs Fd m' Decrypt ivv) X tail (blocks_ok_len _ _ HX) ltac:(lia)) as T.
      rewrite HR in T. exact T.
Qed.

(* C10 *)
Lemma decrypt_encrypt_padded nb key bs E D m p iv msg : block_family nb key bs E D ->
  mode_ok bs (dmode m) -> iv_ok bs (dmode m) iv -> pad_supports p (mode_bs bs (dmode m)) ->
  bytes_ok msg -> zlen msg + 4 * mode_bs bs (dmode m) <= max_string_length ->
  within_limit bs (dmode m) (zlen msg / mode_bs bs (dmode m) + 1) ->
  exists oe od c, make_cipher fresh nb m (Some (scheme_of p)) iv key Encrypt = Ret oe /\
    make_cipher fresh nb m (Some (scheme_of p)) iv key Decrypt = Ret od /\
    run_string oe msg = Ret c /\ run_string od c = Ret msg /\
    zlen c = (zlen msg / mode_bs bs (dmode m) + 1) * mode_bs bs (dmode m) /\
    (forall ops, history_of msg ops -> out_of oe ops = c) /\
    (forall ops, history_of c ops -> out_of od ops = msg).
Proof.
  intros HF Hm Hiv Hp Hok Hsz Hw.
  destruct (make_cipher_ok nb key bs E D m (Some p) iv Encrypt HF Hm Hiv) as (oe & Hoe & Be).
  destruct (make_cipher_ok nb key bs E D m (Some p) iv Decrypt HF Hm Hiv) as (od & Hod & Bd).
  exists oe, od.
  pose proof (fam_bs _ _ _ _ _ HF) as Hbs. pose proof (mode_bs_pos bs _ (proj1 Hbs) Hm) as Hbm.
  cbn [fin_of option_map] in Be, Bd, Hoe, Hod.
  set (m' := dmode m) in *. set (Fe := mode_fun E D m' Encrypt) in *. set (Fd := mode_fun E D m' Decrypt) in *.
  set (bm := mode_bs bs m') in *. set (ivv := iv_val bs iv) in *.
  assert (Hivl : m' <> ECB -> zlen ivv = bs /\ bytes_ok ivv) by (apply iv_val_len; [lia|exact Hiv]).
  destruct (as_blocks bm msg Hbm Hok) as (X & tail & Emsg & HX & Hto & Htl & HXl & Htb).
  pose proof (zlen_nonneg tail) as Htn.
  assert (Hpad : exists l, pad_fn p bm (zlen tail) = Some l /\ zlen tail + zlen l = bm /\ bytes_ok l /\ unpad_fn p (tail ++ l) = Some (zlen tail)).
  { pose proof (pad_fn_ok p bm (zeros bm) (zlen tail) ltac:(apply zlen_zeros; lia) ltac:(lia)) as H.
    destruct (pad_fn p bm (zlen tail)) as [l|] eqn:El.
    - exists l. destruct H as (_ & H1 & H2). repeat split; try assumption.
      destruct p; cbn [pad_fn unpad_fn] in *; [eapply length_roundtrip; [|exact El]; lia|eapply zeros_roundtrip; exact El].
    - destruct p; cbn [pad_fn pad_supports] in *; [|discriminate].
      unfold length_pad in El. replace ((0 <? bm - zlen tail) && (bm - zlen tail <? 256)) with true in El by lia. discriminate. }
  destruct Hpad as (l & Hl1 & Hl2 & Hl3 & Hl4).
  set (W := X ++ [tail ++ l]).
  assert (HW : blocks_ok bm W).
  { apply Forall_app. split; [exact HX|]. repeat constructor; [rewrite zlen_app; lia|apply bytes_ok_app; split; assumption]. }
  assert (HWl : zlen W = zlen msg / bm + 1) by (unfold W; rewrite zlen_app, HXl; reflexivity).
  rewrite <- HWl in Hw.
  destruct (proj1 (mode_run bs ltac:(lia) Fe m' Encrypt ivv W Hm Hivl) Hw) as (s & Y & HR & HS).
  pose proof (behaves_sizes _ _ _ _ _ Be W s Y HW HR) as HY.
  destruct (mode_inverse bs ltac:(lia) E D m' ivv Hm Hivl (fam_len _ _ _ _ _ HF) (fam_inv _ _ _ _ _ HF) W s Y HW HR) as (t & HRd).
  pose proof (mode_spec_length _ _ _ _ _ _ _ HS) as HYl.
  assert (Hzc : zlen (concat Y) = (zlen msg / bm + 1) * bm).
  { rewrite (zlen_concat bm Y (blocks_ok_len _ _ HY)), <- HWl. unfold zlen. rewrite HYl. lia. }
  exists (concat Y). split; [exact Hoe|]. split; [exact Hod|].
  pose proof (padenc_total bm (mode_fn bs Fe m' Encrypt) Hbm (pad_fn p bm) (mode_st0 bs Fe m' Encrypt ivv) X tail l (blocks_ok_len _ _ HX) Htb Hl1) as Te.
  fold W in Te. rewrite HR in Te. rewrite <- Emsg in Te. destruct Te as (Te1 & Te2).
  destruct (behaves_result _ _ _ _ _ msg (concat Y) Be Hbm Hok ltac:(lia) Te1 Te2) as (P1 & P2).
  assert (HYne : exists bl b, Y = bl ++ [b]).
  { destruct Y as [|y Y']; [unfold W in HYl; rewrite app_length in HYl; cbn [length] in HYl; lia|].
    destruct (@exists_last _ (y :: Y')) as (bl & b & Eq); [discriminate|]. eauto. }
  destruct HYne as (bl & b & EY). pose proof HY as HY'. rewrite EY in HY'. apply Forall_app in HY'. destruct HY' as (HY1 & HY2).
  apply Forall_cons_iff in HY2. destruct HY2 as ((Hb1 & Hb2) & _).
  fold Fd in HRd. rewrite EY in HRd. unfold W in HRd.
  pose proof (paddec_total bm (mode_fn bs Fd m' Decrypt) Hbm (unpad_fn p) (mode_st0 bs Fd m' Decrypt ivv) t bl b X (tail ++ l) (blocks_ok_len _ _ HY1) Hb1 HRd) as Td.
  cbn zeta in Td. rewrite Hl4 in Td. rewrite <- EY in Td. destruct Td as (Td1 & Td2).
  rewrite sub_app_l in Td2 by lia. rewrite sub_0_all in Td2 by reflexivity. rewrite <- Emsg in Td2.
  assert (Hszc : zlen (concat Y) + 3 * bm <= max_string_length) by lia.
  destruct (behaves_result _ _ _ _ _ (concat Y) msg Bd Hbm (blocks_ok_concat _ _ HY) Hszc Td1 Td2) as (Q1 & Q2).
  repeat split; assumption.
Qed.
End Api.
