(* Proofs about continuing a message with a second object. *)
From Verif Require Import Prelude PreludeFacts BytesNum SpecTransducer SpecBlock BlockTotal SpecModes SpecModesFacts TransformModel Transform BlockModel CipherModel CipherSpec CipherFacts CipherApi KeyStream EncModel EncApi SpecResume Spread.

Lemma bf_run_app f X : forall s X', bf_run f s (X ++ X') =
  match bf_run f s X with
  | (s1, Some Y) => match bf_run f s1 X' with (s2, Some Y') => (s2, Some (Y ++ Y')) | (s2, None) => (s2, None) end
  | (s1, None) => (s1, None)
  end.
Proof.
  induction X as [|x X IH]; intros s X'; cbn [app bf_run].
  - destruct (bf_run f s X') as [s2 [Y'|]]; reflexivity.
  - destruct (bf_step f s x) as [s1 [o|]]; [|reflexivity]. rewrite IH. destruct (bf_run f s1 X) as [s2 [Y|]]; [|reflexivity]. destruct (bf_run f s2 X') as [s3 [Y'|]]; reflexivity.
Qed.
Lemma bf_run_len f X : forall s s' Y, bf_run f s X = (s', Some Y) -> length Y = length X.
Proof.
  induction X as [|x X IH]; intros s s' Y; cbn [bf_run]; [intros H; injection H as <- <-; reflexivity|].
  destruct (bf_step f s x) as [s1 [o|]]; [|discriminate]. destruct (bf_run f s1 X) as [s2 [Z|]] eqn:Q; [|discriminate]. intros H. injection H as <- <-. cbn [length]. f_equal. exact (IH _ _ _ Q).
Qed.

(* the shift register *)
Lemma last_len n s : 0 <= n -> zlen s = n -> last_bytes n s = s.
Proof. intros H L. unfold last_bytes, zlen in *. replace (length s - Z.to_nat n)%nat with 0%nat by lia. reflexivity. Qed.
Lemma last_zlen n s : 0 <= n <= zlen s -> zlen (last_bytes n s) = n.
Proof. intros H. unfold last_bytes, zlen in *. rewrite skipn_length. lia. Qed.
Lemma last_ok n s : bytes_ok s -> bytes_ok (last_bytes n s).
Proof. intros H. unfold last_bytes. apply Forall_skipn, H. Qed.
Lemma last_shift n (iv c t : bytes) k : zlen iv = n -> zlen c = k -> 0 < k <= n -> last_bytes n (iv ++ c ++ t) = last_bytes n ((skipn (Z.to_nat k) iv ++ c) ++ t).
Proof.
  intros Li Lc Hk. unfold last_bytes, zlen in *. rewrite !app_length, skipn_length.
  replace (length iv + (length c + length t) - Z.to_nat n)%nat with ((length iv - Z.to_nat k + length c + length t - Z.to_nat n) + Z.to_nat k)%nat by lia.
  rewrite app_assoc. rewrite <- skipn_skipn. f_equal. rewrite <- app_assoc, skipn_app. replace (Z.to_nat k - length iv)%nat with 0%nat by lia. cbn [skipn]. rewrite app_assoc. reflexivity.
Qed.

Lemma ctr_len w iv j : (w <= length iv)%nat -> bytes_ok iv -> length (ctr_block w iv j) = length iv /\ bytes_ok (ctr_block w iv j).
Proof. exact (ctr_block_len zeros (fun n H => zlen_zeros n H) w iv j). Qed.

Section Modes.
Variables (bs : Z) (F : bytes -> bytes).
Hypothesis Hbs : 0 < bs.
Lemma cfb_enc_state n X : 0 < n <= bs -> forall iv s Y, zlen iv = bs -> blocks_ok n X -> blocks_ok n Y ->
  bf_run (cfb_enc_fn F (Z.to_nat n)) iv X = (s, Some Y) -> s = last_bytes bs (iv ++ concat Y).
Proof.
  intros Hn. induction X as [|x X IH]; intros iv s Y Li HX HY; cbn [bf_run bf_step cfb_enc_fn].
  - intros H. injection H as <- <-. cbn [concat]. rewrite app_nil_r, last_len by lia. reflexivity.
  - set (c := xorb x (firstn (Z.to_nat n) (F iv))). destruct (bf_run (cfb_enc_fn F (Z.to_nat n)) (skipn (Z.to_nat n) iv ++ c) X) as [s2 [Y2|]] eqn:Q; [|discriminate].
    intros H. injection H as <- <-. apply Forall_cons_iff in HX. apply Forall_cons_iff in HY. destruct HX as (_ & HX). destruct HY as ((Lc & _) & HY). cbn [concat].
    rewrite (last_shift bs iv c (concat Y2) n Li Lc Hn). apply IH; [|exact HX|exact HY|exact Q]. rewrite zlen_app, Lc. unfold zlen in *. rewrite skipn_length. lia.
Qed.
Lemma cfb_dec_state n X : 0 < n <= bs -> forall iv s Y, zlen iv = bs -> blocks_ok n X ->
  bf_run (cfb_dec_fn F (Z.to_nat n)) iv X = (s, Some Y) -> s = last_bytes bs (iv ++ concat X).
Proof.
  intros Hn. induction X as [|x X IH]; intros iv s Y Li HX; cbn [bf_run bf_step cfb_dec_fn].
  - intros H. injection H as <- <-. cbn [concat]. rewrite app_nil_r, last_len by lia. reflexivity.
  - destruct (bf_run (cfb_dec_fn F (Z.to_nat n)) (skipn (Z.to_nat n) iv ++ x) X) as [s2 [Y2|]] eqn:Q; [|discriminate].
    intros H. injection H as <- <-. apply Forall_cons_iff in HX. destruct HX as ((Lc & _) & HX). cbn [concat].
    rewrite (last_shift bs iv x (concat X) n Li Lc Hn). apply (IH _ _ Y2); [|exact HX|exact Q]. rewrite zlen_app, Lc. unfold zlen in *. rewrite skipn_length. lia.
Qed.
Lemma full_shift iv (c : bytes) : zlen iv = bs -> skipn (Z.to_nat bs) iv ++ c = c.
Proof. intros L. unfold zlen in L. rewrite skipn_all2 by lia. reflexivity. Qed.
Lemma cbc_enc_state X : forall iv s Y, zlen iv = bs -> blocks_ok bs X -> blocks_ok bs Y ->
  bf_run (cbc_enc_fn F) iv X = (s, Some Y) -> s = last_bytes bs (iv ++ concat Y).
Proof.
  induction X as [|x X IH]; intros iv s Y Li HX HY; cbn [bf_run bf_step cbc_enc_fn].
  - intros H. injection H as <- <-. cbn [concat]. rewrite app_nil_r, last_len by lia. reflexivity.
  - set (c := F (xorb x iv)). destruct (bf_run (cbc_enc_fn F) c X) as [s2 [Y2|]] eqn:Q; [|discriminate].
    intros H. injection H as <- <-. apply Forall_cons_iff in HX. apply Forall_cons_iff in HY. destruct HX as (_ & HX). destruct HY as ((Lc & _) & HY). cbn [concat].
    rewrite (last_shift bs iv c (concat Y2) bs Li Lc) by lia. rewrite full_shift by exact Li. apply IH; [exact Lc|exact HX|exact HY|exact Q].
Qed.
Lemma cbc_dec_state X : forall iv s Y, zlen iv = bs -> blocks_ok bs X -> bf_run (cbc_dec_fn F) iv X = (s, Some Y) -> s = last_bytes bs (iv ++ concat X).
Proof.
  induction X as [|x X IH]; intros iv s Y Li HX; cbn [bf_run bf_step cbc_dec_fn].
  - intros H. injection H as <- <-. cbn [concat]. rewrite app_nil_r, last_len by lia. reflexivity.
  - destruct (bf_run (cbc_dec_fn F) x X) as [s2 [Y2|]] eqn:Q; [|discriminate].
    intros H. injection H as <- <-. apply Forall_cons_iff in HX. destruct HX as ((Lc & _) & HX). cbn [concat].
    rewrite (last_shift bs iv x (concat X) bs Li Lc) by lia. rewrite full_shift by exact Li. apply (IH _ _ Y2); [exact Lc|exact HX|exact Q].
Qed.
Lemma xorb_back x : forall o, length x = length o -> xorb x (xorb x o) = o.
Proof.
  induction x as [|h x IH]; intros [|y o] H; cbn [length] in H; try reflexivity; try lia. rewrite !xorb_cons, IH by lia. f_equal.
  rewrite <- Z.lxor_assoc, Z.lxor_nilpotent, Z.lxor_0_l. reflexivity.
Qed.
Lemma ofb_state X : (forall b, zlen b = bs -> bytes_ok b -> zlen (F b) = bs /\ bytes_ok (F b)) -> forall iv s Y, zlen iv = bs -> bytes_ok iv -> blocks_ok bs X -> 
  bf_run (ofb_fn F (Z.to_nat bs)) iv X = (s, Some Y) -> s = last_bytes bs (iv ++ xorb (concat X) (concat Y)).
Proof.
  intros HF. induction X as [|x X IH]; intros iv s Y Li Bi HX; cbn [bf_run bf_step ofb_fn].
  - intros H. injection H as <- <-. cbn [concat]. change (xorb [] []) with (@nil Z). rewrite app_nil_r, last_len by lia. reflexivity.
  - destruct (HF iv Li Bi) as (Lo & Bo). rewrite (firstn_all2 (F iv)) by (unfold zlen in Lo; lia).
    destruct (bf_run (ofb_fn F (Z.to_nat bs)) (F iv) X) as [s2 [Y2|]] eqn:Q; [|discriminate].
    intros H. injection H as <- <-. apply Forall_cons_iff in HX. destruct HX as ((Lc & _) & HX). cbn [concat].
    assert (Lx : length x = length (F iv)) by (unfold zlen in *; lia).
    rewrite xorb_app by (rewrite xorb_min; lia). rewrite xorb_back by exact Lx.
    rewrite (last_shift bs iv (F iv) _ bs Li Lo) by lia. rewrite full_shift by exact Li. apply IH; [exact Lo|exact Bo|exact HX|exact Q].
Qed.
Lemma ctr_state w X : forall iv room s Y, (w <= length iv)%nat -> bytes_ok iv ->
  bf_run (ctr_fn F w) (iv, room) X = (s, Some Y) -> s = (ctr_block w iv (zlen X), room - zlen X).
Proof.
  induction X as [|x X IH]; intros iv room s Y Hw Bi; cbn [bf_run bf_step ctr_fn].
  - intros H. injection H as <- <-. change (zlen []) with 0. rewrite (ctr_block_0 F) by assumption. f_equal. lia.
  - destruct (room =? 1); [discriminate|]. destruct (bf_run (ctr_fn F w) (ctr_block w iv 1, room - 1) X) as [s2 [Y2|]] eqn:Q; [|discriminate].
    intros H. injection H as <- <-. destruct (ctr_len w iv 1 Hw Bi) as (L1 & B1). rewrite (IH (ctr_block w iv 1) (room - 1) s2 Y2 ltac:(lia) B1 Q).
    rewrite (ctr_block_add F) by exact Hw. rewrite zlen_cons. replace (1 + zlen X) with (zlen X + 1) by lia. f_equal; lia.
Qed.
(* the limit has no effect on what is computed *)
Lemma ctr_room w X : forall iv room room' s s' Y Y', bf_run (ctr_fn F w) (iv, room) X = (s, Some Y) -> bf_run (ctr_fn F w) (iv, room') X = (s', Some Y') -> Y = Y'.
Proof.
  induction X as [|x X IH]; intros iv room room' s s' Y Y'; cbn [bf_run bf_step ctr_fn].
  - intros H H'. injection H as <- <-. injection H' as <- <-. reflexivity.
  - destruct (room =? 1); [discriminate|]. destruct (room' =? 1); [discriminate|].
    destruct (bf_run (ctr_fn F w) (ctr_block w iv 1, room - 1) X) as [s2 [Y2|]] eqn:Q; [|discriminate]. destruct (bf_run (ctr_fn F w) (ctr_block w iv 1, room' - 1) X) as [s3 [Y3|]] eqn:Q'; [|discriminate].
    intros H H'. injection H as <- <-. injection H' as <- <-. f_equal. exact (IH _ _ _ _ _ _ _ Q Q').
Qed.
End Modes.

Section Api.
Variable fresh : Z -> bytes.
Hypothesis fresh_len : forall n, 0 <= n -> zlen (fresh n) = n.
Lemma run_blocks nb key bs E D m iv d o c r : block_family nb key bs E D -> mode_ok bs m -> iv_ok bs m iv ->
  make_cipher fresh nb (Some m) None iv key d = Ret o -> bytes_ok c -> zlen c + 3 * mode_bs bs m <= max_string_length -> zlen c mod mode_bs bs m = 0 -> run_string o c = Ret r ->
  exists X s Y, c = concat X /\ r = concat Y /\ blocks_ok (mode_bs bs m) X /\ blocks_ok (mode_bs bs m) Y /\ zlen c = mode_bs bs m * zlen X /\
    bf_run (mode_fn bs (mode_fun E D m d) m d) (mode_st0 bs (mode_fun E D m d) m d (iv_val bs iv)) X = (s, Some Y).
Proof.
  intros HF Hm Hiv Ho Hb Hsz Hmod Hr. pose proof (fam_bs _ _ _ _ _ HF) as Hbs. pose proof (mode_bs_pos fresh fresh_len bs m (proj1 Hbs) Hm) as Hn.
  destruct (as_blocks fresh fresh_len (mode_bs bs m) c Hn Hb) as (X & tail & EX & HX & _ & Ht & HXl & _).
  rewrite Hmod in Ht. assert (tail = []) by (destruct tail; [reflexivity|unfold zlen in Ht; cbn in Ht; lia]). subst tail. rewrite app_nil_r in EX.
  destruct (make_cipher_ok fresh fresh_len nb key bs E D (Some m) None iv d HF Hm Hiv) as (o' & Ho' & B). cbn [option_map] in Ho'. rewrite Ho in Ho'. injection Ho' as <-.
  cbn [dmode] in B. replace (fin_of (mode_bs bs m) (mode_fn bs (mode_fun E D m d) m d) None d) with (block_flush (mode_bs bs m) (mode_fn bs (mode_fun E D m d) m d)) in B by (destruct d; reflexivity).
  set (F := mode_fun E D m d) in *.
  pose proof (plain_total (mode_bs bs m) (mode_fn bs F m d) Hn (mode_st0 bs F m d (iv_val bs iv)) X (blocks_ok_len _ _ HX)) as Ht'. unfold plain_mealy in Ht'. rewrite <- EX in Ht'.
  destruct (bf_run (mode_fn bs F m d) (mode_st0 bs F m d (iv_val bs iv)) X) as [s [Y|]] eqn:HR.
  - destruct (behaves_result _ _ _ _ _ c (concat Y) B Hn Hb Hsz) as (P1 & _); [rewrite Ht'; reflexivity|rewrite Ht'; reflexivity|].
    rewrite Hr in P1. injection P1 as ->. exists X, s, Y. split; [exact EX|]. split; [reflexivity|]. split; [exact HX|].
    split; [exact (behaves_sizes _ _ _ _ _ B X s Y HX HR)|]. split; [rewrite EX; apply (zlen_concat (mode_bs bs m)), blocks_ok_len, HX|exact HR].
  - pose proof (behaves_raise _ _ _ _ _ _ _ B Hb Hsz Ht') as T. rewrite T in Hr. discriminate.
Qed.
Lemma blocks_run nb key bs E D m iv d o X s Y : block_family nb key bs E D -> mode_ok bs m -> iv_ok bs m iv ->
  make_cipher fresh nb (Some m) None iv key d = Ret o -> blocks_ok (mode_bs bs m) X -> zlen (concat X) + 3 * mode_bs bs m <= max_string_length ->
  bf_run (mode_fn bs (mode_fun E D m d) m d) (mode_st0 bs (mode_fun E D m d) m d (iv_val bs iv)) X = (s, Some Y) ->
  run_string o (concat X) = Ret (concat Y).
Proof.
  intros HF Hm Hiv Ho HX Hsz HR. pose proof (fam_bs _ _ _ _ _ HF) as Hbs. pose proof (mode_bs_pos fresh fresh_len bs m (proj1 Hbs) Hm) as Hn.
  destruct (make_cipher_ok fresh fresh_len nb key bs E D (Some m) None iv d HF Hm Hiv) as (o' & Ho' & B). cbn [option_map] in Ho'. rewrite Ho in Ho'. injection Ho' as <-.
  cbn [dmode] in B. replace (fin_of (mode_bs bs m) (mode_fn bs (mode_fun E D m d) m d) None d) with (block_flush (mode_bs bs m) (mode_fn bs (mode_fun E D m d) m d)) in B by (destruct d; reflexivity).
  set (F := mode_fun E D m d) in *.
  pose proof (plain_total (mode_bs bs m) (mode_fn bs F m d) Hn (mode_st0 bs F m d (iv_val bs iv)) X (blocks_ok_len _ _ HX)) as Ht'. unfold plain_mealy in Ht'. rewrite HR in Ht'.
  destruct (behaves_result _ _ _ _ _ (concat X) (concat Y) B Hn (blocks_ok_concat _ _ HX) Hsz) as (P1 & _); [rewrite Ht'; reflexivity|rewrite Ht'; reflexivity|exact P1].
Qed.

Theorem resume nb key bs E D m iv d o a b ra : block_family nb key bs E D -> mode_ok bs m -> resumable bs m -> iv_ok bs m iv ->
  make_cipher fresh nb (Some m) None iv key d = Ret o -> let n := mode_bs bs m in
  bytes_ok a -> bytes_ok b -> zlen (a ++ b) + 3 * n <= max_string_length -> zlen a mod n = 0 -> zlen b mod n = 0 -> within_limit bs m (zlen (a ++ b) / n) ->
  run_string o a = Ret ra ->
  exists o' rb, make_cipher fresh nb (Some m) None (Some (next_iv bs m d (iv_val bs iv) a ra)) key d = Ret o' /\ run_string o' b = Ret rb /\ run_string o (a ++ b) = Ret (ra ++ rb).
Proof.
  intros HF Hm Hre Hiv Ho n Ba Bb Hsz Ma Mb Hw Hr. pose proof (fam_bs _ _ _ _ _ HF) as Hbs. pose proof (mode_bs_pos fresh fresh_len bs m (proj1 Hbs) Hm) as Hn. fold n in Hn.
  pose proof (zlen_nonneg b) as Zb. pose proof (zlen_nonneg a) as Za. rewrite zlen_app in Hsz, Hw.
  destruct (run_blocks nb key bs E D m iv d o a ra HF Hm Hiv Ho Ba ltac:(fold n; lia) Ma Hr) as (X & s & Y & EX & EY & HX & HY & ZX & HR). fold n in HX, HY, ZX.
  destruct (as_blocks fresh fresh_len n b Hn Bb) as (X' & tail & EX' & HX' & _ & Ht & HXl' & _).
  rewrite Mb in Ht. assert (tail = []) by (destruct tail; [reflexivity|unfold zlen in Ht; cbn in Ht; lia]). subst tail. rewrite app_nil_r in EX'.
  assert (ZX' : zlen b = n * zlen X') by (rewrite EX'; apply (zlen_concat n), blocks_ok_len, HX').
  set (F := mode_fun E D m d) in *. set (v := iv_val bs iv) in *.
  assert (Hv : m <> ECB -> zlen v = bs /\ bytes_ok v) by (intros Hne; exact (iv_val_len bs ltac:(lia) m iv Hiv Hne)).
  assert (HFo : (forall k, m = OFB k -> forall b0, zlen b0 = bs -> bytes_ok b0 -> zlen (F b0) = bs /\ bytes_ok (F b0))) by (intros k -> b0; unfold F; destruct d; apply (fam_len _ _ _ _ _ HF)).
  assert (Kiv : iv_ok bs m (Some (next_iv bs m d v a ra))).
  { assert (Bra : bytes_ok ra) by (rewrite EY; exact (blocks_ok_concat _ _ HY)).
    assert (Zra : zlen ra = zlen a) by (rewrite EY, EX, (zlen_concat n Y), (zlen_concat n X) by (apply blocks_ok_len; assumption); pose proof (bf_run_len _ _ _ _ _ HR); unfold zlen; congruence).
    assert (BV : bytes_ok v) by (unfold v, iv_val; destruct iv as [i|]; [apply Hiv|apply bytes_ok_zeros]).
    unfold next_iv, iv_ok. destruct m as [| |k|k| |k]; [split; [exact BV|left; reflexivity]|..]; destruct (Hv ltac:(discriminate)) as (Lv & _); cbn [mode_ok resumable] in *.
    - split; [apply last_ok, bytes_ok_app; split; [exact BV|destruct d; assumption]|right; apply last_zlen; rewrite zlen_app, Lv; destruct d; lia].
    - split; [apply last_ok, bytes_ok_app; split; [exact BV|destruct d; assumption]|right; apply last_zlen; rewrite zlen_app, Lv; destruct d; lia].
    - split; [apply last_ok, bytes_ok_app; split; [exact BV|apply bytes_ok_xorb; assumption]|right; apply last_zlen; rewrite zlen_app, Lv; pose proof (zlen_nonneg (xorb a ra)); lia].
    - destruct (ctr_len (Z.to_nat bs) v (zlen a / bs)) as (L1 & B1); [unfold zlen in Lv; lia|exact BV|]. split; [exact B1|right]. unfold zlen in *. lia.
    - destruct (ctr_len (Z.to_nat k) v (zlen a / bs)) as (L1 & B1); [unfold zlen in Lv; lia|exact BV|]. split; [exact B1|right]. unfold zlen in *. lia. }
  destruct (make_cipher_ok fresh fresh_len nb key bs E D (Some m) None (Some (next_iv bs m d v a ra)) d HF Hm Kiv) as (o' & Ho' & _). cbn [option_map] in Ho'.
  assert (Hq : zlen (X ++ X') = (zlen a + zlen b) / n). { rewrite zlen_app, ZX, ZX', <- Z.mul_add_distr_l, Z.mul_comm, Z.div_mul by lia. reflexivity. }
  assert (W1 : within_limit bs m (zlen (X ++ X'))) by (rewrite Hq; exact Hw).
  assert (W2 : within_limit bs m (zlen X')) by (unfold within_limit in *; destruct (mode_limit bs m); [|exact Logic.I]; rewrite zlen_app in W1; pose proof (zlen_nonneg X); lia).
  destruct (proj1 (mode_run bs ltac:(lia) F m d v (X ++ X') Hm Hv) W1) as (sc & Yc & HRc & _).
  destruct (proj1 (mode_run bs ltac:(lia) F m d (next_iv bs m d v a ra) X' Hm (fun Hne => iv_val_len bs ltac:(lia) m (Some _) Kiv Hne)) W2) as (s2 & Y2 & HR2 & _).
  assert (Hcat : Yc = Y ++ Y2).
  { rewrite bf_run_app, HR in HRc. destruct (bf_run (mode_fn bs F m d) s X') as [s3 [Y3|]] eqn:Q; [|discriminate]. injection HRc as _ <-. f_equal.
    destruct m as [| |k|k| |k]; cbn [mode_bs mode_ok resumable] in *; subst n.
    - destruct s. cbn [mode_st0] in HR2. rewrite HR2 in Q. injection Q as _ <-. reflexivity.
    - destruct (Hv ltac:(discriminate)) as (Lv & Bv). enough (s = mode_st0 bs F CBC d (next_iv bs CBC d v a ra)) as S by (rewrite S, HR2 in Q; injection Q as _ <-; reflexivity). unfold next_iv.
      destruct d; cbn [mode_fn mode_st0] in *; [rewrite EY; exact (cbc_enc_state bs F ltac:(lia) X v s Y Lv HX HY HR)|rewrite EX; exact (cbc_dec_state bs F ltac:(lia) X v s Y Lv HX HR)].
    - destruct (Hv ltac:(discriminate)) as (Lv & Bv). enough (s = mode_st0 bs F (CFB k) d (next_iv bs (CFB k) d v a ra)) as S by (rewrite S, HR2 in Q; injection Q as _ <-; reflexivity). unfold next_iv.
      destruct d; cbn [mode_fn mode_st0] in *; [rewrite EY; exact (cfb_enc_state bs F ltac:(lia) k X Hm v s Y Lv HX HY HR)|rewrite EX; exact (cfb_dec_state bs F ltac:(lia) k X Hm v s Y Lv HX HR)].
    - subst k. destruct (Hv ltac:(discriminate)) as (Lv & Bv). enough (s = mode_st0 bs F (OFB bs) d (next_iv bs (OFB bs) d v a ra)) as S by (rewrite S, HR2 in Q; injection Q as _ <-; reflexivity). unfold next_iv.
      destruct d; cbn [mode_fn mode_st0] in *; rewrite EX, EY; exact (ofb_state bs F ltac:(lia) X (HFo _ eq_refl) v s Y Lv Bv HX HR).
    - destruct (Hv ltac:(discriminate)) as (Lv & Bv). assert (Hd : zlen a / bs = zlen X) by (rewrite ZX, Z.mul_comm, Z.div_mul by lia; reflexivity).
      unfold next_iv in HR2. rewrite Hd in HR2. destruct d; cbn [mode_fn mode_st0] in *; rewrite (ctr_state F (Z.to_nat bs) X v _ s Y ltac:(unfold zlen in Lv; lia) Bv HR) in Q; exact (ctr_room F _ _ _ _ _ _ _ _ _ Q HR2).
    - destruct (Hv ltac:(discriminate)) as (Lv & Bv). assert (Hd : zlen a / bs = zlen X) by (rewrite ZX, Z.mul_comm, Z.div_mul by lia; reflexivity).
      unfold next_iv in HR2. rewrite Hd in HR2. destruct d; cbn [mode_fn mode_st0] in *; rewrite (ctr_state F (Z.to_nat k) X v _ s Y ltac:(unfold zlen in Lv; lia) Bv HR) in Q; exact (ctr_room F _ _ _ _ _ _ _ _ _ Q HR2). }
  exists o', (concat Y2). split; [exact Ho'|]. split.
  - rewrite EX'. apply (blocks_run nb key bs E D m _ d o' X' s2 Y2 HF Hm Kiv Ho' HX'); [rewrite <- EX'; fold n; lia|exact HR2].
  - rewrite EX, EX', EY, <- !concat_app, <- Hcat. apply (blocks_run nb key bs E D m iv d o (X ++ X') sc Yc HF Hm Hiv Ho); [apply Forall_app; split; assumption|rewrite concat_app, <- EX, <- EX', zlen_app; fold n; lia|exact HRc].
Qed.
End Api.
