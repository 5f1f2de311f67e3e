(* What still works, or does not, after wipe *)
From Verif Require Import Prelude PreludeFacts SpecTransducer BufOutModel BufOut TransformModel BlockModel CipherModel EncModel HashModel MacModel AuthModel AeadModel
  SpecWipe WipeSafe CipherSpec WipeCipher WipeHash WipeMac WipeErase KeccakModel AesModel Aes AesniModel Aesni StreamModel SpecAes CipherApi AeadApi BytesNum SpecStream SpecRng RngModel Rng SpecBlock SpecAead Auth BlockObj AesApi AesField.

(* ---------------- RC4: after wipe the output is the input ---------------- *)
Lemma kget_zeros n i : kget (repeat 0 n) i = 0.
Proof. unfold kget. destruct (Nat.lt_ge_cases i n); [now apply nth_repeat|]. apply nth_overflow. now rewrite repeat_length. Qed.
Lemma repeat_app0 a b : repeat 0 a ++ repeat 0 b = repeat 0 (a + b). Proof. symmetry. apply repeat_app. Qed.
Lemma kput_zeros n i : (i < n)%nat -> kput (repeat 0 n) i 0 = repeat 0 n.
Proof.
  revert i. induction n as [|n IH]; intros i H; [lia|]. destruct i as [|i]; cbn [repeat]; [reflexivity|].
  specialize (IH i ltac:(lia)). unfold kput in *. cbn [firstn skipn app repeat] in *. now rewrite IH.
Qed.
Lemma arc_wiped_loop l : forall x, exists x', arc_loop (repeat 0 256) x 0 l = (repeat 0 256, x', 0, l).
Proof.
  induction l as [|c l IH]; intros x; cbn [arc_loop]; [now exists x|]. rewrite !kget_zeros. change (Z.land (0 + 0) 255) with 0.
  rewrite !kput_zeros by (change 0xFF with (Z.ones 8); rewrite ?Z.land_ones by lia; lia). rewrite !kget_zeros, Z.lxor_0_r.
  destruct (IH (Z.land (x + 1) 255)) as (x' & ->). now exists x'.
Qed.
(* ---- part 2 ---- *)
Section Fresh.
Variable fresh : Z -> bytes.
Hypothesis fresh_len : forall n, 0 <= n -> zlen (fresh n) = n.

Lemma arcfour_identity key d o b : Cipher_arcfour fresh key d = Ret o -> zlen b <= max_string_length ->
  snd (w_run (o_tr o) (o_st o) [Wipe; Call (PutString b); Call GetString]) = [OUnit; OUnit; OBytes b].
Proof.
  unfold Cipher_arcfour, new_arcfour. destruct (_ && _); [|discriminate]. cbn [obind]. intros E Hb. apply ret_inj in E. subst o. cbn [stream_cipher_obj o_tr o_st so_sc so_st].
  set (k := arcfour_cook_key key). pose proof (arc_cook_inv fresh fresh_len key) as (Hk & _). fold k in Hk. cbn [w_run w_step stream_transform t_wipe unit_obs fst snd].
  change (sc_wipe arcfour_class (sct_c arcfour_class (stream_new fresh arcfour_class k))) with (arc_wipe k).
  assert (arc_wipe k = Arc (repeat 0 256) 0 0) as ->.
  { unfold arc_wipe. f_equal. rewrite (zero_map (arc_state k) (repeat 0 256)) by (rewrite repeat_length; exact Hk). reflexivity. }
  set (s := SCT _ _ _ _). cbn [t_step stream_transform t_put_string]. pose proof (zlen_nonneg b) as Nb.
  assert (bo_inv (bo_wipe (bo_new fresh 256))) as Hi by (apply bo_wipe_good; apply bo_new_inv; [exact fresh_len|unfold max_string_length; lia]).
  destruct (ensure_capacity_ok fresh fresh_len (bo_wipe (bo_new fresh 256)) (zlen b) Hi Nb) as (b' & Eb & Hb' & Hc & Hr).
  { rewrite bo_contents_len by exact Hi. cbn [bo_wipe bo_new oend obeg]. lia. }
  assert (obeg b' = oend b') as B1.
  { pose proof (f_equal zlen Hc) as Hz. rewrite !bo_contents_len in Hz by assumption. cbn [bo_wipe bo_new oend obeg] in Hz. lia. }
  destruct Hb' as (P1 & P2 & P3).
  assert (exists k2, sct_put_substring fresh arcfour_class s b 0 (zlen b) = (SCT arcfour_class k2 (sct_buf _ s) (BO (splice (obuf b') (oend b') b) (obeg b') (oend b' + zlen b)), Ret tt)) as (k2 & Ep).
  { unfold sct_put_substring, sct_ensure. subst s. cbn [sct_bo sct_c sct_buf stream_new]. rewrite Eb. cbn [lift bind fst snd]. unfold sct_transform. cbn [sct_bo sct_c sct_buf].
    cbn [arcfour_class raw_stream sc_transform]; cbn [sct_bo sct_c sct_buf obuf obeg oend fst snd]. destruct (_ || _) eqn:Er; [lia|]. rewrite sub_0_all by reflexivity. unfold arcfour_encrypt. cbn [arc_state arc_x arc_y].
    destruct (arc_wiped_loop b 0) as (x' & ->). cbn [fst snd bind sct_adv sct_c sct_buf sct_bo obuf obeg oend]. eexists. reflexivity. }
  rewrite Ep. cbn [unit_obs fst snd t_get_string stream_transform sct_bo bytes_obs sct_bo_op].
  unfold bo_get_string. cbn [obuf obeg oend]. rewrite B1. replace (oend b' + zlen b - oend b') with (zlen b) by lia. unfold bytes_sub.
  rewrite (proj2 (in_range_true _ _ _)) by (rewrite zlen_splice; lia). cbn [fst snd]. rewrite sub_splice_same by lia. reflexivity.
Qed.

(* ---------------- used stream ciphers are erased ---------------- *)
Lemma arcfour_erased k1 k2 d1 d2 o1 o2 l1 l2 : Cipher_arcfour fresh k1 d1 = Ret o1 -> Cipher_arcfour fresh k2 d2 = Ret o2 -> Forall wop_possible l1 -> Forall wop_possible l2 ->
  exists s1 s2 : sct arcfour_class, after o1 l1 = TObj (stream_transform fresh arcfour_class) s1 /\ after o2 l2 = TObj (stream_transform fresh arcfour_class) s2 /\
  (stream_public s1 = stream_public s2 -> after (after o1 l1) [Wipe] = after (after o2 l2) [Wipe]).
Proof.
  unfold Cipher_arcfour, new_arcfour. destruct (_ && _); [|discriminate]. destruct (_ && _); [|discriminate]. cbn [obind]. intros E1 E2 L1 L2. apply ret_inj in E1, E2. subst o1 o2.
  pose proof (stream_good fresh fresh_len arcfour_class arc_inv (arcfour_good fresh fresh_len) arc_wipe_inv) as G.
  pose proof (stream_new_good fresh fresh_len arcfour_class arc_inv _ (arc_cook_inv fresh fresh_len k1)) as N1. pose proof (stream_new_good fresh fresh_len arcfour_class arc_inv _ (arc_cook_inv fresh fresh_len k2)) as N2.
  destruct (t_good_run (stream_transform fresh arcfour_class) (SI arcfour_class arc_inv) G l1 _ N1 L1) as (R1 & _). destruct (t_good_run (stream_transform fresh arcfour_class) (SI arcfour_class arc_inv) G l2 _ N2 L2) as (R2 & _).
  eexists. eexists. split; [reflexivity|split; [reflexivity|]]. intros Hp. apply (stream_wipe_eq fresh arcfour_class arc_inv); try assumption.
  apply arc_erase; [apply R1|apply R2].
Qed.
Lemma chacha_erased iv1 iv2 c1 c2 k1 k2 d1 d2 o1 o2 l1 l2 : Cipher_chacha20 fresh iv1 c1 k1 d1 = Ret o1 -> Cipher_chacha20 fresh iv2 c2 k2 d2 = Ret o2 -> Forall wop_possible l1 -> Forall wop_possible l2 ->
  exists s1 s2 : sct chacha20_class, after o1 l1 = TObj (stream_transform fresh chacha20_class) s1 /\ after o2 l2 = TObj (stream_transform fresh chacha20_class) s2 /\
  (stream_public s1 = stream_public s2 -> after (after o1 l1) [Wipe] = after (after o2 l2) [Wipe]).
Proof.
  unfold Cipher_chacha20, new_chacha20. destruct (negb _); [discriminate|]. destruct (negb _); [discriminate|]. 
  destruct (match iv1 with None => _ | Some _ => _ end) as [v1|e| |]; cbn [obind]; try discriminate. destruct (match iv2 with None => _ | Some _ => _ end) as [v2|e| |]; cbn [obind]; try discriminate.
  intros E1 E2 L1 L2. apply ret_inj in E1, E2. subst o1 o2.
  pose proof (stream_good fresh fresh_len chacha20_class cc_inv (chacha_good fresh fresh_len) chacha_wipe_inv) as G.
  pose proof (stream_new_good fresh fresh_len chacha20_class cc_inv _ (chacha_init_inv fresh fresh_len k1 v1 c1)) as N1. pose proof (stream_new_good fresh fresh_len chacha20_class cc_inv _ (chacha_init_inv fresh fresh_len k2 v2 c2)) as N2.
  destruct (t_good_run (stream_transform fresh chacha20_class) (SI chacha20_class cc_inv) G l1 _ N1 L1) as (R1 & _). destruct (t_good_run (stream_transform fresh chacha20_class) (SI chacha20_class cc_inv) G l2 _ N2 L2) as (R2 & _).
  eexists. eexists. split; [reflexivity|split; [reflexivity|]]. intros Hp. apply (stream_wipe_eq fresh chacha20_class cc_inv); try assumption.
  apply chacha_erase; [apply R1|apply R2].
Qed.

(* ---------------- GCM: the tag after wipe ---------------- *)
Lemma bind_snd {S A B} (r : S * out A) (k : S -> A -> S * out B) x : snd (bind r k) = Ret x -> exists y, snd r = Ret y /\ snd (k (fst r) y) = Ret x.
Proof. destruct r as [s [y|e| |]]; cbn [bind snd fst]; intros H; try discriminate H. now exists y. Qed.
Definition wiped_finish (o : aobj) : out bytes := snd (a_finish (ao_class o) (fst (a_wipe (ao_class o) (ao_st o)))).
Lemma gcm_tag_after_wipe accel nb key A iv d : aes_class fresh nb ->
  aes_key_size key -> bytes_ok key -> bytes_ok A -> bytes_ok iv -> zlen A <= max_string_length -> zlen iv <= max_string_length ->
  exists o, aes_gcm fresh accel nb A iv key d = Ret o /\ wiped_finish o = Ret (gcm_T (aes_E key) iv A []).
Proof.
  intros Hc Hk B1 B2 B3 L1 L2. 
  destruct (gcm_encrypts fresh accel nb key A iv fresh_len Hc Hk B1 B2 B3 L1 L2) as (o & Eo & H).
  specialize (H [] (Forall_nil _) ltac:(cbn; unfold max_string_length; lia)). change (zlen [] <=? 2 ^ 36 - 32) with true in H. cbv iota in H.
  destruct H as (_ & _ & H). specialize (H [] ltac:(split; [constructor|split; reflexivity])).
  unfold aes_gcm in *. destruct (nb key) as [aes|e| |]; cbn [obind] in *; try discriminate Eo.
  destruct (gcm_setup fresh (b_bc aes) accel A iv (b_st aes)) as [[[h e0] g]|e| |]; cbn [obind] in *; try discriminate Eo.
  apply ret_inj in Eo. subst o.
  assert (exists mac, ghash_final fresh h (g_mac g) (zlen A) (g_clen g) e0 = Ret (mac, gcm_T (aes_E key) iv A [])) as (mac & Ef).
  { unfold auth_run in H. cbn [auth_history ao_class ao_st auth_of a_finish a_get_string] in H. unfold gcm_enc_finish in H. cbn [cipher_new c_used] in H. change (0 >? 0) with false in H. cbv iota in H. cbn [bind] in H.
    destruct (bind_snd _ _ _ H) as (tag & Et & H'). destruct (bind_snd _ _ _ H') as (txt & _ & H2). cbn [snd] in H2. injection H2 as _ H2.
    unfold gcm_tag in Et. cbn [cipher_new c_c] in Et. destruct (ghash_final fresh h (g_mac g) (zlen A) (g_clen g) e0) as [[mac tag']|e| |]; try discriminate Et. exists mac. cbn [snd] in Et. apply ret_inj in Et. rewrite Et, H2. reflexivity. }
  eexists. split; [reflexivity|]. destruct d; unfold wiped_finish; cbn [ao_class ao_st auth_of a_finish a_wipe]; unfold gcm_enc_finish, gcm_dec_finish;
    cbn [cipher cipher_with_finish t_wipe fst c_used cipher_new]; change (0 >? 0) with false; cbv iota; cbn [bind]; unfold gcm_tag; cbn [c_c cipher_new gcm_enc_wrapped gcm_dec_wrapped bc_wipe gcm_wipe g_mac g_clen];
    rewrite Ef; reflexivity.
Qed.

(* ---------------- the generator of AES in counter mode ---------------- *)
Fixpoint r_after (R : rng) (s : r_st R) (qs : list request) : r_st R :=
  match qs with [] => s | q :: qs => r_after R (fst (fst (r_bytes R s (q_buf q) (q_ofs q) (q_len q)))) qs end.
Definition asked (qs : list request) : nat := fold_right (fun q n => (Z.to_nat (q_len q) + n)%nat) 0%nat qs.
Lemma actr_opos A fuel : forall (s s' : actr (bc_st A)) buf buf' ofs len, actr_loop A fuel s buf ofs len = ((s', buf'), Ret tt) -> 0 < ac_opos s <= 16 -> 0 < ac_opos s' <= 16.
Proof.
  induction fuel as [|f IH]; intros s s' buf buf' ofs len E H; cbn [actr_loop] in E; [discriminate|]. destruct (Z.gtb_spec len 0) as [G|G]; [|now injection E as <- _].
  assert (forall s1 u, actr_refill A s = (s1, Ret u) -> 0 <= ac_opos s1 < 16) as Hr.
  { unfold actr_refill. intros s1 u. destruct (Z.geb_spec (ac_opos s) 16) as [K|K].
    - destruct (bc_transform A _ _ _ _ _) as [[c b] [x|e| |]]; cbn [fst snd bind]; try discriminate. destruct (increment_counter _ _ _); cbn [bind]; try discriminate. intros X. injection X as <- _. cbn [ac_opos]. lia.
    - intros X. injection X as <- _. lia. }
  destruct (actr_refill A s) as [s1 [u|e| |]]; try discriminate E. specialize (Hr s1 u eq_refl). destruct (blit _ _ _ _ _); try discriminate E. cbv zeta in E.
  destruct (Z.ltb_spec (Z.min (16 - ac_opos s1) len) len).
  - apply IH in E; [exact E|]. cbn [ac_opos]. lia.
  - pose proof (f_equal (fun x => fst (fst x)) E) as E2; cbn [fst] in E2; rewrite <- E2. cbn [ac_opos]. lia.
Qed.
Lemma actr_after aes E : block_computes aes 16 E -> (forall b, zlen b = 16 -> bytes_ok b -> zlen (E b) = 16) -> forall qs, Forall q_valid qs -> forall s n, arel aes E s n -> 0 < ac_opos s <= 16 ->
  arel aes E (r_after (actr_class (b_bc aes)) s qs) (n + asked qs) /\ 0 < ac_opos (r_after (actr_class (b_bc aes)) s qs) <= 16.
Proof.
  intros Ha HE. induction 1 as [|q qs V _ IH]; intros s n R P; cbn [r_after asked fold_right]; [rewrite Nat.add_0_r; now split|]. unfold q_valid in V. apply in_range_true in V. cbn [actr_class r_bytes].
  destruct (aloop_ok aes E Ha HE (S (Z.to_nat (q_len q))) s n (q_buf q) (q_ofs q) (q_len q) R) as (s' & Es & R'); try lia. pose proof (actr_opos _ _ _ _ _ _ _ _ Es P) as P'. rewrite Es. cbn [fst snd]. rewrite Nat.add_assoc. now apply IH.
Qed.
Lemma actr_goes_on nb seed : (nb = new_aes fresh Encrypt \/ nb = new_aesni fresh Encrypt) -> bytes_ok seed -> 16 <= zlen seed ->
  exists o, pseudo_rng_aes_ctr fresh nb seed = Ret o /\ forall qs qs', Forall q_valid qs -> Forall q_valid qs' -> (asked qs mod 16 = 0)%nat ->
  r_run (ro_class o) (fst (r_wipe (ro_class o) (r_after (ro_class o) (ro_st o) qs))) qs' = delivered (ctr_stream (aes_E (firstn 16 seed))) (asked qs) qs'.
Proof.
  intros Hnb B H. unfold pseudo_rng_aes_ctr. replace (zlen seed <? 16) with false by lia. unfold bytes_sub. replace (in_range seed 0 16) with true by (symmetry; apply in_range_true; lia). cbn [obind].
  unfold sub. cbn [Z.to_nat skipn]. change (Pos.to_nat 16) with 16%nat. assert (K : aes_key_size (firstn 16 seed)) by (left; unfold zlen in *; rewrite firstn_length; lia).
  assert (BK : bytes_ok (firstn 16 seed)) by (apply Forall_firstn, B).
  assert (X : exists o, nb (firstn 16 seed) = Ret o /\ block_computes o 16 (aes_E (firstn 16 seed))).
  { destruct Hnb as [->| ->]; [destruct (new_aes_computes fresh Encrypt (firstn 16 seed) fresh_len K BK) as (b & Eb & Cb & _)|destruct (new_aesni_computes fresh Encrypt (firstn 16 seed) fresh_len K BK) as (b & Eb & Cb & _)]; exists b; auto. }
  destruct X as (b & Eb & Cb). rewrite Eb. cbn [obind]. eexists. split; [reflexivity|]. intros qs qs' V V' Hm. cbn [ro_class ro_st].
  assert (forall x, zlen x = 16 -> bytes_ok x -> zlen (aes_E (firstn 16 seed) x) = 16) as HE by (intros x Hx Bx; now apply aes_E_blk).
  apply (actr_delivers b _ Cb HE); [exact V'|].
  assert (arel b (aes_E (firstn 16 seed)) (ACtr (b_st b) (zeros 16) (fresh 16) 16 seed) 0) as R0.
  { split; [reflexivity|]. cbn [ac_opos ac_obuf ac_ctr]. split; [lia|]. split; [apply fresh_len; lia|]. exists 0. split; [reflexivity|]. split; lia. }
  destruct (actr_after b _ Cb HE qs V _ _ R0) as (R & P); [cbn [ac_opos]; lia|]. cbn [Nat.add] in R. set (s := r_after _ _ qs) in *. destruct R as (R1 & R2 & R3 & k & R4 & R5 & R6).
  cbn [actr_class r_wipe fst]. split; [exact R1|]. cbn [ac_opos ac_obuf ac_ctr]. split; [exact R2|split; [unfold zlen in *; rewrite map_length; exact R3|]].
  exists k. split; [exact R4|split; [exact R5|]]. clear - R5 P Hm. assert (ac_opos s = 16) by lia. lia.
Qed.

(* ---------------- MACs over a cipher that wipe leaves unusable ---------------- *)
Lemma mac_stuck C (s : mst C) b : 0 < bc_blocksize C <= 16 -> stuck C (mc_c s) -> zlen b = 17 -> zlen (mc_buf s) = bc_blocksize C -> zlen (mc_iv s) = bc_blocksize C -> mc_used s = 0 ->
  snd (mac_add_substring C s b 0 17) = Undef.
Proof.
  intros Hb Hs Hl Hi Hv Hu. unfold mac_add_substring. cbn [m_add]. change (17 <=? 0) with false. cbv iota. rewrite Hu. change (wrap63 (0 + 17)) with 17.
  destruct (Z.leb_spec 17 (bc_blocksize C)); [lia|]. cbv zeta. rewrite blit_ok by lia. cbn [m_to_buf bind mc_iv mc_buf mc_used mc_c].
  unfold m_block at 1. cbn [mc_iv mc_buf mc_used mc_c]. set (bf := splice _ _ _). assert (zlen bf = bc_blocksize C) as Hbf by (subst bf; rewrite zlen_splice by (rewrite ?zlen_sub by lia; lia); lia).
  destruct (xor_bytes_safe (mc_iv s) 0 bf 0 (bc_blocksize C)) as (r & -> & Hr); try lia. cbn [m_to_buf bind mc_iv mc_buf mc_used mc_c].
  apply undef_bind. unfold m_transform. cbn [mc_iv mc_buf mc_used mc_c snd]. apply Hs; lia.
Qed.
Lemma mac_new_stuck nb iv p key o b : (forall c, nb key = Ret c -> b_stuck c) -> block_mac fresh nb iv p key = Ret o -> zlen b = 17 ->
  snd (h_run (ho_class o) (ho_st o) [HWipe; AddString b]) = [OUnit; OUndef].
Proof.
  intros G E Hl. unfold block_mac in E. destruct (nb key) as [c|e| |] eqn:Ec; cbn [obind] in E; try discriminate E. destruct (G c eq_refl) as (Hb & Hs).
  unfold mac_new, mac_init in E. destruct (make_initial_iv _ iv) as [v|e| |] eqn:Ev; cbn [obind] in E; try discriminate E. apply ret_inj in E. subst o. cbn [ho_class ho_st].
  assert (zlen v = bc_blocksize (b_bc c)) as Lv.
  { unfold make_initial_iv in Ev. destruct iv as [x|]; [|apply ret_inj in Ev; subst v; rewrite zlen_zeros; lia]. destruct (Z.eqb_spec (zlen x) (bc_blocksize (b_bc c))); [|discriminate Ev]. apply ret_inj in Ev. now subst v. }
  cbn [h_run h_step mac mac_with h_wipe h_add_string mac_wipe unit_obs fst snd mc_iv mc_buf mc_used mc_c]. rewrite Hl.
  match goal with |- context [mac_add_substring ?C ?s b 0 17] => pose proof (mac_stuck C s b Hb Hs Hl) as K; destruct (mac_add_substring C s b 0 17) as [s2 o2] end.
  cbn [mc_buf mc_iv mc_used snd] in K. rewrite K; [reflexivity| | |reflexivity].
  - rewrite zlen_zeros by apply zlen_nonneg. rewrite fresh_len; lia.
  - rewrite zlen_zeros by apply zlen_nonneg. exact Lv.
Qed.
End Fresh.
