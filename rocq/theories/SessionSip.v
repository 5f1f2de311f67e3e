(* SipHash objects that are given more data after result. *)
From Verif Require Import Prelude PreludeFacts BytesNum Word WordIO SpecBlock BlockTotal SpecHash SpecMac HashModel HashSpec HashFacts MdModel MdHash SipModel Sip
  SpecAgain SpecSipAgain SpecSession SpecSipSession Again SipAgain.

(* the context has consumed d from the state v, and counts n bytes *)
Definition sip_pinv (v : sip_state) (s : sip) (d : bytes) (n : Z) : Prop :=
  slen8 s = n mod 256 /\ n mod 8 = zlen d mod 8 /\ sipR v (Sip (sv s) (sbuf s) (sused s) (zlen d mod 256)) d.

Lemma sip_add_count v b u n n2 p s' : c_sip_add (Sip v b u n) p = Ret s' ->
  c_sip_add (Sip v b u n2) p = Ret (Sip (sv s') (sbuf s') (sused s') ((n2 + zlen p) mod 256)).
Proof.
  unfold c_sip_add. cbn [sv sbuf sused slen8]. destruct (zlen p <? 8 - u).
  - destruct (c_memcpy b u p); cbn [obind]; intros E; try discriminate. injection E as <-. reflexivity.
  - destruct (if u >? 0 then _ else _) as [[[v1 b1] p1]| | |]; cbn [obind]; try discriminate.
    destruct (c_sip_loop _ v1 b1 p1) as [[[v2 b2] u2]| | |]; cbn [obind]; intros E; try discriminate. injection E as <-. reflexivity.
Qed.
Lemma sip_padd v s d n x : sip_pinv v s d n -> bytes_ok x -> exists s', c_sip_add s x = Ret s' /\ sip_pinv v s' (d ++ x) (n + zlen x).
Proof.
  intros (E1 & E2 & HR) Hx. destruct (sip_add_ok v _ d x HR Hx) as (s' & E & HR').
  apply (sip_add_count _ _ _ _ (slen8 s)) in E. assert (Es : Sip (sv s) (sbuf s) (sused s) (slen8 s) = s) by (destruct s; reflexivity). rewrite Es in E.
  eexists. split; [exact E|]. split; cbn [sv sbuf sused slen8].
  - rewrite E1. apply Zplus_mod_idemp_l.
  - split; [rewrite zlen_app, Zplus_mod, E2, <- Zplus_mod; reflexivity|]. destruct HR' as (H1 & blks & tail & junk & H2 & H3 & H4 & H5 & H6 & H7 & H8 & H9 & H10).
    split; [exact H1|]. exists blks, tail, junk. cbn [sv sbuf sused slen8]. repeat (split; [assumption|]). reflexivity.
Qed.
Lemma sip_pfinish (long : bool) v s d n : sip_pinv v s d n ->
  let r := sip_end long (fold_left sip_compress (le_words 8 (sip_fill d n)) v) in
  exists s', c_sip_final (if long then 16 else 8) s = (s', Ret (snd r)) /\ sip_pinv (fst r) s' (skipn (Z.to_nat (zlen d / 8 * 8)) d) n.
Proof.
  intros (El & En & Hm & blks & tail & junk & Em & Hbl & Ht & Hok & Es & Eu & Eb & Hlen & _). cbn [sv sbuf sused slen8] in *. cbv zeta.
  assert (Htb : bytes_ok tail) by (rewrite Em in Hm; apply bytes_ok_app in Hm; apply Hm). pose proof (zlen_nonneg tail) as Ht0.
  pose proof (sip_mod_blocks blks tail Hbl Ht) as Emod. rewrite <- Em in Emod.
  assert (Etn : zlen tail = n mod 8) by congruence.
  pose proof (last_word_ok s tail junk n Eb Ht Htb El Etn) as EL.
  assert (EW : le_words 8 (sip_fill d n) = map le blks ++ [c_last_word s]).
  { assert (Ez : (- (zlen d + 1)) mod 8 = 7 - zlen tail).
    { symmetry. pose proof (Z.div_mod (zlen d) 8 ltac:(lia)) as D. apply Z.mod_unique_pos with (- (zlen d / 8) - 1); lia. }
    rewrite EL. unfold sip_fill, le_words. rewrite Ez, Em, <- app_assoc, chunks_concat by (assumption || lia).
    rewrite chunks_short by (rewrite !zlen_app, zlen_one, zlen_zeros by lia; lia). rewrite map_app. reflexivity. }
  assert (Hw : word_ok 64 (c_last_word s)).
  { rewrite EL. apply word_ok_le; [|rewrite !zlen_app, zlen_one, zlen_zeros by lia; lia]. apply bytes_ok_app. split; [assumption|]. apply bytes_ok_app.
    split; [apply bytes_ok_zeros|]. repeat constructor; unfold byte_ok; apply Z.mod_pos_bound; lia. }
  rewrite EW, fold_left_app. cbn [fold_left]. fold (words_state v blks). rewrite <- Es in Hok |- *.
  destruct (sip_final_step long s Hok Hw) as (E & Hok'). cbv zeta in E, Hok'. set (r := sip_end long (sip_compress (sv s) (c_last_word s))) in *.
  eexists. split; [exact E|].
  assert (Esk : skipn (Z.to_nat (zlen d / 8 * 8)) d = tail).
  { assert (Eq : zlen d / 8 * 8 = zlen (concat blks)).
    { pose proof (Z.div_mod (zlen d) 8 ltac:(lia)) as D. rewrite Em in D at 1. rewrite zlen_app in D. lia. }
    rewrite Eq, Em. unfold zlen. rewrite Nat2Z.id, skipn_app, skipn_all, Nat.sub_diag. reflexivity. }
  rewrite Esk. split; [exact El|]. cbn [sv sbuf sused slen8]. split; [rewrite <- Etn, (Z.mod_small (zlen tail)); lia|].
  split; [exact Htb|]. exists [], tail, junk. cbn [sv sbuf sused slen8 concat app]. unfold words_state. cbn [map fold_left].
  repeat (split; [first [reflexivity|assumption|constructor]|]). reflexivity.
Qed.

Lemma sip_psession (long : bool) sz l : sz / 8 = (if long then 16 else 8) -> Forall (Forall hop_valid) l -> forall v s t n, sip_pinv v s t n ->
  session (siphash_class sz) s l = map Ret (sip_session long v t n (map added l)).
Proof.
  intros Hsz. induction l as [|ops l IH]; intros Hv v s t n HR; [reflexivity|]. apply Forall_cons_iff in Hv as (Hv1 & Hv2). cbn [session map sip_session]. cbv zeta.
  assert (HI : himpl (fun _ => True) (siphash_class sz) (fun x => Ret (snd (sip_end long (fold_left sip_compress (le_words 8 (sip_fill (t ++ x) (n + zlen x))) v))))
     (fun s x => sip_pinv v s (t ++ x) (n + zlen x))).
  { apply c_hash_himpl.
    - auto.
    - intros k x y Hk Hy _ _. rewrite app_assoc, zlen_app, Z.add_assoc. apply sip_padd; assumption.
    - intros k x Hk _. destruct (sip_pfinish long v k _ _ Hk) as (s' & E & _). rewrite Hsz, E. reflexivity. }
  assert (HR0 : sip_pinv v s (t ++ []) (n + zlen (@nil Z))) by (rewrite app_nil_r; change (zlen (@nil Z)) with 0; rewrite Z.add_0_r; exact HR).
  destruct (h_run_ok _ _ _ _ HI ops s [] HR0 Hv1 Logic.I) as (s1 & Es & HR1). cbn [app] in HR1. rewrite Es. cbn [fst].
  destruct (sip_pfinish long v s1 _ _ HR1) as (s' & E & HR2).
  set (r := sip_end long _) in *. assert (Er : h_result (siphash_class sz) s1 = (s', Ret (snd r))) by (cbn [siphash_class c_hash h_result]; rewrite Hsz; exact E).
  rewrite Er. cbn [fst snd]. f_equal. exact (IH Hv2 _ _ _ _ HR2).
Qed.

Lemma siphash_session_ok fresh (long : bool) key l : (forall n, 0 <= n -> zlen (fresh n) = n) -> zlen key = 16 -> bytes_ok key -> Forall (Forall hop_valid) l ->
  exists o, siphash_new fresh (if long then 128 else 64) key = Ret o /\ session_of o l = map Ret (siphash_session long key (map added l)).
Proof.
  intros Hf Hk Hb Hl. set (sz := if long then 128 else 64). assert (Hsz : sz = 64 \/ sz = 128) by (destruct long; auto).
  unfold siphash_new. rewrite Hk. assert ((16 =? 16) && ((sz =? 64) || (sz =? 128)) = true) as -> by (destruct long; reflexivity).
  eexists. split; [reflexivity|]. unfold session_of. cbn [ho_class ho_st].
  set (k0 := le (firstn 8 key)). set (k1 := le (skipn 8 key)).
  assert (H0 : sip_load key = k0) by (apply sip_load_ok; assumption).
  assert (H1 : sip_load (skipn 8 key) = k1) by (rewrite sip_load_ok by (apply Forall_skipn; assumption); rewrite firstn_all2 by (rewrite skipn_length; unfold zlen in Hk; lia); reflexivity).
  assert (W0 : word_ok 64 k0) by (rewrite <- H0; apply sip_load_word; assumption).
  assert (W1 : word_ok 64 k1) by (rewrite <- H1; apply sip_load_word; apply Forall_skipn; assumption).
  set (v := c_sip_init fresh key (sz / 8)). assert (Hv : sip_ok (sv v)).
  { unfold v, c_sip_init. cbn [sv]. rewrite H0, H1. unfold sip_ok, sz. destruct long; cbn [Z.eqb Pos.eqb Z.div Z.div_eucl Z.pos_div_eucl]; (split; [wok|]; split; [destruct (_ =? _); wok|]; split; wok). }
  assert (HR : sipR (sv v) v []) by (unfold v at 2, c_sip_init; apply sip_new_R; [assumption|apply Hf; lia]).
  assert (Esv : sv v = let '(a, b, c, d) := sip_init key in (a, if long then Z.lxor b 0xee else b, c, d)).
  { unfold v, c_sip_init. cbn [sv]. rewrite H0, H1. unfold sip_init. fold k0 k1. rewrite !(Z.lxor_comm _ k0), !(Z.lxor_comm _ k1). unfold sz. destruct long; reflexivity. }
  assert (HP : sip_pinv (sv v) v [] 0).
  { split; [reflexivity|]. split; [reflexivity|]. exact HR. }
  unfold siphash_session. destruct (sip_init key) as [[[a b] c] d]. rewrite <- Esv. apply sip_psession; [unfold sz; destruct long; reflexivity|exact Hl|exact HP].
Qed.
