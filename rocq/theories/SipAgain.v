(* Results of a SipHash object called again. *)
From Verif Require Import Prelude PreludeFacts BytesNum Word WordIO SpecBlock BlockTotal SpecHash SpecMac HashModel HashSpec HashFacts MdModel MdHash SipModel Sip
  SpecAgain SpecSipAgain Again.

Lemma sip_end_ok long v : sip_ok v -> sip_ok (fst (sip_end long v)).
Proof.
  destruct v as [[[v0 v1] v2] v3]. intros (A & B & C & D). unfold sip_end. destruct long.
  - destruct (final_ok (v0, v1, Z.lxor v2 238, v3)) as (_ & O); [unfold sip_ok; split; [wok|]; split; [wok|]; split; wok|].
    destruct (Nat.iter 4 sip_round (v0, v1, Z.lxor v2 238, v3)) as [[[x0 x1] x2] x3]. destruct O as (A2 & B2 & C2 & D2).
    apply (final_ok (x0, Z.lxor x1 221, x2, x3)). unfold sip_ok; split; [wok|]; split; [wok|]; split; wok.
  - apply (final_ok (v0, v1, Z.lxor v2 255, v3)). unfold sip_ok; split; [wok|]; split; [wok|]; split; wok.
Qed.
Lemma sip_final_step (long : bool) s : sip_ok (sv s) -> word_ok 64 (c_last_word s) ->
  let r := sip_end long (sip_compress (sv s) (c_last_word s)) in
  c_sip_final (if long then 16 else 8) s = (Sip (fst r) (sbuf s) (sused s) (slen8 s), Ret (snd r)) /\ sip_ok (fst r).
Proof.
  intros Hok Hw. cbn zeta. destruct (mix_ok (sv s) (c_last_word s) Hok Hw) as (E1 & O1). split; [|apply sip_end_ok; exact O1].
  unfold c_sip_final, sip_end. rewrite E1. destruct (sip_compress (sv s) (c_last_word s)) as [[[w0 w1] w2] w3].
  destruct O1 as (A & B & C & D). destruct long; cbn [Z.eqb Pos.eqb].
  - destruct (final_ok (w0, w1, Z.lxor w2 238, w3)) as (-> & O2); [unfold sip_ok; split; [wok|]; split; [wok|]; split; wok|]. destruct (Nat.iter 4 sip_round (w0, w1, Z.lxor w2 238, w3)) as [[[x0 x1] x2] x3].
    destruct O2 as (A2 & B2 & C2 & D2). destruct (final_ok (x0, Z.lxor x1 221, x2, x3)) as (-> & O3); [unfold sip_ok; split; [wok|]; split; [wok|]; split; wok|].
    cbn [fst snd]. rewrite !sip_store_ok. reflexivity.
  - destruct (final_ok (w0, w1, Z.lxor w2 255, w3)) as (-> & O2); [unfold sip_ok; split; [wok|]; split; [wok|]; split; wok|]. cbn [fst snd]. rewrite sip_store_ok. reflexivity.
Qed.
Lemma sip_iter (long : bool) sz x k : sz / 8 = (if long then 16 else 8) -> word_ok 64 x -> forall s, c_last_word s = x -> sip_ok (sv s) ->
  nth_result (siphash_class sz) s k = Ret (snd (sip_end long (sip_compress (Nat.iter k (fun v => fst (sip_end long (sip_compress v x))) (sv s)) x))).
Proof.
  intros Hsz Hx. induction k as [|k IH]; intros s El Hok.
  - cbn [nth_result siphash_class c_hash h_result]. rewrite Hsz. subst x. destruct (sip_final_step long s Hok Hx) as (-> & _). reflexivity.
  - subst x. destruct (sip_final_step long s Hok Hx) as (E & Hok'). set (r := sip_end long (sip_compress (sv s) (c_last_word s))) in *.
    cbn [nth_result]. assert (E' : h_result (siphash_class sz) s = (Sip (fst r) (sbuf s) (sused s) (slen8 s), Ret (snd r))) by (cbn [siphash_class c_hash h_result]; rewrite Hsz; exact E).
    rewrite E'. cbn [fst]. refine (eq_trans (IH (Sip (fst r) (sbuf s) (sused s) (slen8 s)) eq_refl Hok') _). cbn [sv Nat.iter]. unfold r.
    rewrite (Nat_iter_comm (fun v => fst (sip_end long (sip_compress v (c_last_word s)))) k (sv s)). reflexivity.
Qed.

Lemma siphash_again fresh (long : bool) key ops k : (forall n, 0 <= n -> zlen (fresh n) = n) -> zlen key = 16 -> bytes_ok key -> Forall hop_valid ops ->
  exists o, siphash_new fresh (if long then 128 else 64) key = Ret o /\ results_from o ops k = Ret (siphash_results long key (added ops) k).
Proof.
  intros Hf Hk Hb Hops. set (sz := if long then 128 else 64). assert (Hsz : sz = 64 \/ sz = 128) by (destruct long; auto).
  unfold siphash_new. rewrite Hk. assert ((16 =? 16) && ((sz =? 64) || (sz =? 128)) = true) as -> by (destruct long; reflexivity).
  eexists. split; [reflexivity|]. unfold results_from. cbn [ho_class ho_st].
  set (k0 := le (firstn 8 key)). set (k1 := le (skipn 8 key)).
  assert (H0 : sip_load key = k0) by (apply sip_load_ok; assumption).
  assert (H1 : sip_load (skipn 8 key) = k1) by (rewrite sip_load_ok by (apply Forall_skipn; assumption); rewrite firstn_all2 by (rewrite skipn_length; unfold zlen in Hk; lia); reflexivity).
  assert (W0 : word_ok 64 k0) by (rewrite <- H0; apply sip_load_word; assumption).
  assert (W1 : word_ok 64 k1) by (rewrite <- H1; apply sip_load_word; apply Forall_skipn; assumption).
  set (v := c_sip_init fresh key (sz / 8)). assert (Hv : sip_ok (sv v)).
  { unfold v, c_sip_init. cbn [sv]. rewrite H0, H1. unfold sip_ok, sz. destruct long; cbn [Z.eqb Pos.eqb Z.div Z.div_eucl Z.pos_div_eucl]; (split; [wok|]; split; [destruct (_ =? _); wok|]; split; wok). }
  assert (HR : sipR (sv v) v []) by (unfold v at 2, c_sip_init; apply sip_new_R; [assumption|apply Hf; lia]).
  assert (Esv : sv v = let '(a, b, c, d) := sip_init key in (a, if long then Z.lxor b 0xee else b, c, d)).
  { unfold v, c_sip_init. cbn [sv]. rewrite H0, H1. unfold sip_init. fold k0 k1. rewrite !(Z.lxor_comm _ k0), !(Z.lxor_comm _ k1). unfold sz. destruct long; reflexivity. }
  pose proof (himpl_state _ _ _ _ (sip_himpl (sv v) sz Hsz) v ops HR Hops Logic.I) as HR'. clear HR. set (m := added ops) in *. set (s := fst (h_run (siphash_class sz) v ops)) in *.
  clearbody m s. unfold siphash_results. rewrite <- Esv. clear Esv H0 H1 W0 W1. set (v0 := sv v) in *. clearbody v0.
  destruct HR' as (Hm & blks & tail & junk & Em & Hbl & Ht & Hok & Es & Eu & Eb & Hlen & El).
  assert (Htb : bytes_ok tail) by (rewrite Em in Hm; apply bytes_ok_app in Hm; apply Hm). pose proof (zlen_nonneg tail) as Ht0.
  pose proof (sip_mod_blocks blks tail Hbl Ht) as Emod. rewrite <- Em in Emod.
  pose proof (last_word_ok s tail junk (zlen m) Eb Ht Htb El (eq_sym Emod)) as EL.
  assert (EW : le_words 8 (sip_pad m) = map le blks ++ [c_last_word s]) by (rewrite EL, Em; apply sip_words; assumption).
  assert (Hw : word_ok 64 (c_last_word s)).
  { rewrite EL. apply word_ok_le; [|rewrite !zlen_app, zlen_one, zlen_zeros by lia; lia]. apply bytes_ok_app. split; [assumption|]. apply bytes_ok_app.
    split; [apply bytes_ok_zeros|]. repeat constructor; unfold byte_ok; apply Z.mod_pos_bound; lia. }
  cbv zeta. rewrite EW, last_last, removelast_last. fold (words_state v0 blks). rewrite <- Es in Hok |- *.
  apply sip_iter; [unfold sz; destruct long; reflexivity|assumption|reflexivity|assumption].
Qed.
