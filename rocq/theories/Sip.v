(* SipHash objects compute SipHash-2-4. *)
From Verif Require Import Prelude PreludeFacts BytesNum Word WordIO SpecBlock BlockTotal SpecHash SpecMac HashModel HashSpec HashFacts MdModel MdHash SipModel.

Definition sip_ok (v : Z * Z * Z * Z) : Prop :=
  let '(v0, v1, v2, v3) := v in word_ok 64 v0 /\ word_ok 64 v1 /\ word_ok 64 v2 /\ word_ok 64 v3.
Ltac wok := match goal with
  | |- word_ok 64 (Z.lxor _ _) => apply word_ok_lxor; [lia|wok|wok]
  | |- word_ok 64 (c_add _ _ _) => apply word_ok_add; lia
  | |- word_ok 64 (_ mod 2 ^ 64) => apply word_ok_mod; lia
  | |- word_ok 64 (c_rol _ _ _) => apply word_ok_rol; [lia|lia|wok]
  | |- word_ok 64 (rotl _ _ _) => apply word_ok_rotl; [wok|lia]
  | |- _ => assumption || (unfold word_ok; lia)
  end.
Lemma round_ok v : sip_ok v -> c_sip_round v = sip_round v /\ sip_ok (sip_round v).
Proof.
  destruct v as [[[v0 v1] v2] v3]. intros (H0 & H1 & H2 & H3). unfold c_sip_round, sip_round. split.
  - cbv zeta. repeat (rewrite c_rol_rotl by (wok || lia)). reflexivity.
  - cbv zeta. unfold sip_ok. split; [wok|]. split; [wok|]. split; wok.
Qed.
Lemma iter2 v : Nat.iter 2 sip_round v = sip_round (sip_round v).
Proof. reflexivity. Qed.
Lemma iter4 v : Nat.iter 4 sip_round v = sip_round (sip_round (sip_round (sip_round v))).
Proof. reflexivity. Qed.
Lemma mix_ok v x : sip_ok v -> word_ok 64 x -> c_sip_mix v x = sip_compress v x /\ sip_ok (sip_compress v x).
Proof.
  destruct v as [[[v0 v1] v2] v3]. intros (H0 & H1 & H2 & H3) Hx. unfold c_sip_mix, sip_compress. rewrite iter2.
  assert (O : sip_ok (v0, v1, v2, Z.lxor v3 x)) by (unfold sip_ok; split; [wok|]; split; [wok|]; split; wok).
  destruct (round_ok _ O) as (E1 & O1). destruct (round_ok _ O1) as (E2 & O2). rewrite E1, E2. clear E1 E2 O1 O.
  destruct (sip_round (sip_round (v0, v1, v2, Z.lxor v3 x))) as [[[a b] c] d].
  destruct O2 as (A & B & C & D). split; [reflexivity|]. unfold sip_ok. split; [wok|]. split; [wok|]. split; wok.
Qed.
Lemma final_ok v : sip_ok v -> c_final_rounds v = (Nat.iter 4 sip_round v, sip_xor (Nat.iter 4 sip_round v)) /\ sip_ok (Nat.iter 4 sip_round v).
Proof.
  intros H. unfold c_final_rounds. rewrite iter4. destruct (round_ok _ H) as (-> & O1). destruct (round_ok _ O1) as (-> & O2).
  destruct (round_ok _ O2) as (-> & O3). destruct (round_ok _ O3) as (-> & O4). clear O1 O2 O3. destruct (sip_round (sip_round _)) as [[[a b] c] d]. split; [reflexivity|exact O4].
Qed.
Lemma sip_load_ok p : bytes_ok p -> sip_load p = le (firstn 8 p).
Proof. intros H. apply load_le_ok; [lia|lia|assumption]. Qed.
Lemma sip_load_word p : bytes_ok p -> word_ok 64 (sip_load p).
Proof. intros H. rewrite sip_load_ok by assumption. apply (le_firstn_bound p 8). assumption. Qed.
Lemma sip_store_ok v : sip_store v = to_le 8 v.
Proof.
  unfold sip_store. apply (nth_ext _ _ 0 0); [rewrite map_length, seq_length, length_to_le; reflexivity|].
  intros i Hi. rewrite map_length, seq_length in Hi. rewrite nth_map_seq, nth_to_le by assumption. reflexivity.
Qed.

Section Sip.
Variable v0 : sip_state.
Hypothesis v0_ok : sip_ok v0.

(* the state after the complete words of m *)
Definition words_state (blks : list bytes) : sip_state := fold_left sip_compress (map le blks) v0.
Lemma words_state_snoc blks b : zlen b = 8 -> bytes_ok b -> sip_ok (words_state blks) ->
  c_sip_mix (words_state blks) (sip_load b) = words_state (blks ++ [b]) /\ sip_ok (words_state (blks ++ [b])).
Proof.
  intros Hl Hb Hok. unfold words_state. rewrite map_app, fold_left_app. cbn [map fold_left].
  replace (le b) with (sip_load b) by (rewrite sip_load_ok, firstn_all2 by (assumption || (unfold zlen in *; lia)); reflexivity).
  apply mix_ok; [exact Hok|apply sip_load_word; assumption].
Qed.
Definition sipR (s : sip) (m : bytes) : Prop :=
  bytes_ok m /\ exists blks tail junk, m = concat blks ++ tail /\ Forall (fun b => zlen b = 8) blks /\ zlen tail < 8 /\
    sip_ok (words_state blks) /\ sv s = words_state blks /\ sused s = zlen tail /\ sbuf s = tail ++ junk /\ zlen (tail ++ junk) = 8 /\
    slen8 s = zlen m mod 256.

Lemma sip_loop_ok fuel : forall blks buf p, (length p < fuel)%nat -> Forall (fun b => zlen b = 8) blks -> sip_ok (words_state blks) -> zlen buf = 8 -> bytes_ok p ->
  exists blks' tail junk, c_sip_loop fuel (words_state blks) buf p = Ret (words_state blks', tail ++ junk, zlen tail) /\
    concat blks ++ p = concat blks' ++ tail /\ Forall (fun b => zlen b = 8) blks' /\ zlen tail < 8 /\ sip_ok (words_state blks') /\ zlen (tail ++ junk) = 8.
Proof.
  induction fuel as [|fuel IH]; intros blks buf p Hf Hbl Hok Hbuf Hp; [lia|]. cbn [c_sip_loop]. destruct (zlen p >=? 8) eqn:E.
  - set (b := firstn 8 p). set (p' := skipn 8 p). assert (Ep : p = b ++ p') by (symmetry; apply firstn_skipn).
    assert (Hb : zlen b = 8) by (unfold b; rewrite zlen_firstn; lia). assert (Hbo : bytes_ok b) by (apply Forall_firstn; assumption).
    replace (sip_load p) with (sip_load b) by (rewrite !sip_load_ok by assumption; unfold b; rewrite firstn_firstn; reflexivity).
    destruct (words_state_snoc blks b Hb Hbo Hok) as (-> & Hok').
    destruct (IH (blks ++ [b]) buf p') as (blks' & tail & junk & E1 & E2 & H3); try assumption.
    { unfold p'. rewrite skipn_length. unfold zlen in E. lia. } { apply Forall_app. split; [assumption|]. constructor; [assumption|constructor]. } { apply Forall_skipn. assumption. }
    exists blks', tail, junk. split; [exact E1|]. split; [|exact H3]. rewrite <- E2, Ep, concat_app. cbn [concat]. rewrite app_nil_r, <- app_assoc. reflexivity.
  - pose proof (zlen_nonneg p) as Hp0. exists blks, p, (skipn (length p) buf).
    assert (E1 : (if zlen p >? 0 then c_memcpy buf 0 p else Ret buf) = Ret (p ++ skipn (length p) buf)).
    { destruct (zlen p >? 0) eqn:E0; [rewrite c_memcpy_ok by lia; reflexivity|]. assert (p = []) as -> by (apply zlen_0; lia). reflexivity. }
    rewrite E1. cbn [obind]. repeat split; try assumption; try lia. rewrite zlen_app, zlen_skipn. unfold zlen in *. lia.
Qed.
Lemma len8_add n k : (n mod 256 + k) mod 256 = (n + k) mod 256.
Proof. apply Z.add_mod_idemp_l. lia. Qed.
Lemma sip_add_ok s m p : sipR s m -> bytes_ok p -> exists s', c_sip_add s p = Ret s' /\ sipR s' (m ++ p).
Proof.
  intros (Hm & blks & tail & junk & Em & Hbl & Ht & Hok & Es & Eu & Eb & Hlen & El) Hp. pose proof (zlen_nonneg p) as Hp0. pose proof (zlen_nonneg tail) as Ht0.
  assert (Hmp : bytes_ok (m ++ p)) by (apply bytes_ok_app; auto). assert (Htb : bytes_ok tail) by (rewrite Em in Hm; apply bytes_ok_app in Hm; apply Hm).
  unfold c_sip_add. rewrite Eu, Eb, Es, El, len8_add, <- (zlen_app m p). destruct (zlen p <? 8 - zlen tail) eqn:E1.
  - rewrite c_memcpy_ok by lia. cbn [obind]. eexists. split; [reflexivity|]. split; [assumption|]. rewrite splice_app_mid by reflexivity.
    exists blks, (tail ++ p), (skipn (length p) junk). cbn [sv sbuf sused slen8]. rewrite <- app_assoc.
    split; [rewrite Em, <- app_assoc; reflexivity|]. split; [assumption|]. split; [rewrite zlen_app; lia|]. split; [assumption|]. split; [reflexivity|].
    split; [rewrite zlen_app; reflexivity|]. split; [reflexivity|]. split; [|reflexivity]. rewrite !zlen_app, zlen_skipn in *. unfold zlen in *. lia.
  - destruct (zlen tail >? 0) eqn:E2.
    + set (p1 := firstn (Z.to_nat (8 - zlen tail)) p). set (p2 := skipn (Z.to_nat (8 - zlen tail)) p).
      assert (Ep : p = p1 ++ p2) by (symmetry; apply firstn_skipn). assert (Hp1 : zlen p1 = 8 - zlen tail) by (unfold p1; rewrite zlen_firstn; lia).
      rewrite c_memcpy_ok by lia. cbn [obind]. rewrite splice_app_mid by reflexivity. rewrite skipn_all2 by (rewrite zlen_app in Hlen; unfold zlen in *; lia). rewrite app_nil_r.
      assert (Hb12 : bytes_ok p1 /\ bytes_ok p2) by (apply bytes_ok_app; rewrite <- Ep; assumption).
      assert (Hblk : zlen (tail ++ p1) = 8) by (rewrite zlen_app; lia).
      destruct (words_state_snoc blks (tail ++ p1) Hblk) as (-> & Hok'); [apply bytes_ok_app; tauto|assumption|].
      destruct (sip_loop_ok (S (length p2)) (blks ++ [tail ++ p1]) (tail ++ p1) p2) as (blks' & tail' & junk' & -> & Ec & H4 & H5 & H6 & H7);
        [lia|apply Forall_app; split; [assumption|constructor; [assumption|constructor]]|assumption|assumption|tauto|].
      cbn [obind]. eexists. split; [reflexivity|]. split; [assumption|]. exists blks', tail', junk'. cbn [sv sbuf sused slen8].
      repeat (split; try assumption; try reflexivity). rewrite <- Ec, Em, Ep, concat_app. cbn [concat]. rewrite app_nil_r, <- !app_assoc. reflexivity.
    + assert (tail = []) as -> by (apply zlen_0; lia). cbn [app] in *. rewrite app_nil_r in Em.
      destruct (sip_loop_ok (S (length p)) blks junk p) as (blks' & tail' & junk' & E3 & Ec & H4 & H5 & H6 & H7);
        [lia|assumption|assumption|assumption|assumption|]. cbn [obind]. rewrite E3.
      cbn [obind]. eexists. split; [reflexivity|]. split; [assumption|]. exists blks', tail', junk'. cbn [sv sbuf sused slen8].
      repeat (split; try assumption; try reflexivity). rewrite <- Ec, Em. reflexivity.
Qed.

(* the last word: the bytes left, zeros, the length modulo 256 *)
Lemma last_word_ok s tail junk n : sbuf s = tail ++ junk -> zlen tail < 8 -> bytes_ok tail -> slen8 s = n mod 256 -> zlen tail = n mod 8 ->
  c_last_word s = le (tail ++ zeros (7 - zlen tail) ++ [n mod 256]).
Proof.
  intros Eb Ht Hb El En. pose proof (zlen_nonneg tail) as Ht0. unfold c_last_word. rewrite El, Eb.
  change 7 with (Z.ones 3) at 1. rewrite Z.land_ones by lia. change (2 ^ 3) with 8.
  assert (E8 : (n mod 256) mod 8 = zlen tail).
  { rewrite En. change 256 with (8 * 32). rewrite Z.rem_mul_r, Z.mul_comm, Z.mod_add, Z.mod_mod by lia. reflexivity. }
  rewrite E8. pose proof (Z.mod_pos_bound n 256 ltac:(lia)) as Hn. set (c := n mod 256) in *.
  rewrite !le_app, zlen_zeros by lia. assert (Ez : le (zeros (7 - zlen tail)) = 0) by (unfold zeros; generalize (Z.to_nat (7 - zlen tail)); intros k; induction k as [|k IH]; cbn [repeat le]; [reflexivity|rewrite IH; reflexivity]).
  assert (Eq : 256 ^ zlen tail * 256 ^ (7 - zlen tail) = 2 ^ 56) by (rewrite <- Z.pow_add_r by lia; replace (zlen tail + (7 - zlen tail)) with 7 by lia; reflexivity).
  rewrite Ez. cbn [le]. replace (le tail + 256 ^ zlen tail * (0 + 256 ^ (7 - zlen tail) * (c + 256 * 0))) with (le tail + c * 2 ^ 56) by (rewrite <- Eq; ring).
  assert (Es : c_shl 64 c 56 = c * 2 ^ 56) by (unfold c_shl; rewrite Z.shiftl_mul_pow2 by lia; apply Z.mod_small; change (2 ^ 64) with (256 * 2 ^ 56); nia).
  rewrite Es. assert (G : forall k, (k <= length tail)%nat -> fold_right (fun i w => Z.lor w (c_shl 64 (nth i (tail ++ junk) 0) (8 * Z.of_nat i))) (c * 2 ^ 56) (seq 0 k) = Z.lor (le (firstn k tail)) (c * 2 ^ 56)).
  { assert (G0 : forall f (a : Z) k, fold_right (fun i w => Z.lor w (f i)) a (seq 0 k) = Z.lor (fold_left (fun w i => Z.lor w (f i)) (seq 0 k) 0) a).
    { intros f a k. rewrite <- fold_left_rev_right. generalize (seq 0 k). intros l. rewrite <- (rev_involutive l) at 1. generalize (rev l). clear. intros l.
      revert a. induction l as [|x l IH]; intros a; [reflexivity|]. cbn [rev fold_right]. rewrite fold_right_app. cbn [fold_right]. rewrite IH.
      rewrite <- !Z.lor_assoc. f_equal. apply Z.lor_comm. }
    intros k Hk. rewrite G0. f_equal. clear G0. induction k as [|k IH]; [reflexivity|]. rewrite seq_S, fold_left_app, IH by lia. cbn [fold_left Nat.add].
    rewrite app_nth1 by lia. rewrite le_firstn_S. unfold c_shl. rewrite Z.shiftl_mul_pow2 by lia. pose proof (byte_nth tail k Hb) as Hbk. unfold byte_ok in Hbk.
    rewrite Z.mod_small. { apply lor_shift_add; [lia|]. apply le_firstn_bound. assumption. }
    assert (2 ^ (8 * Z.of_nat k) <= 2 ^ 56) by (apply Z.pow_le_mono_r; unfold zlen in *; lia). assert (0 < 2 ^ (8 * Z.of_nat k)) by (apply Z.pow_pos_nonneg; lia). change (2 ^ 64) with (256 * 2 ^ 56). nia. }
  replace (Z.to_nat (zlen tail)) with (length tail) by (unfold zlen; lia). rewrite G by lia. rewrite firstn_all.
  apply lor_shift_add; [lia|]. pose proof (le_firstn_bound tail (length tail) Hb) as Hle. rewrite firstn_all in Hle. split; [lia|].
  apply Z.lt_le_trans with (2 ^ (8 * Z.of_nat (length tail))); [lia|]. apply Z.pow_le_mono_r; unfold zlen in *; lia.
Qed.
Lemma sip_mod_blocks (blks : list bytes) tail : Forall (fun b => zlen b = 8) blks -> zlen tail < 8 -> zlen (concat blks ++ tail) mod 8 = zlen tail.
Proof.
  intros H Ht. rewrite zlen_app. assert (E : zlen (concat blks) = zlen blks * 8).
  { induction H as [|b l Hb Hl IH]; [reflexivity|]. cbn [concat]. rewrite zlen_app, IH, zlen_cons. lia. }
  rewrite E, Z.add_comm, Z.mod_add by lia. apply Z.mod_small. pose proof (zlen_nonneg tail). lia.
Qed.
Lemma sip_words blks tail : Forall (fun b => zlen b = 8) blks -> zlen tail < 8 ->
  le_words 8 (sip_pad (concat blks ++ tail)) = map le blks ++ [le (tail ++ zeros (7 - zlen tail) ++ [zlen (concat blks ++ tail) mod 256])].
Proof.
  intros Hbl Ht. pose proof (zlen_nonneg tail). unfold sip_pad, le_words. rewrite <- app_assoc, chunks_concat by (assumption || lia).
  assert (Ez : (- (zlen (concat blks ++ tail) + 1)) mod 8 = 7 - zlen tail).
  { symmetry. pose proof (sip_mod_blocks blks tail Hbl Ht) as E. pose proof (Z.div_mod (zlen (concat blks ++ tail)) 8 ltac:(lia)) as D.
    apply Z.mod_unique_pos with (- (zlen (concat blks ++ tail) / 8) - 1); lia. }
  rewrite Ez, chunks_short by (rewrite !zlen_app, zlen_one, zlen_zeros by lia; lia). rewrite map_app. reflexivity.
Qed.

Lemma sip_final_ok outlen s m : sipR s m -> outlen = 8 \/ outlen = 16 ->
  snd (c_sip_final outlen s) = Ret (
    let '(w0, w1, w2, w3) := fold_left sip_compress (le_words 8 (sip_pad m)) v0 in
    if outlen =? 16 then
      let w := Nat.iter 4 sip_round (w0, w1, Z.lxor w2 0xee, w3) in
      let '(x0, x1, x2, x3) := w in
      to_le 8 (sip_xor w) ++ to_le 8 (sip_xor (Nat.iter 4 sip_round (x0, Z.lxor x1 0xdd, x2, x3)))
    else to_le 8 (sip_xor (Nat.iter 4 sip_round (w0, w1, Z.lxor w2 0xff, w3)))).
Proof.
  intros (Hm & blks & tail & junk & Em & Hbl & Ht & Hok & Es & Eu & Eb & Hlen & El) Ho.
  assert (Htb : bytes_ok tail) by (rewrite Em in Hm; apply bytes_ok_app in Hm; apply Hm). pose proof (zlen_nonneg tail) as Ht0.
  pose proof (sip_mod_blocks blks tail Hbl Ht) as Emod. rewrite <- Em in Emod.
  pose proof (last_word_ok s tail junk (zlen m) Eb Ht Htb El (eq_sym Emod)) as EL.
  assert (EW : le_words 8 (sip_pad m) = map le blks ++ [c_last_word s]) by (rewrite EL, Em; apply sip_words; assumption).
  assert (Hw : word_ok 64 (c_last_word s)).
  { rewrite EL. apply word_ok_le; [|rewrite !zlen_app, zlen_one, zlen_zeros by lia; lia]. apply bytes_ok_app. split; [assumption|]. apply bytes_ok_app.
    split; [apply bytes_ok_zeros|]. repeat constructor; unfold byte_ok; apply Z.mod_pos_bound; lia. }
  rewrite EW, fold_left_app. fold (words_state blks). cbn [fold_left]. rewrite <- Es in Hok |- *.
  destruct (mix_ok (sv s) (c_last_word s) Hok Hw) as (E1 & O1). unfold c_sip_final. rewrite E1. destruct (sip_compress (sv s) (c_last_word s)) as [[[w0 w1] w2] w3].
  destruct O1 as (A & B & C & D). destruct Ho as [-> | ->]; cbn [Z.eqb Pos.eqb].
  - destruct (final_ok (w0, w1, Z.lxor w2 255, w3)) as (-> & O2); [unfold sip_ok; repeat (split; [wok|]); wok || (unfold word_ok; lia)|]. cbn [snd]. rewrite sip_store_ok. reflexivity.
  - destruct (final_ok (w0, w1, Z.lxor w2 238, w3)) as (-> & O2); [unfold sip_ok; split; [wok|]; split; [wok|]; split; wok|]. destruct (Nat.iter 4 sip_round (w0, w1, Z.lxor w2 238, w3)) as [[[x0 x1] x2] x3].
    destruct O2 as (A2 & B2 & C2 & D2). destruct (final_ok (x0, Z.lxor x1 221, x2, x3)) as (-> & O3); [unfold sip_ok; split; [wok|]; split; [wok|]; split; wok|].
    cbn [snd]. rewrite !sip_store_ok. reflexivity.
Qed.
Lemma sip_himpl sz : sz = 64 \/ sz = 128 -> himpl (fun _ => True) (siphash_class sz)
  (fun m => Ret (
    let '(w0, w1, w2, w3) := fold_left sip_compress (le_words 8 (sip_pad m)) v0 in
    if sz / 8 =? 16 then
      let w := Nat.iter 4 sip_round (w0, w1, Z.lxor w2 0xee, w3) in
      let '(x0, x1, x2, x3) := w in
      to_le 8 (sip_xor w) ++ to_le 8 (sip_xor (Nat.iter 4 sip_round (x0, Z.lxor x1 0xdd, x2, x3)))
    else to_le 8 (sip_xor (Nat.iter 4 sip_round (w0, w1, Z.lxor w2 0xff, w3))))) sipR.
Proof.
  intros Hsz. apply c_hash_himpl; [auto| |].
  - intros k m d HR Hd _ _. apply sip_add_ok; assumption.
  - intros k m HR _. apply sip_final_ok; [exact HR|]. destruct Hsz as [-> | ->]; [left|right]; reflexivity.
Qed.
Lemma sip_new_R buf : zlen buf = 8 -> sipR (Sip v0 buf 0 0) [].
Proof. intros H. split; [constructor|]. exists [], [], buf. cbn [concat app sv sbuf sused slen8]. split; [reflexivity|]. split; [constructor|]. split; [reflexivity|]. split; [exact v0_ok|]. repeat (split; [reflexivity|]). split; [exact H|reflexivity]. Qed.
End Sip.

Lemma siphash_ok fresh sz key : (forall n, 0 <= n -> zlen (fresh n) = n) -> zlen key = 16 -> bytes_ok key -> sz = 64 \/ sz = 128 ->
  exists o, siphash_new fresh sz key = Ret o /\ h_size (ho_class o) = sz / 8 /\ computes o (if sz =? 64 then siphash64 key else siphash128 key).
Proof.
  intros Hf Hk Hb Hsz. unfold siphash_new. rewrite Hk. assert ((16 =? 16) && ((sz =? 64) || (sz =? 128)) = true) as -> by (destruct Hsz as [-> | ->]; reflexivity).
  eexists. split; [reflexivity|]. split; [reflexivity|].
  set (k0 := le (firstn 8 key)). set (k1 := le (skipn 8 key)).
  assert (H0 : sip_load key = k0) by (apply sip_load_ok; assumption).
  assert (H1 : sip_load (skipn 8 key) = k1) by (rewrite sip_load_ok by (apply Forall_skipn; assumption); rewrite firstn_all2 by (rewrite skipn_length; unfold zlen in Hk; lia); reflexivity).
  assert (W0 : word_ok 64 k0) by (rewrite <- H0; apply sip_load_word; assumption).
  assert (W1 : word_ok 64 k1) by (rewrite <- H1; apply sip_load_word; apply Forall_skipn; assumption).
  set (v := c_sip_init fresh key (sz / 8)). assert (Hv : sip_ok (sv v)).
  { unfold v, c_sip_init. cbn [sv]. rewrite H0, H1. unfold sip_ok. destruct Hsz as [-> | ->]; cbn [Z.eqb Pos.eqb Z.div Z.div_eucl Z.pos_div_eucl]; (split; [wok|]; split; [destruct (_ =? _); wok|]; split; wok). }
  intros ops Hops HP.
  pose proof (himpl_computes _ (siphash_class sz) _ _ v (sip_himpl (sv v) sz Hsz)) as H. assert (HR : sipR (sv v) v []) by (unfold v at 2, c_sip_init; apply sip_new_R; [assumption|apply Hf; lia]).
  specialize (H HR ops Hops HP). destruct H as (A & B & C). split; [exact A|]. split; [|exact C]. rewrite B. f_equal.
  unfold v, c_sip_init. cbn [sv]. rewrite H0, H1. unfold siphash64, siphash128, sip_init. fold k0 k1. rewrite !(Z.lxor_comm _ k0), !(Z.lxor_comm _ k1). destruct Hsz as [-> | ->].
  - reflexivity.
  - change (128 / 8) with 16. change (16 =? 16) with true. change (128 =? 64) with false. cbv iota. reflexivity.
Qed.
Lemma siphash_other fresh sz key : ~ (zlen key = 16 /\ (sz = 64 \/ sz = 128)) -> siphash_new fresh sz key = Raise (Error Wrong_key_size).
Proof. intros H. unfold siphash_new. assert ((zlen key =? 16) && ((sz =? 64) || (sz =? 128)) = false) as -> by lia. reflexivity. Qed.
