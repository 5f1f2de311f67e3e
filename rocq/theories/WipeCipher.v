(* Memory safety of the ciphers, wipe included; AES after wipe *)
From Verif Require Import Prelude PreludeFacts SpecTransducer BufOutModel BufOut TransformModel BlockModel CipherModel EncModel HashModel
  SpecWipe WipeSafe CipherSpec BytesNum SpecAes KeccakModel Keccak AesModel Aes AesniModel Aesni DesModel BlowfishModel StreamModel.

(* a block cipher object: its blocks are small, its calls stay in bounds, w: so do those after wipe *)
Definition b_good (w : bool) (c : bobj) : Prop :=
  exists I, bc_good (b_bc c) I /\ I (b_st c) /\ 0 < bc_blocksize (b_bc c) <= 2 ^ 40 /\
  (w = true -> forall s, I s -> I (bc_wipe (b_bc c) s)).

Section Fresh.
Variable fresh : Z -> bytes.
Hypothesis fresh_len : forall n, 0 <= n -> zlen (fresh n) = n.

Lemma chunk_ok_range C n : chunk_ok C n = true -> 0 < n <= bc_blocksize C.
Proof. unfold chunk_ok. lia. Qed.
Lemma chain_good w m d iv c cc : b_good w c -> chain fresh m d iv c = Ret cc -> b_good w cc.
Proof.
  intros (I & G & HI & Hbs & Hw) E. destruct c as [C c0]. unfold chain in E. cbn [b_bc b_st] in *.
  assert (0 < bc_blocksize C) as Hp by lia.
  assert (forall max m0, mode_init fresh C max iv c0 = Ret m0 -> MI C I m0) as Hi by (intros max m0; now apply mode_init_good).
  assert (w = true -> forall s : mode_st C, MI C I s -> MI C I (mode_wipe C s)) as Hmw by (intros Hwt; apply mode_wipe_good; auto).
  assert (forall n max m0, chunked_init fresh C n max iv c0 = Ret m0 -> 0 < n <= bc_blocksize C /\ MI C I m0) as Hc.
  { intros n max m0. unfold chunked_init. destruct (chunk_ok C n) eqn:En; [|discriminate]. intros Em. apply chunk_ok_range in En. split; [exact En|now apply (Hi max)]. }
  destruct m as [| |n|n| |n], d; 
    try (injection E as <-; exists I; exact (conj G (conj HI (conj Hbs Hw))));
    match type of E with
    | obind ?x _ = _ => destruct x as [m0|e| |] eqn:Em; cbn [obind] in E; try discriminate E; injection E as <-
    end;
    try (apply Hi in Em); try (apply Hc in Em; destruct Em as (En & Em)); exists (MI C I); cbn [b_bc b_st];
    (split; [|split; [exact Em|split; [cbn; lia|exact Hmw]]]);
    first [now apply (cbc_encrypt_good fresh)|now apply (cbc_decrypt_good fresh)|now apply (cfb_encrypt_good fresh)|now apply (cfb_decrypt_good fresh)|now apply (ofb_good fresh)|now apply (ctr_good fresh)].
Qed.

(* w = false: the calls without wipe *)
Definition unwiped_memory_safe (o : tobj) : Prop :=
  forall l, Forall op_possible l -> ~ In OUndef (snd (w_run (o_tr o) (o_st o) (map Call l))).
Lemma scheme_of_good p : scheme_good (scheme_of p).
Proof. destruct p; [apply length_good|apply p8000_good]. Qed.
Lemma make_block_fin (w : bool) m p iv d c o : b_good w c -> make_block_cipher fresh m (option_map scheme_of p) iv d c = Ret o ->
  unwiped_memory_safe o /\ (w = true -> memory_safe (o_tr o) (o_st o)).
Proof.
  intros G E. unfold make_block_cipher in E. destruct (chain _ _ _ _ _) as [cc|e| |] eqn:Ec; cbn [obind] in E; try discriminate E.
  apply (chain_good w) in Ec; [|exact G]. destruct Ec as (I & Gc & HI & Hbs & Hw). destruct cc as [C c0]. cbn [b_bc b_st] in *.
  assert (0 < bc_blocksize C <= 2 ^ 60) as Hb by lia.
  pose proof (cipher_new_good fresh fresh_len C I Hb c0 HI ltac:(lia)) as Hn.
  assert (forall fin, (forall s, CI C I s -> good (CI C I) (fin s)) ->
    unwiped_memory_safe (TObj (cipher_with_finish fresh C fin) (cipher_new fresh C c0)) /\
    (w = true -> memory_safe (cipher_with_finish fresh C fin) (cipher_new fresh C c0))) as H.
  { intros fin Hf. split.
    - intros l. apply (t_calls_safe (cipher_with_finish fresh C fin) (CI C I)); [|exact Hn]. now apply cipher_calls.
    - intros Hwt. apply (t_good_safe (cipher_with_finish fresh C fin) (CI C I)); [|exact Hn]. apply cipher_good; try assumption. now apply Hw. }
  destruct p as [p|]; [destruct d|]; cbn [option_map] in E; injection E as <-; cbn [o_tr o_st]; apply H; intros s Hs.
  - apply padded_encrypt_good; try assumption. apply scheme_of_good.
  - apply padded_decrypt_good; try assumption. apply scheme_of_good.
  - now apply flush_good.
Qed.
Lemma make_cipher_good w nb m p iv key d o : (forall d c, nb d key = Ret c -> b_good w c) -> make_cipher fresh nb m (option_map scheme_of p) iv key d = Ret o ->
  unwiped_memory_safe o /\ (w = true -> memory_safe (o_tr o) (o_st o)).
Proof.
  intros G E. unfold make_cipher in E. destruct (nb _ _) as [c|e| |] eqn:Ec; cbn [obind] in E; try discriminate E.
  eapply make_block_fin; [|exact E]. now apply (G _ _ Ec).
Qed.

(* ---------------- DES, triple DES, Blowfish ---------------- *)
Lemma d3des_len k b : zlen (d3des_transform k b) = 8.
Proof. unfold d3des_transform. cbv zeta. unfold unscrun. reflexivity. Qed.
Lemma new_des_good d key c : new_des d key = Ret c -> b_good true c.
Proof.
  unfold new_des. destruct (_ =? _); [|discriminate]. intros E. injection E as <-. exists (fun _ => True). cbn [b_bc b_st].
  split; [|split; [trivial|split; [cbn; lia|trivial]]]. apply raw_good; [|lia].
  intros k b _ _. split; [discriminate|]. intros r Er. injection Er as <-. apply d3des_len.
Qed.
Lemma triple_good : bc_good triple_des_class (fun _ => True).
Proof.
  intros [[k1 k2] k3] src so dst d _ H1 H2 H3 H4. cbn [triple_des_class bc_transform bc_blocksize] in *.
  destruct (_ || _); [apply good_raise; now split|]. apply good_ret. split; [trivial|]. cbn [snd].
  assert (forall k b x, zlen x = zlen dst -> zlen (splice x d (d3des_transform k b)) = zlen dst) as Hs.
  { intros k b x Hx. rewrite zlen_splice; rewrite ?d3des_len; lia. }
  apply Hs, Hs, Hs. reflexivity.
Qed.
Lemma new_triple_des_good d key c : new_triple_des d key = Ret c -> b_good true c.
Proof.
  unfold new_triple_des. destruct (_ && _); [discriminate|]. intros E. destruct d; injection E as <-; exists (fun _ => True); cbn [b_bc b_st];
    (split; [apply triple_good|split; [trivial|split; [cbn; lia|trivial]]]).
Qed.
Lemma bf_stub_len f b : zlen (bf_stub f b) = 8.
Proof. unfold bf_stub. cbv zeta. rewrite zlen_app, !zlen_to_be. reflexivity. Qed.
Lemma new_blowfish_good d key c : new_blowfish d key = Ret c -> b_good true c.
Proof.
  unfold new_blowfish. destruct (_ && _); [|discriminate]. intros E. destruct d; injection E as <-; exists (fun _ => True); cbn [b_bc b_st];
    (split; [|split; [trivial|split; [cbn; lia|trivial]]]); (apply raw_good; [|lia]);
    intros k b _ _; (split; [discriminate|]); intros r Er; injection Er as <-; apply bf_stub_len.
Qed.

(* ---------------- AES without wipe ---------------- *)
Lemma rk_enc_len rk p t : zlen (enc_last rk p t) = 16.
Proof. destruct t as [[[t0 t1] t2] t3]. reflexivity. Qed.
Lemma rk_dec_len rk p t : zlen (dec_last rk p t) = 16.
Proof. destruct t as [[[t0 t1] t2] t3]. reflexivity. Qed.
Lemma new_aes_good d key c : bytes_ok key -> new_aes fresh d key = Ret c -> b_good false c.
Proof.
  intros B. unfold new_aes. destruct (aes_key_ok key) eqn:K; [|discriminate]. apply aes_key_ok_size in K. intros E.
  assert (zlen (zeros 16) = 16 /\ bytes_ok (zeros 16)) as (Z1 & Z2) by (split; [reflexivity|apply bytes_ok_zeros]).
  assert (forall b c, (exists r, (if (b : bool) then c else @Undef bytes) = Ret r) -> b = true) as Hb by (intros [] c0 (r & Hr); [reflexivity|discriminate]).
  destruct d; injection E as <-; exists (fun k => rk_reads_ok (fst k) (snd k) = true); cbn [b_bc b_st];
    (split; [|split; [|split; [cbn; lia|discriminate]]]).
  - apply raw_good; [|lia]. intros k b Hk _. unfold rijndaelEncrypt. rewrite Hk. destruct (two_rounds _ _ _ _) as [t p]. split; [discriminate|].
    intros r Er. injection Er as <-. apply rk_enc_len.
  - pose proof (aes_encrypt_ok fresh fresh_len key (zeros 16) K B Z1 Z2) as H. eapply Hb. eexists. exact H.
  - apply raw_good; [|lia]. intros k b Hk _. unfold rijndaelDecrypt. rewrite Hk. destruct (two_rounds _ _ _ _) as [t p]. split; [discriminate|].
    intros r Er. injection Er as <-. apply rk_dec_len.
  - pose proof (aes_decrypt_ok fresh fresh_len key (zeros 16) K B Z1 Z2) as H. eapply Hb. eexists. exact H.
Qed.
Lemma combine_len_ge {A B} (a : list A) (b b' : list B) : length (combine a b) = length a -> (length a <= length b)%nat.
Proof. rewrite combine_length. lia. Qed.
Lemma aesni_run_good op oplast ck nr r : (forall t k, exists x, length x = 16%nat /\ oplast t k = xorb x k) ->
  aesni_run op oplast ck nr (zeros 16) = Ret r -> zlen r = 16 -> forall b, exists r, aesni_run op oplast ck nr b = Ret r /\ zlen r = 16.
Proof.
  intros Ho E L b. unfold aesni_run in *. cbv zeta in *. destruct (_ <? _)%nat; [|discriminate]. injection E as <-. eexists. split; [reflexivity|].
  match goal with |- zlen (oplast ?t ?k) = _ => destruct (Ho t k) as (x & Lx & ->) end.
  match type of L with zlen (oplast ?t ?k) = _ => destruct (Ho t k) as (x' & Lx' & E'); rewrite E' in L end.
  unfold zlen, xorb in *. rewrite map_length, combine_length in L. rewrite map_length, combine_length, Lx. rewrite Lx' in L. exact L.
Qed.
Lemma aes_enclast_shape t k : exists x, length x = 16%nat /\ mm_aesenclast t k = xorb x k.
Proof. eexists. split; [|reflexivity]. unfold SubBytes. rewrite map_length. reflexivity. Qed.
Lemma aes_declast_shape t k : exists x, length x = 16%nat /\ mm_aesdeclast t k = xorb x k.
Proof. eexists. split; [|reflexivity]. unfold InvSubBytes. rewrite map_length. reflexivity. Qed.
Lemma new_aesni_good d key c : bytes_ok key -> new_aesni fresh d key = Ret c -> b_good false c.
Proof.
  intros B. unfold new_aesni. destruct (aes_key_ok key) eqn:K; [|discriminate]. apply aes_key_ok_size in K.
  assert (zlen (zeros 16) = 16 /\ bytes_ok (zeros 16)) as (Z1 & Z2) by (split; [reflexivity|apply bytes_ok_zeros]).
  destruct (aesniEncrypt_ok fresh fresh_len key (zeros 16) K B Z1 Z2) as (ce & -> & He).
  destruct (aesniDecrypt_ok fresh fresh_len key (zeros 16) K B Z1 Z2) as (cd & -> & Hd).
  intros E. destruct d; injection E as <-; cbn [b_bc b_st].
  - exists (fun k => exists r, aesniEncrypt (fst k) (snd k) (zeros 16) = Ret r /\ zlen r = 16). cbn [b_bc b_st].
    split; [|split; [|split; [cbn; lia|discriminate]]].
    + apply raw_good; [|lia]. intros k b (r & Hk & Hl) _. destruct (aesni_run_good _ _ _ _ _ aes_enclast_shape Hk Hl b) as (r' & Hr & Hl').
      unfold aesniEncrypt. rewrite Hr. split; [discriminate|]. intros x Ex. injection Ex as <-. exact Hl'.
    + eexists. split; [exact He|]. now apply aes_E_blk.
  - exists (fun k => exists r, aesniDecrypt (fst k) (snd k) (zeros 16) = Ret r /\ zlen r = 16). cbn [b_bc b_st].
    split; [|split; [|split; [cbn; lia|discriminate]]].
    + apply raw_good; [|lia]. intros k b (r & Hk & Hl) _. destruct (aesni_run_good _ _ _ _ _ aes_declast_shape Hk Hl b) as (r' & Hr & Hl').
      unfold aesniDecrypt. rewrite Hr. split; [discriminate|]. intros x Ex. injection Ex as <-. exact Hl'.
    + eexists. split; [exact Hd|]. now apply aes_D_blk.
Qed.

(* ---------------- AES after wipe ---------------- *)
Definition stuck (C : block_cipher) (s : bc_st C) : Prop :=
  forall src so dst d, 0 <= so -> so + bc_blocksize C <= zlen src -> 0 <= d -> d + bc_blocksize C <= zlen dst ->
  snd (bc_transform C s src so dst d) = Undef.
Lemma raw_stuck K bs prim wipe k : (forall b, prim k b = Undef) -> 0 < bs -> stuck (raw_cipher K bs prim wipe) k.
Proof.
  intros H Hb src so dst d H1 H2 H3 H4. cbn [raw_cipher bc_transform bc_blocksize] in *.
  destruct (_ || _) eqn:E; [lia|]. now rewrite H.
Qed.
Lemma undef_bind {S A B} (r : S * out A) (k : S -> A -> S * out B) : snd r = Undef -> snd (let! (s, a) := r in k s a) = Undef.
Proof. destruct r as [s [a|e| |]]; cbn; congruence. Qed.
Lemma ret_bind {S A B} (r : S * out A) (k : S -> A -> S * out B) : (exists a, snd r = Ret a) -> (forall a, snd r = Ret a -> snd (k (fst r) a) = Undef) -> snd (let! (s, a) := r in k s a) = Undef.
Proof. intros (a & E) H. destruct r as [s o]. cbn [fst snd] in *. subst o. cbn [bind]. now apply H. Qed.
Section Stuck.
Variable C : block_cipher.
Hypothesis C_bs : 0 < bc_blocksize C.
Local Notation bs := (bc_blocksize C).
Definition MS' (m : mode_st C) : Prop := zlen (ms_iv m) = bs /\ zlen (ms_tmp m) = bs /\ stuck C (ms_c m).
Lemma stuck_iv_tmp (m : mode_st C) dst : MS' m -> snd (c_transform_iv_tmp C (m, dst)) = Undef.
Proof. intros (H1 & H2 & H3). unfold c_transform_iv_tmp. cbn [fst snd]. apply H3; lia. Qed.
Lemma stuck_iv_iv (m : mode_st C) dst : MS' m -> snd (c_transform_iv_iv C (m, dst)) = Undef.
Proof. intros (H1 & H2 & H3). unfold c_transform_iv_iv. cbn [fst snd]. apply H3; lia. Qed.
Lemma cfb_encrypt_stuck n m : 0 < n <= bs -> MS' m -> stuck (cfb_encrypt C n) m.
Proof. intros Hn H src so dst d H1 H2 H3 H4. cbn [cfb_encrypt bc_transform]. cbv zeta. apply undef_bind. now apply stuck_iv_tmp. Qed.
Lemma cfb_decrypt_stuck n m : 0 < n <= bs -> MS' m -> stuck (cfb_decrypt C n) m.
Proof. intros Hn H src so dst d H1 H2 H3 H4. cbn [cfb_decrypt bc_transform]. cbv zeta. apply undef_bind. now apply stuck_iv_tmp. Qed.
Lemma ofb_stuck n m : 0 < n <= bs -> MS' m -> stuck (ofb C n) m.
Proof. intros Hn H src so dst d H1 H2 H3 H4. cbn [ofb bc_transform]. cbv zeta. apply undef_bind. now apply stuck_iv_iv. Qed.
Lemma ctr_stuck n m : MS' m -> stuck (ctr C n) m.
Proof. intros H src so dst d H1 H2 H3 H4. cbn [ctr bc_transform]. cbv zeta. apply undef_bind. now apply stuck_iv_tmp. Qed.
Lemma cbc_encrypt_stuck m : MS' m -> stuck (cbc_encrypt C) m.
Proof.
  intros (H1 & H2 & H3) src so dst d L1 L2 L3 L4. cbn [cbc_encrypt bc_transform bc_blocksize] in *. cbv zeta.
  destruct (xor_bytes_safe src so (ms_iv m) 0 bs) as (x & Ex & Lx); try lia. cbn [fst snd]. rewrite Ex. cbn [to_iv bind].
  apply undef_bind. unfold c_transform_dst. cbn [fst snd set_iv ms_iv ms_c]. apply H3; lia.
Qed.
Lemma cbc_decrypt_stuck m : MS' m -> stuck (cbc_decrypt C) m.
Proof.
  intros (H1 & H2 & H3) src so dst d L1 L2 L3 L4. cbn [cbc_decrypt bc_transform bc_blocksize] in *. cbv zeta.
  cbn [fst snd]. unfold blit. rewrite !(proj2 (in_range_true _ _ _)) by lia. cbn [andb to_tmp bind].
  apply undef_bind. unfold c_transform_dst. cbn [fst snd set_tmp ms_c]. apply H3; lia.
Qed.
End Stuck.

Definition b_stuck (c : bobj) : Prop := 0 < bc_blocksize (b_bc c) <= 16 /\ stuck (b_bc c) (bc_wipe (b_bc c) (b_st c)).
Lemma chain_stuck m d iv c cc : b_stuck c -> chain fresh m d iv c = Ret cc -> b_stuck cc.
Proof.
  intros (Hbs & Hs) E. destruct c as [C c0]. unfold chain in E. cbn [b_bc b_st] in *.
  assert (0 < bc_blocksize C) as Hp by lia.
  assert (forall max m0, mode_init fresh C max iv c0 = Ret m0 -> MS' C (mode_wipe C m0)) as Hi.
  { intros max m0. unfold mode_init, make_initial_iv. destruct iv as [v|].
    - destruct (Z.eqb_spec (zlen v) (bc_blocksize C)) as [Ev|_]; [|discriminate]. cbn [obind]. intros H. injection H as <-.
      unfold MS', mode_wipe. cbn [ms_iv ms_tmp ms_c]. rewrite !zlen_zeros by apply zlen_nonneg. rewrite fresh_len by lia. now repeat split.
    - cbn [obind]. intros H. injection H as <-. unfold MS', mode_wipe. cbn [ms_iv ms_tmp ms_c]. rewrite !zlen_zeros by apply zlen_nonneg.
      rewrite fresh_len, zlen_zeros by lia. now repeat split. }
  assert (forall n max m0, chunked_init fresh C n max iv c0 = Ret m0 -> 0 < n <= bc_blocksize C /\ MS' C (mode_wipe C m0)) as Hc.
  { intros n max m0. unfold chunked_init. destruct (chunk_ok C n) eqn:En; [|discriminate]. intros Em. apply chunk_ok_range in En. split; [exact En|now apply (Hi max)]. }
  destruct m as [| |n|n| |n], d;
    try (injection E as <-; exact (conj Hbs Hs));
    match type of E with
    | obind ?x _ = _ => destruct x as [m0|e| |] eqn:Em; cbn [obind] in E; try discriminate E; injection E as <-
    end;
    try (apply Hi in Em); try (apply Hc in Em; destruct Em as (En & Em)); unfold b_stuck; cbn [b_bc b_st];
    (split; [cbn; lia|]);
    first [now apply cbc_encrypt_stuck|now apply cbc_decrypt_stuck|now apply cfb_encrypt_stuck|now apply cfb_decrypt_stuck|now apply ofb_stuck|now apply ctr_stuck].
Qed.
Lemma put_stuck C s b : 0 < bc_blocksize C <= 16 -> stuck C (c_c _ s) -> zlen b = 17 -> zlen (c_ibuf _ s) = bc_blocksize C -> c_used _ s = 0 ->
  bo_inv (c_bo _ s) -> zlen (bo_contents (c_bo _ s)) <= 2 ^ 40 -> snd (cipher_put_substring fresh C s b 0 17) = Undef.
Proof.
  intros Hb Hs Hl Hi Hu Ho Hc. unfold cipher_put_substring. cbn [BlockModel.put_loop]. change (17 <=? 0) with false. cbv iota. rewrite Hu.
  change (wrap63 (0 + 17)) with 17. destruct (Z.leb_spec 17 (bc_blocksize C)); [lia|]. cbv zeta.
  destruct (blit b 0 (c_ibuf C s) 0 (bc_blocksize C - 0)) as [x|e| |] eqn:Ex;
    try (unfold blit in Ex; rewrite !(proj2 (in_range_true _ _ _)) in Ex by lia; discriminate Ex).
  pose proof (blit_len _ _ _ _ _ _ Ex) as Lx. cbn [to_ibuf bind]. apply undef_bind. unfold process_block. cbn [set_ibuf c_bo c_c c_ibuf].
  destruct (ensure_capacity_ok fresh fresh_len (c_bo _ s) (bc_blocksize C) Ho ltac:(lia)) as (b' & Eb & Hb' & _ & Hr); [unfold max_string_length; lia|].
  rewrite Eb. cbn [lift bind set_bo c_bo c_c c_ibuf obuf obeg oend set_ibuf fst snd].
  rewrite (Hs x 0 (obuf b') (oend b')); [reflexivity|lia|lia|destruct Hb'; lia|lia].
Qed.
Lemma new_cipher_stuck C c0 fin b : 0 < bc_blocksize C <= 16 -> stuck C (bc_wipe C c0) -> zlen b = 17 ->
  snd (w_run (cipher_with_finish fresh C fin) (cipher_new fresh C c0) [Wipe; Call (PutString b)]) = [OUnit; OUndef].
Proof.
  intros Hb Hs Hl. set (s := CS C (zeros (zlen (fresh (bc_blocksize C)))) 0 (bo_wipe (bo_new fresh (Z.max 256 (2 * bc_blocksize C)))) (bc_wipe C c0)).
  set (T := cipher_with_finish fresh C fin).
  assert (w_step T (cipher_new fresh C c0) Wipe = (s, OUnit)) as E1 by reflexivity.
  assert (snd (w_step T s (Call (PutString b))) = OUndef) as E2.
  { assert (bo_inv (bo_new fresh (Z.max 256 (2 * bc_blocksize C)))) as Hn by (apply bo_new_inv; [exact fresh_len|unfold max_string_length; lia]).
    pose proof (put_stuck C s b) as H. change (w_step T s (Call (PutString b))) with (unit_obs (cipher_put_substring fresh C s b 0 (zlen b))).
    unfold unit_obs. cbn [snd]. rewrite Hl. rewrite H; try assumption; try reflexivity; subst s; cbn [c_bo c_c c_ibuf].
    - rewrite zlen_zeros by apply zlen_nonneg. apply fresh_len. lia.
    - now apply bo_wipe_good.
    - rewrite bo_contents_len by now apply bo_wipe_good. cbn. lia. }
  cbn [w_run]. rewrite E1. destruct (w_step T s (Call (PutString b))) as [s2 ob]. cbn [snd] in *. now subst ob.
Qed.
Lemma make_cipher_stuck nb m p iv key d o b : (forall d c, nb d key = Ret c -> b_stuck c) -> make_cipher fresh nb m p iv key d = Ret o -> zlen b = 17 ->
  snd (w_run (o_tr o) (o_st o) [Wipe; Call (PutString b)]) = [OUnit; OUndef].
Proof.
  intros G E Hl. unfold make_cipher in E. destruct (nb _ _) as [c|e| |] eqn:Ec; cbn [obind] in E; try discriminate E.
  apply G in Ec. unfold make_block_cipher in E. destruct (chain _ _ _ _ _) as [cc|e| |] eqn:Ecc; cbn [obind] in E; try discriminate E.
  apply chain_stuck in Ecc; [|exact Ec]. destruct Ecc as (Hbs & Hst).
  destruct p as [p|]; [destruct d|]; injection E as <-; cbn [o_tr o_st]; now apply new_cipher_stuck.
Qed.
Lemma new_aes_stuck d key c : new_aes fresh d key = Ret c -> b_stuck c.
Proof.
  unfold new_aes. destruct (aes_key_ok key); [|discriminate]. intros E. destruct d; injection E as <-; (split; [cbn; lia|]); cbn [b_bc b_st];
    (apply raw_stuck; [reflexivity|lia]).
Qed.
Lemma new_aesni_stuck d key c : new_aesni fresh d key = Ret c -> b_stuck c.
Proof.
  unfold new_aesni. destruct (aes_key_ok key); [|discriminate].
  destruct (aesniKeySetupEnc _ _ _), (aesniKeySetupDec _ _ _); intros E; destruct d; try discriminate E; injection E as <-; (split; [cbn; lia|]); cbn [b_bc b_st];
    (apply raw_stuck; [reflexivity|lia]).
Qed.

(* ---------------- RC4 and ChaCha20 ---------------- *)
Definition arc_inv (k : arc) : Prop := length (arc_state k) = 256%nat /\ 0 <= arc_x k < 256 /\ 0 <= arc_y k < 256.
Lemma land255 x : 0 <= Z.land x 0xFF < 256.
Proof. change 0xFF with (Z.ones 8). rewrite Z.land_ones by lia. apply Z.mod_pos_bound. lia. Qed.
Lemma arc_loop_inv l : forall st x y, length st = 256%nat -> 0 <= x < 256 -> 0 <= y < 256 ->
  let '(st', x', y', r) := arc_loop st x y l in length st' = 256%nat /\ 0 <= x' < 256 /\ 0 <= y' < 256 /\ length r = length l.
Proof.
  induction l as [|c l IH]; intros st x y Hs Hx Hy; cbn [arc_loop]; [now repeat split|]. cbv zeta.
  set (x1 := Z.land (x + 1) 0xFF). set (kx := kget st (Z.to_nat x1)). set (y1 := Z.land (kx + y) 0xFF).
  set (st2 := kput (kput st (Z.to_nat x1) _) (Z.to_nat y1) kx).
  pose proof (land255 (x + 1)) as Bx. pose proof (land255 (kx + y)) as By. fold x1 in Bx. fold y1 in By.
  assert (length st2 = 256%nat) as Hs2 by (subst st2; rewrite !kput_length; rewrite ?kput_length; lia).
  specialize (IH st2 x1 y1 Hs2 Bx By). destruct (arc_loop st2 x1 y1 l) as [[[st' x'] y'] r]. destruct IH as (A & B & D & E). cbn [length]. repeat split; try assumption; lia.
Qed.
Lemma arc_cook_inv key : arc_inv (arcfour_cook_key key).
Proof.
  unfold arcfour_cook_key. assert (forall l s, Forall (fun i => (i < 256)%nat) l -> length (fst (fst s)) = 256%nat -> length (fst (fst (fold_left (arc_cook_step key) l s))) = 256%nat) as H.
  { induction l as [|i l IH]; intros [[st a] b] Hl Hs; [exact Hs|]. inversion Hl; subst. cbn [fold_left]. apply IH; [assumption|]. cbn [fst] in *.
    unfold arc_cook_step. cbn [fst snd]. cbv zeta. cbn [fst]. pose proof (Z.mod_pos_bound (nth (Z.to_nat a) key 0 + kget st i + b) 256 ltac:(lia)).
    rewrite !kput_length; rewrite ?kput_length; lia. }
  specialize (H (seq 0 256) (map Z.of_nat (seq 0 256), 0, 0)). destruct (fold_left _ _ _) as [[st a] b]. cbn [fst] in H. unfold arc_inv. cbn [arc_state arc_x arc_y].
  split; [|lia]. apply H; [apply Forall_forall; intros i Hi; apply in_seq in Hi; lia|reflexivity].
Qed.
Definition cc_inv (c : chacha) : Prop := length (cc_input c) = 16%nat /\ length (cc_output c) = 64%nat /\ 0 <= cc_next c <= 64.
Lemma cc_block_inv c : length (cc_input c) = 16%nat -> length (cc_input (chacha20_block c)) = 16%nat /\ length (cc_output (chacha20_block c)) = 64%nat.
Proof.
  intros H. unfold chacha20_block. cbv zeta. cbn [cc_input cc_output]. split.
  - destruct (_ =? 0); [destruct (_ =? 8)|]; rewrite ?kput_length; rewrite ?kput_length; rewrite ?H; try lia; reflexivity.
  - cbn [seq map flat_map cc_store app length]. reflexivity.
Qed.
Lemma cc_byte_inv c : cc_inv c -> cc_inv (snd (cc_byte c)).
Proof.
  intros (H1 & H2 & H3). unfold cc_byte. cbv zeta. cbn [snd]. unfold cc_inv. rewrite Z.geb_leb. destruct (Z.leb_spec 64 (cc_next c)); cbn [cc_input cc_output cc_next].
  - destruct (cc_block_inv c H1) as (G1 & G2). repeat split; try assumption; lia.
  - repeat split; try assumption; lia.
Qed.
Lemma chacha_transform_inv l : forall c, cc_inv c -> cc_inv (fst (chacha20_transform c l)) /\ length (snd (chacha20_transform c l)) = length l.
Proof.
  induction l as [|b l IH]; intros c H; cbn [chacha20_transform]; [now split|]. pose proof (cc_byte_inv c H) as H1. destruct (cc_byte c) as [k c1]. cbn [snd] in H1.
  destruct (IH c1 H1) as (H2 & H3). destruct (chacha20_transform c1 l) as [c2 r]. cbn [fst snd length] in *. split; [exact H2|lia].
Qed.
Lemma chacha_init_inv key iv ctr : cc_inv (chacha20_init fresh key iv ctr).
Proof.
  unfold chacha20_init. cbv zeta. unfold cc_inv. cbn [cc_input cc_output cc_next]. split; [|split; [|lia]].
  - rewrite app_length. destruct (zlen iv =? 8); reflexivity.
  - pose proof (fresh_len 64 ltac:(lia)) as H. unfold zlen in H. lia.
Qed.
Lemma chacha_wipe_inv c : cc_inv c -> cc_inv (chacha_wipe c).
Proof. intros (H1 & H2 & H3). unfold cc_inv, chacha_wipe. cbn [cc_input cc_output cc_next]. rewrite !map_length. repeat split; try assumption; lia. Qed.
Lemma arc_wipe_inv c : arc_inv c -> arc_inv (arc_wipe c).
Proof. intros (H1 & H2 & H3). unfold arc_inv, arc_wipe. cbn [arc_state arc_x arc_y]. rewrite map_length. repeat split; try assumption; lia. Qed.
Lemma arcfour_good : sc_good arcfour_class arc_inv.
Proof.
  apply (raw_stream_good fresh fresh_len). intros k b (H1 & H2 & H3). unfold arcfour_encrypt. pose proof (arc_loop_inv b _ _ _ H1 H2 H3) as H.
  destruct (arc_loop _ _ _ _) as [[[st x] y] r]. destruct H as (A & B & D & E). cbn [fst snd]. split; [now repeat split|split; [discriminate|]].
  intros r' Er. injection Er as <-. unfold zlen. lia.
Qed.
Lemma chacha_good : sc_good chacha20_class cc_inv.
Proof.
  apply (raw_stream_good fresh fresh_len). intros k b H. pose proof (chacha_transform_inv b k H) as G. destruct (chacha20_transform k b) as [c r]. cbn [fst snd] in *.
  destruct G as (G1 & G2). split; [exact G1|split; [discriminate|]]. intros r' Er. injection Er as <-. unfold zlen. lia.
Qed.
(* safe, and the cooked key always has the size and the indices the C code relies on *)
Lemma arcfour_obj_good key : let T := stream_transform fresh arcfour_class in let s := stream_new fresh arcfour_class (arcfour_cook_key key) in
  memory_safe T s /\ forall l, Forall wop_possible l -> arc_inv (sct_c _ (fst (w_run T s l))).
Proof.
  cbv zeta. pose proof (stream_good fresh fresh_len arcfour_class arc_inv arcfour_good arc_wipe_inv) as G.
  pose proof (stream_new_good fresh fresh_len arcfour_class arc_inv _ (arc_cook_inv key)) as N.
  split; [now apply (t_good_safe (stream_transform fresh arcfour_class) (SI arcfour_class arc_inv))|].
  intros l Hl. apply (t_good_run (stream_transform fresh arcfour_class) (SI arcfour_class arc_inv) G l); assumption.
Qed.
Lemma chacha_obj_good key iv ctr : let T := stream_transform fresh chacha20_class in let s := stream_new fresh chacha20_class (chacha20_init fresh key iv ctr) in
  memory_safe T s /\ forall l, Forall wop_possible l -> cc_inv (sct_c _ (fst (w_run T s l))).
Proof.
  cbv zeta. pose proof (stream_good fresh fresh_len chacha20_class cc_inv chacha_good chacha_wipe_inv) as G.
  pose proof (stream_new_good fresh fresh_len chacha20_class cc_inv _ (chacha_init_inv key iv ctr)) as N.
  split; [now apply (t_good_safe (stream_transform fresh chacha20_class) (SI chacha20_class cc_inv))|].
  intros l Hl. apply (t_good_run (stream_transform fresh chacha20_class) (SI chacha20_class cc_inv) G l); assumption.
Qed.
End Fresh.
