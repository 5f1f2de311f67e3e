(* C91: consequences, and the ciphers. *)
From Verif Require Import Prelude PreludeFacts BytesNum Word SpecBlock BlockTotal SpecHash SpecRipemd SpecKeccak HashModel MdModel ShaModel RipemdModel KeccakModel HashSpec HashFacts MdHash Sha.
From Verif Require Import EncModel BlockModel BlockObj CipherModel SpecStream StreamModel StreamObj Rc4 Chacha SpecBlowfish BlowfishModel Blowfish StreamApi SpecPlatform PlatformModel Platform.

Opaque sha1_transform sha256_transform sha512_transform rmd_compress sha1_transform_on sha256_transform_on sha512_transform_on rmd_compress_on.
Lemma Ret_inj' {A} (x y : A) : Ret x = Ret y -> x = y.
Proof. intros H. change (match Ret x with Ret z => z = y | _ => False end). rewrite H. reflexivity. Qed.

(* ---- hashes ---- *)
Lemma taken_small U s : zlen s < 2 ^ U -> taken U s = s.
Proof. intros H. unfold taken. rewrite Z.mod_small by (pose proof (zlen_nonneg s); lia). apply firstn_all2. unfold zlen. lia. Qed.
Lemma taken_all_small U ops : pieces_below (2 ^ U) ops -> taken_all U ops = added ops.
Proof.
  intros H. unfold taken_all, added. f_equal. induction H as [|o ops Ho _ IH]; [reflexivity|]. cbn [map]. rewrite IH, taken_small by assumption. reflexivity.
Qed.
Lemma zlen_added_cons o ops : zlen (added (o :: ops)) = zlen (hop_bytes o) + zlen (added ops).
Proof. unfold added. cbn [map concat]. apply zlen_app. Qed.
Lemma bits_small U ops : 3 <= U -> pieces_below (2 ^ (U - 3)) ops -> bits_counted U ops = 8 * zlen (added ops).
Proof.
  intros HU H. assert (E : 2 ^ U = 8 * 2 ^ (U - 3)) by (replace U with (3 + (U - 3)) at 1 by lia; rewrite Z.pow_add_r by lia; reflexivity).
  pose proof (Z.pow_pos_nonneg 2 (U - 3) ltac:(lia) ltac:(lia)) as Hp. unfold pieces_below in H. rewrite Forall_forall in H.
  assert (G : forall l, (forall o, In o l -> zlen (hop_bytes o) < 2 ^ (U - 3)) -> bits_counted U l = 8 * zlen (added l)).
  { induction l as [|o l IH]; intros Hl; [reflexivity|]. cbn [bits_counted]. rewrite zlen_added_cons, IH by (intros; apply Hl; right; assumption).
    specialize (Hl o (or_introl eq_refl)). pose proof (zlen_nonneg (hop_bytes o)). rewrite taken_small by lia. rewrite Z.mod_small by lia. lia. }
  apply G. exact H.
Qed.
Lemma pieces_below_le a b ops : a <= b -> pieces_below a ops -> pieces_below b ops.
Proof. intros H P. eapply Forall_impl; [|exact P]. intros o Ho. cbv beta in *. lia. Qed.
Lemma valid_length o : hop_valid o -> zlen (hop_bytes o) <= max_string_length.
Proof.
  destruct o as [src ofs len|s|c|n]; cbn [hop_valid hop_bytes].
  - intros (_ & H & Hr). apply in_range_true in Hr. rewrite zlen_sub by lia. lia.
  - intros (_ & H). exact H.
  - intros _. rewrite zlen_one. unfold max_string_length. lia.
  - intros _. rewrite zlen_one. unfold max_string_length. lia.
Qed.
Lemma valid_below ops : Forall hop_valid ops -> pieces_below (2 ^ (64 - 3)) ops.
Proof. intros H. eapply Forall_impl; [|exact H]. intros o Ho. apply valid_length in Ho. unfold max_string_length in Ho. cbv beta. lia. Qed.

Lemma with_length_right iv len m : sha2_with_length iv len (8 * zlen m) m = sha2_digest p512 iv len m.
Proof. reflexivity. Qed.

Section Machine.
Variable p : platform.
Variable fresh : Z -> bytes.
Hypothesis Hp : platform_ok p.
Hypothesis Hf : forall n, 0 <= n -> zlen (fresh n) = n.

Lemma machine_short o d ops : machine_hash p fresh o d -> Forall hop_valid ops -> pieces_below (2 ^ p_long p) ops -> answers o ops (d (added ops)).
Proof. intros Ho Hv Hb. rewrite <- (taken_all_small (p_long p)) by assumption. apply (machine_taken p fresh o d Hp Hf Ho). assumption. Qed.
Lemma machine64_exact o iv len ops : machine_hash64 p fresh o iv len -> Forall hop_valid ops ->
  answers o ops (sha2_with_length iv len (bits_counted (p_long p) ops) (taken_all (p_long p) ops)).
Proof.
  destruct p as [e U]. unfold platform_ok in Hp. cbn [p_long] in *. intros Ho Hv. destruct Hp as [-> | ->].
  - destruct Ho.
    + rewrite iv384_ok. exact (sha512_len_answers e (sha512_iv 384) 48 6 ops fresh Hf ok8_iv384 Hv).
    + rewrite iv512_ok. exact (sha512_len_answers e (sha512_iv 512) 64 8 ops fresh Hf ok8_iv512 Hv).
  - assert (Hb := valid_below ops Hv). rewrite (bits_small 64) by (lia || assumption).
    assert (Hb' : pieces_below (2 ^ 64) ops) by (eapply pieces_below_le; [|exact Hb]; lia).
    rewrite <- (taken_all_small 64 ops Hb'). rewrite with_length_right.
    assert (HW : 64 = 32 /\ (64 = 32 \/ 64 = 64) \/ 64 = 64 /\ 64 = 64) by (right; split; reflexivity).
    destruct Ho.
    + apply (answers_taken _ _ _ sha512_add_data _ (sha512_final 6) md_wipe sha384 (sha512_R (sha512_iv 384)) 64); [lia|exact sha384_himpl| | |apply sha512_init; [assumption|exact ok8_iv384]; assumption|assumption].
      * intros k m. apply add_data_on; [exact (sha512_transform_same e)|assumption].
      * intros k. f_equal. unfold sha512_final_on. apply sha512_final_same.
    + apply (answers_taken _ _ _ sha512_add_data _ (sha512_final 8) md_wipe sha512 (sha512_R (sha512_iv 512)) 64); [lia|exact sha512_himpl| | |apply sha512_init; [assumption|exact ok8_iv512]; assumption|assumption].
      * intros k m. apply add_data_on; [exact (sha512_transform_same e)|assumption].
      * intros k. f_equal. unfold sha512_final_on. apply sha512_final_same.
Qed.
Lemma machine64_short o iv len ops : machine_hash64 p fresh o iv len -> Forall hop_valid ops -> pieces_below (2 ^ (p_long p - 3)) ops ->
  answers o ops (sha2_digest p512 iv len (added ops)).
Proof.
  intros Ho Hv Hb. pose proof (machine64_exact o iv len ops Ho Hv) as H. unfold platform_ok in Hp.
  rewrite bits_small in H by (lia || assumption). rewrite taken_all_small in H.
  - rewrite with_length_right in H. exact H.
  - eapply pieces_below_le; [|exact Hb]. apply Z.pow_le_mono_r; lia.
Qed.
Lemma machine_wide : p_long p = 64 ->
  (forall o d, machine_hash p fresh o d -> forall ops, Forall hop_valid ops -> answers o ops (d (added ops))) /\
  (forall o iv len, machine_hash64 p fresh o iv len -> forall ops, Forall hop_valid ops -> answers o ops (sha2_digest p512 iv len (added ops))).
Proof.
  intros E. split.
  - intros o d Ho ops Hv. apply machine_short; try assumption. rewrite E. eapply pieces_below_le; [|exact (valid_below ops Hv)]. lia.
  - intros o iv len Ho ops Hv. apply machine64_short; try assumption. rewrite E. exact (valid_below ops Hv).
Qed.
End Machine.

Lemma bytes_ok_zeros' n : bytes_ok (zeros n).
Proof. unfold zeros, bytes_ok. apply Forall_forall. intros x Hx. apply repeat_spec in Hx. subst x. unfold byte_ok. lia. Qed.
Lemma taken_multiple U s : zlen s mod 2 ^ U = 0 -> taken U s = [].
Proof. intros H. unfold taken. rewrite H. reflexivity. Qed.
Lemma machine_lost_gen s e fresh : hop_valid (HString s) -> zlen s mod 2 ^ 32 = 0 -> (forall n, 0 <= n -> zlen (fresh n) = n) ->
    (forall o d, machine_hash (Platform e 32) fresh o d -> answers o [HString s] (d [])) /\
    (forall o iv len, machine_hash64 (Platform e 32) fresh o iv len -> answers o [HString s] (sha2_digest p512 iv len [])).
Proof.
  intros V L Hf.
  assert (Hp : platform_ok (Platform e 32)) by (left; reflexivity).
  assert (Hv : Forall hop_valid [HString s]) by (constructor; [exact V|constructor]).
  assert (T : taken_all 32 [HString s] = []) by (unfold taken_all; cbn [map hop_bytes]; rewrite taken_multiple by exact L; reflexivity).
  assert (T' : bits_counted 32 [HString s] = 8 * zlen (@nil Z)) by (cbn [bits_counted hop_bytes]; rewrite taken_multiple by exact L; reflexivity).
  split.
  - intros o d Ho. pose proof (machine_taken _ fresh o d Hp Hf Ho _ Hv) as H. cbn [p_long] in H. rewrite T in H. exact H.
  - intros o iv len Ho. pose proof (machine64_exact _ fresh Hp Hf o iv len _ Ho Hv) as H. cbn [p_long] in H. rewrite T, T', with_length_right in H. exact H.
Qed.
Lemma machine_length_gen s e fresh : hop_valid (HString s) -> zlen s = 2 ^ 29 -> (forall n, 0 <= n -> zlen (fresh n) = n) ->
    forall o iv len, machine_hash64 (Platform e 32) fresh o iv len -> answers o [HString s] (sha2_with_length iv len 0 s).
Proof.
  intros V L Hf o iv len Ho.
  assert (Hp : platform_ok (Platform e 32)) by (left; reflexivity).
  assert (Hv : Forall hop_valid [HString s]) by (constructor; [exact V|constructor]).
  assert (Ts : taken 32 s = s) by (apply taken_small; rewrite L; reflexivity).
  assert (T : taken_all 32 [HString s] = s) by (unfold taken_all; cbn [map hop_bytes concat]; rewrite Ts; apply app_nil_r).
  assert (T' : bits_counted 32 [HString s] = 0) by (cbn [bits_counted hop_bytes]; rewrite Ts, L; reflexivity).
  pose proof (machine64_exact _ fresh Hp Hf o iv len _ Ho Hv) as H. cbn [p_long] in H. rewrite T, T' in H. exact H.
Qed.
Lemma long_string n : 0 <= n <= max_string_length -> exists s, hop_valid (HString s) /\ zlen s = n.
Proof.
  intros H. exists (zeros n). split; [split; [apply bytes_ok_zeros'|]|]; rewrite zlen_zeros; lia.
Qed.
Lemma machine_lost : exists s, hop_valid (HString s) /\ zlen s = 2 ^ 32 /\
  forall e fresh, (forall n, 0 <= n -> zlen (fresh n) = n) ->
    (forall o d, machine_hash (Platform e 32) fresh o d -> answers o [HString s] (d [])) /\
    (forall o iv len, machine_hash64 (Platform e 32) fresh o iv len -> answers o [HString s] (sha2_digest p512 iv len [])).
Proof.
  destruct (long_string (2 ^ 32)) as (s & V & L); [unfold max_string_length; lia|]. exists s. split; [exact V|]. split; [exact L|].
  intros e fresh Hf. apply machine_lost_gen; [exact V|rewrite L; reflexivity|exact Hf].
Qed.
Lemma machine_wrong_length : exists s, hop_valid (HString s) /\ zlen s = 2 ^ 29 /\ to_be 16 0 <> to_be 16 (8 * zlen s) /\
  forall e fresh, (forall n, 0 <= n -> zlen (fresh n) = n) ->
    forall o iv len, machine_hash64 (Platform e 32) fresh o iv len -> answers o [HString s] (sha2_with_length iv len 0 s).
Proof.
  destruct (long_string (2 ^ 29)) as (s & V & L); [unfold max_string_length; lia|]. exists s. split; [exact V|]. split; [exact L|].
  split; [rewrite L; vm_compute; discriminate|]. intros e fresh Hf. apply machine_length_gen; assumption.
Qed.

(* ---- ChaCha20 ---- *)
Lemma cc_store_same p v : cc_store_on p v = cc_store v.
Proof.
  unfold cc_store_on. destruct (p_order p); [|reflexivity]. cbn [host_write]. unfold cc_store, c_shr. rewrite !Z.shiftr_div_pow2 by lia.
  cbn [to_le]. change 256 with (2 ^ 8). rewrite !Z.div_div by lia. reflexivity.
Qed.
Lemma chacha20_block_same p c : chacha20_block_on p c = chacha20_block c.
Proof.
  unfold chacha20_block_on, chacha20_block. cbv zeta. f_equal. rewrite !flat_map_concat_map. f_equal. apply map_ext. apply cc_store_same.
Qed.
Lemma chacha20_transform_same p l : forall c, chacha20_transform_on p c l = chacha20_transform c l.
Proof.
  induction l as [|b l IH]; intros c; [reflexivity|]. cbn [chacha20_transform_on chacha20_transform].
  unfold cc_byte_on, cc_byte. rewrite chacha20_block_same. rewrite IH. reflexivity.
Qed.
Lemma raw_stream_ext K f g wipe : (forall k l, f k l = g k l) -> forall cs k, sc_run (raw_stream K f wipe) k cs = sc_run (raw_stream K g wipe) k cs.
Proof.
  intros H. induction cs as [|c cs IH]; intros k; [reflexivity|]. cbn [sc_run].
  assert (E : sc_transform (raw_stream K f wipe) k (sc_src c) (sc_sofs c) (sc_dst c) (sc_dofs c) (sc_len c) = sc_transform (raw_stream K g wipe) k (sc_src c) (sc_sofs c) (sc_dst c) (sc_dofs c) (sc_len c)).
  { cbn [raw_stream sc_transform]. rewrite H. reflexivity. }
  rewrite E, IH. reflexivity.
Qed.
Lemma chacha20_on_computes p fresh iv ctr key o : new_chacha20 fresh iv ctr key = Ret o ->
  exists o', new_chacha20_on p fresh iv ctr key = Ret o' /\ forall ks, stream_computes o ks -> stream_computes o' ks.
Proof.
  unfold new_chacha20, new_chacha20_on. destruct (negb ((zlen key =? 16) || (zlen key =? 32))); [discriminate|].
  destruct (match iv with None => Ret (zeros 8) | Some s => if (zlen s =? 8) || ((zlen s =? 12) && (ctr <? 0x1000000)) then Ret s else Raise (Error Wrong_IV_size) end) as [iv'| | |]; cbn [obind]; try discriminate.
  intros E. apply Ret_inj' in E. subst o. eexists. split; [reflexivity|]. intros ks H cs Hc. specialize (H cs Hc). cbn [so_sc so_st] in *. rewrite <- H.
  unfold chacha20_class_on, chacha20_class. f_equal. apply raw_stream_ext. intros k l. rewrite chacha20_transform_same. reflexivity.
Qed.

(* ---- Blowfish ---- *)
Lemma host_be p b : host_read (p_order p) (copy4 p b) = be b.
Proof. unfold copy4. destruct (p_order p); reflexivity. Qed.
Lemma host_to_be p v : copy4 p (host_write (p_order p) 4 v) = to_be 4 v.
Proof. unfold copy4. destruct (p_order p); reflexivity. Qed.
Lemma bf_stub_same p f b : bf_stub_on p f b = bf_stub f b.
Proof. unfold bf_stub_on, bf_stub. rewrite !host_be, !host_to_be. reflexivity. Qed.
Lemma blowfish_on_computes p d key : 4 <= zlen key <= 56 -> bytes_ok key ->
  exists o, new_blowfish_on p d key = Ret o /\ block_computes o 8 (match d with Encrypt => blowfish_E key | Decrypt => blowfish_D key end) /\ block_checks o 8.
Proof.
  intros K B. unfold new_blowfish_on. replace ((4 <=? zlen key) && (zlen key <=? 56)) with true by lia. eexists. split; [reflexivity|].
  apply raw_computes; [|lia]. intros b Lb Bb. rewrite bf_stub_same. f_equal. destruct d; [apply (stub_ok Encrypt)|apply (stub_ok Decrypt)]; assumption.
Qed.

(* ---- ARCFOUR ---- *)
Lemma signed_le U n : 1 <= U -> 0 <= n -> iterations U n <= n.
Proof.
  intros HU Hn. unfold iterations, signed. pose proof (Z.pow_pos_nonneg 2 (U - 1) ltac:(lia) ltac:(lia)).
  pose proof (Z.mod_le (n + 2 ^ (U - 1)) (2 ^ U) ltac:(lia) ltac:(apply Z.pow_pos_nonneg; lia)). lia.
Qed.
Lemma signed_small U n : 1 <= U -> 0 <= n < 2 ^ (U - 1) -> iterations U n = n.
Proof.
  intros HU Hn. unfold iterations, signed. assert (E : 2 ^ U = 2 * 2 ^ (U - 1)) by (replace U with (1 + (U - 1)) at 1 by lia; rewrite Z.pow_add_r by lia; reflexivity).
  rewrite Z.mod_small by lia. lia.
Qed.
Lemma sub_firstn {A} (l : list A) o n k : 0 <= k <= n -> firstn (Z.to_nat k) (sub l o n) = sub l o k.
Proof. intros H. unfold sub. rewrite firstn_firstn. f_equal. lia. Qed.
Lemma arcfour_on_prim p key k n l : 1 <= p_long p -> arc_key key -> arc_rel key k n -> bytes_ok l ->
  let l' := firstn (Z.to_nat (iterations (p_long p) (zlen l))) l in
  exists k', arcfour_encrypt_on p k l = (k', Ret (ks_xor (rc4 key) n l')) /\ arc_rel key k' (n + length l').
Proof.
  intros HU Hk R B. cbn zeta. unfold arcfour_encrypt_on, to_long, iterations, signed.
  set (x := (zlen l + 2 ^ (p_long p - 1)) mod 2 ^ p_long p - 2 ^ (p_long p - 1)).
  replace (if x >? 0 then firstn (Z.to_nat x) l else []) with (firstn (Z.to_nat (Z.max 0 x)) l).
  - apply arc_P; [exact Hk|exact R|]. apply Forall_firstn. exact B.
  - destruct (x >? 0) eqn:E; [f_equal; lia|]. replace (Z.max 0 x) with 0 by lia. reflexivity.
Qed.
Lemma arcfour_on_history p key : 1 <= p_long p -> arc_key key -> forall cs k n, arc_rel key k n -> Forall (fun c => bytes_ok (sc_src c)) cs ->
  snd (sc_run (raw_stream arc (arcfour_encrypt_on p) arc_wipe) k cs) = ks_history_on (p_long p) (rc4 key) n cs.
Proof.
  intros HU Hk. induction cs as [|c cs IH]; intros k n R Hb; [reflexivity|]. apply Forall_cons_iff in Hb as (Bc & Hb).
  cbn [sc_run ks_history_on snd].
  assert (E : sc_transform (raw_stream arc (arcfour_encrypt_on p) arc_wipe) k (sc_src c) (sc_sofs c) (sc_dst c) (sc_dofs c) (sc_len c) =
    if scall_okb c then match arcfour_encrypt_on p k (sub (sc_src c) (sc_sofs c) (sc_len c)) with
         | (k', Ret r) => ((k', splice (sc_dst c) (sc_dofs c) r), Ret tt)
         | (k', Raise e) => ((k', sc_dst c), Raise e)
         | (k', Undef) => ((k', sc_dst c), Undef)
         | (k', Hang) => ((k', sc_dst c), Hang)
         end else ((k, sc_dst c), Raise Invalid_argument)).
  { cbn [raw_stream sc_transform]. unfold scall_okb. destruct ((sc_len c <? 0) || (sc_sofs c <? 0) || (sc_sofs c >? zlen (sc_src c) - sc_len c) || (sc_dofs c <? 0) || (sc_dofs c >? zlen (sc_dst c) - sc_len c)) eqn:G.
    - replace ((0 <=? sc_len c) && (0 <=? sc_sofs c) && (sc_sofs c <=? zlen (sc_src c) - sc_len c) && (0 <=? sc_dofs c) && (sc_dofs c <=? zlen (sc_dst c) - sc_len c)) with false by lia. reflexivity.
    - replace ((0 <=? sc_len c) && (0 <=? sc_sofs c) && (sc_sofs c <=? zlen (sc_src c) - sc_len c) && (0 <=? sc_dofs c) && (sc_dofs c <=? zlen (sc_dst c) - sc_len c)) with true by lia. reflexivity. }
  rewrite E. destruct (scall_okb c) eqn:G.
  - unfold scall_okb in G. destruct (arcfour_on_prim p key k n (sub (sc_src c) (sc_sofs c) (sc_len c)) HU Hk R) as (k' & Ek & R'); [apply bytes_ok_sub; exact Bc|].
    rewrite zlen_sub in Ek, R' by lia. pose proof (signed_le (p_long p) (sc_len c) HU ltac:(lia)) as Hi.
    assert (H0 : 0 <= iterations (p_long p) (sc_len c)) by (unfold iterations; lia).
    rewrite sub_firstn in Ek, R' by lia. rewrite Ek. cbn [fst snd]. f_equal.
    assert (Ln : length (sub (sc_src c) (sc_sofs c) (iterations (p_long p) (sc_len c))) = Z.to_nat (iterations (p_long p) (sc_len c))).
    { assert (H : zlen (sub (sc_src c) (sc_sofs c) (iterations (p_long p) (sc_len c))) = iterations (p_long p) (sc_len c)) by (rewrite zlen_sub; lia). unfold zlen in H. lia. }
    rewrite Ln in R'. apply IH; assumption.
  - cbn [fst snd]. f_equal. apply IH; assumption.
Qed.
Lemma history_on_small U ks cs : 1 <= U -> Forall (fun c => sc_len c < 2 ^ (U - 1)) cs -> forall n, ks_history_on U ks n cs = ks_history ks n cs.
Proof.
  intros HU H. induction H as [|c cs Hc _ IH]; intros n; [reflexivity|]. cbn [ks_history_on ks_history]. destruct (scall_okb c) eqn:G.
  - unfold scall_okb in G. rewrite signed_small by lia. rewrite IH. reflexivity.
  - rewrite IH. reflexivity.
Qed.
Lemma new_arcfour_on_ok p key : 1 <= zlen key <= 256 -> new_arcfour_on p key = Ret (SObj (raw_stream arc (arcfour_encrypt_on p) arc_wipe) (arcfour_cook_key key)).
Proof. intros H. unfold new_arcfour_on. replace ((zlen key >? 0) && (zlen key <=? 256)) with true by lia. reflexivity. Qed.
Lemma arcfour_on_exact p key : platform_ok p -> 1 <= zlen key <= 256 ->
  exists o, new_arcfour_on p key = Ret o /\ forall cs, Forall (fun c => bytes_ok (sc_src c)) cs -> snd (sc_run (so_sc o) (so_st o) cs) = ks_history_on (p_long p) (rc4 key) 0 cs.
Proof.
  intros Hp Hk. eexists. split; [apply new_arcfour_on_ok; exact Hk|]. intros cs Hc. cbn [so_sc so_st]. apply arcfour_on_history; [unfold platform_ok in Hp; lia|exact Hk|apply arc_rel_0; exact Hk|exact Hc].
Qed.
Lemma arcfour_on_short p key : platform_ok p -> 1 <= zlen key <= 256 ->
  exists o, new_arcfour_on p key = Ret o /\ forall cs, Forall (fun c => bytes_ok (sc_src c) /\ sc_len c < 2 ^ (p_long p - 1)) cs ->
    snd (sc_run (so_sc o) (so_st o) cs) = ks_history (rc4 key) 0 cs.
Proof.
  intros Hp Hk. destruct (arcfour_on_exact p key Hp Hk) as (o & Eo & H). exists o. split; [exact Eo|]. intros cs Hc.
  rewrite H by (eapply Forall_impl; [|exact Hc]; intros c (Hb & _); exact Hb). apply history_on_small; [unfold platform_ok in Hp; lia|].
  eapply Forall_impl; [|exact Hc]. intros c (_ & Hl). exact Hl.
Qed.
(* a call that does nothing *)
Lemma untouched_gen p key c : p_long p = 32 -> 1 <= zlen key <= 256 -> bytes_ok (sc_src c) -> scall_ok c -> 2 ^ 31 <= sc_len c < 2 ^ 32 ->
  exists o, new_arcfour_on p key = Ret o /\ snd (sc_run (so_sc o) (so_st o) [c]) = [(sc_dst c, Ret tt)].
Proof.
  intros Hp Hk Hb Hc Hl. destruct (arcfour_on_exact p key (or_introl Hp) Hk) as (o & Eo & H). exists o. split; [exact Eo|]. rewrite H by (constructor; [exact Hb|constructor]).
  rewrite Hp. cbn [ks_history_on]. destruct Hc as (C1 & C2 & C3). replace (scall_okb c) with true by (unfold scall_okb; lia).
  assert (E : iterations 32 (sc_len c) = 0).
  { unfold iterations, signed. change (2 ^ (32 - 1)) with (2 ^ 31). replace (sc_len c + 2 ^ 31) with ((sc_len c - 2 ^ 31) + 1 * 2 ^ 32) by lia.
    rewrite Z.mod_add by lia. rewrite Z.mod_small by lia. lia. }
  rewrite E. unfold sub. cbn [Z.to_nat firstn]. do 2 f_equal. unfold splice. cbn [ks_xor ks_bytes length seq map combine app]. f_equal.
  rewrite Nat.add_0_r. apply firstn_skipn.
Qed.
Lemma ks_history_one ks c : scall_ok c -> ks_history ks 0 [c] = [(splice (sc_dst c) (sc_dofs c) (ks_xor ks 0 (sub (sc_src c) (sc_sofs c) (sc_len c))), Ret tt)].
Proof. intros (C1 & C2 & C3). cbn [ks_history]. replace (scall_okb c) with true by (unfold scall_okb; lia). reflexivity. Qed.
Lemma untouched_differs n key k0 t : 2 ^ 31 <= n < 2 ^ 32 -> 1 <= zlen key <= 256 -> k0 = rc4 key 0 -> bytes_ok t -> zlen t = n - 1 ->
  exists c, bytes_ok (sc_src c) /\ scall_ok c /\ zlen (sc_src c) <= max_string_length /\ zlen (sc_dst c) <= max_string_length /\
  forall e, exists o, new_arcfour_on (Platform e 32) key = Ret o /\
    snd (sc_run (so_sc o) (so_st o) [c]) = [(sc_dst c, Ret tt)] /\ snd (sc_run (so_sc o) (so_st o) [c]) <> ks_history (rc4 key) 0 [c].
Proof.
  intros Hn Hk Ek Bt L. set (b := Z.lxor k0 1). exists (SCall (b :: t) 0 (0 :: t) 0 n). cbn [sc_src sc_dst].
  assert (L1 : zlen (b :: t) = n) by (rewrite zlen_cons; lia). assert (L2 : zlen (0 :: t) = n) by (rewrite zlen_cons; lia).
  assert (C : scall_ok (SCall (b :: t) 0 (0 :: t) 0 n)) by (unfold scall_ok; cbn [sc_src sc_dst sc_len sc_sofs sc_dofs]; lia).
  assert (Bb : bytes_ok (b :: t)). { constructor; [|exact Bt]. apply lxor_byte; [rewrite Ek; apply arc_Q; exact Hk|unfold byte_ok; lia]. }
  split; [exact Bb|]. split; [exact C|]. split; [rewrite L1; unfold max_string_length; lia|]. split; [rewrite L2; unfold max_string_length; lia|].
  intros e. destruct (untouched_gen (Platform e 32) key (SCall (b :: t) 0 (0 :: t) 0 n) eq_refl Hk Bb C ltac:(cbn [sc_len]; lia)) as (o & Eo & H).
  exists o. split; [exact Eo|]. split; [exact H|]. rewrite H, ks_history_one by exact C. intros N.
  apply (f_equal (fun l => nth 0 (fst (nth 0 l ([], Ret tt))) 0)) in N. cbn [nth fst sc_src sc_sofs sc_dst sc_dofs sc_len] in N.
  rewrite sub_0_all in N by (symmetry; exact L1). rewrite ks_xor_cons, <- Ek in N. unfold splice in N. cbn [Z.to_nat firstn app nth] in N.
  unfold b in N. rewrite (Z.lxor_comm k0 1), Z.lxor_assoc, Z.lxor_nilpotent in N. discriminate N.
Qed.
Lemma arcfour_untouched : forall key, 1 <= zlen key <= 256 -> exists c, bytes_ok (sc_src c) /\ scall_ok c /\ zlen (sc_src c) <= max_string_length /\ zlen (sc_dst c) <= max_string_length /\
  forall e, exists o, new_arcfour_on (Platform e 32) key = Ret o /\
    snd (sc_run (so_sc o) (so_st o) [c]) = [(sc_dst c, Ret tt)] /\ snd (sc_run (so_sc o) (so_st o) [c]) <> ks_history (rc4 key) 0 [c].
Proof.
  intros key Hk. destruct (long_string (2 ^ 31 - 1)) as (t & (Bt & _) & L); [unfold max_string_length; lia|].
  exact (untouched_differs (2 ^ 31) key (rc4 key 0) t ltac:(lia) Hk eq_refl Bt L).
Qed.
Lemma chacha20_on_stream p fresh iv ctr key : zlen key = 16 \/ zlen key = 32 -> bytes_ok key -> bytes_ok (iv_of iv) ->
  match iv with None => True | Some s => zlen s = 8 \/ (zlen s = 12 /\ ctr < 2 ^ 24) end ->
  exists o, new_chacha20_on p fresh iv ctr key = Ret o /\ stream_computes o (chacha20 key ctr (iv_of iv)).
Proof.
  intros H1 H2 H3 H4. destruct (StreamApi.chacha20_stream fresh iv ctr key H1 H2 H3 H4) as (o & Eo & Ho).
  destruct (chacha20_on_computes p fresh iv ctr key o Eo) as (o' & Eo' & H). exists o'. split; [exact Eo'|]. apply H, Ho.
Qed.
