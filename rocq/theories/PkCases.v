(* A toy generator and primes, for the examples and the counterexamples about public keys;
   the statements of PropsPk.v in the form given there. *)
From Coq Require Import Zpow_facts Znumtheory.
From Verif Require Import Prelude PreludeFacts BytesNum NumTheory PrimeCert HashModel HashSpec SpecHash RngModel BnModel Bn PkModel SpecPk Pk PkGen Pk2 Pk3 Toy.

(* fills with zeros and with 255 alternately *)
Definition toy_rng : rng := Rng nat
  (fun s buf ofs len => ((S s, if in_range buf ofs len then splice buf ofs (repeat (if Nat.even s then 0 else 255) (Z.to_nat len)) else buf), Ret tt))
  (fun s => (s, Ret tt)).
Lemma toy_rng_bytes : rng_bytes toy_rng.
Proof.
  intros s buf ofs len B. cbn [r_bytes toy_rng fst snd]. destruct (in_range buf ofs len); [|exact B]. apply bytes_ok_splice; [exact B|]. apply Forall_forall. intros x X. apply repeat_spec in X. subst x. unfold byte_ok. destruct (Nat.even s); lia.
Qed.
Lemma toy_rng_total : rng_total toy_rng.
Proof.
  intros s buf len N L. cbn [r_bytes toy_rng fst snd]. split; [reflexivity|]. destruct (in_range buf 0 len); [|exact L]. rewrite zlen_splice; [exact L|lia|]. unfold zlen in *. rewrite repeat_length. lia.
Qed.
Lemma toy_fresh_ok : fresh_ok toy_fresh.
Proof. intros n N. split; [apply toy_fresh_len; exact N|]. apply Forall_forall. intros x X. apply repeat_spec in X. subst x. unfold byte_ok. lia. Qed.
Definition toy_p : Z := 9223374673964695553.
Definition toy_q : Z := 9223373024697253889.
Definition toy_r : Z := 1125910778478593.
Lemma toy_p_prime : prime toy_p.
Proof. apply (proth _ 1073742131 33 3); vm_compute; reflexivity. Qed.
Lemma toy_q_prime : prime toy_q.
Proof. apply (proth _ 1073741939 33 3); vm_compute; reflexivity. Qed.
Lemma toy_r_prime : prime toy_r.
Proof. apply (proth _ 8388689 27 3); vm_compute; reflexivity. Qed.
Definition toy_nextprime (n : Z) : Z := if n <? 2 ^ 63 + 2 then toy_q else toy_p.
Lemma toy_nextprime_ok n : 0 <= n -> prime (toy_nextprime n).
Proof. intros _. unfold toy_nextprime. destruct (n <? 2 ^ 63 + 2); [exact toy_q_prime|exact toy_p_prime]. Qed.
Lemma small_prime n : 1 < n -> forallb (fun d => negb (n mod d =? 0)) (map Z.of_nat (seq 2 (Z.to_nat (n - 2)))) = true -> prime n.
Proof.
  intros N H. destruct (prime_dec n) as [P|P]; [exact P|]. exfalso. apply not_prime_divide in P; [|exact N]. destruct P as (d & D1 & D2). rewrite forallb_forall in H. specialize (H d). apply Z.mod_divide in D2; [|lia]. rewrite D2 in H. cbn in H. discriminate H.
  apply in_map_iff. exists (Z.to_nat d). split; [lia|]. apply in_seq. lia.
Qed.

(* ---- conversions ---- *)
Lemma of_bytes_horner s : bn_of_bytes s = fold_left (fun a c => 256 * a + c) s 0.
Proof.
  induction s as [|c s IH] using rev_ind; [reflexivity|]. rewrite fold_left_app. cbn [fold_left]. rewrite <- IH. rewrite of_bytes_be, be_app. change (zlen [c]) with 1. rewrite <- of_bytes_be. change (256 ^ 1) with 256. change (be [c]) with (c + 256 * 0). lia.
Qed.
Lemma to_bytes_iff nb : 1 <= nb -> size_ok nb -> ((forall n, 0 <= n < 2 ^ nb -> bn_to_bytes (Some nb) n = Ret (to_be (width nb) n)) <-> aligned nb).
Proof.
  intros N S. split.
  - intros H. assert (P : 0 < 2 ^ (nb - 1)) by (apply Z.pow_pos_nonneg; lia). assert (B : 2 ^ (nb - 1) <= 2 ^ (nb - 1) < 2 ^ nb) by (split; [lia|apply Z.pow_lt_mono_r; lia]). specialize (H (2 ^ (nb - 1)) ltac:(lia)). apply to_bytes_inv in H; [|lia|lia]. eapply limbs_aligned; [exact N|exact B|apply H].
  - intros A n H. apply encode_aligned; assumption.
Qed.
Lemma to_bytes_none_ok n : 0 <= n -> z_numbits n <= 2 ^ 52 -> exists s, bn_to_bytes None n = Ret s /\ bytes_ok s /\ be s = n.
Proof.
  intros N B. assert (L : 8 * z_limbs n <= max_string_length).
  { unfold z_limbs, max_string_length. change (2 ^ 57 - 9) with 144115188075855863. change (2 ^ 52) with 4503599627370496 in B. pose proof (Z.div_mod (z_numbits n + 63) 64 ltac:(lia)). pose proof (Z.mod_pos_bound (z_numbits n + 63) 64 ltac:(lia)). lia. }
  rewrite to_bytes_none by assumption. eexists. split; [reflexivity|]. split; [apply bytes_ok_to_be|apply be_none; exact N].
Qed.
Lemma mod_power_limits a b c : be b <= 0 \/ Z.odd (be c) = false -> mod_power a b c = Raise Invalid_argument.
Proof. intros H. unfold mod_power, bn_mod_power. change bn_of_bytes with be. rewrite powm_fail by exact H. reflexivity. Qed.

(* ---- RSA ---- *)
Definition bad_d : Z := 6923131306242213363631714019748523.
Definition bad_pk : rsa_public := RsaPub 114 (to_be 15 (toy_p * toy_r)) [3].
Definition bad_sk : rsa_private := RsaPriv 114 (to_be 15 (toy_p * toy_r)) (to_be 15 bad_d) (to_be 8 toy_p) (to_be 7 toy_r) [] [] [].
Lemma bad_pair : rsa_pair bad_sk bad_pk.
Proof.
  exists toy_p, toy_r. unfold rsa_numbers. splits; try exact toy_p_prime; try exact toy_r_prime; try (vm_compute; discriminate); try (vm_compute; (reflexivity || congruence || (split; discriminate))).
  - exists 2251821556957184. vm_compute. reflexivity.
  - exists 18446749347929391104. vm_compute. reflexivity.
Qed.
Lemma rsa_unaligned : exists sk pk msg, rsa_pair sk pk /\ bytes_ok msg /\ be msg < be (rp_n pk) /\ rsa_encrypt pk msg = Raise Invalid_argument /\ rsa_sign sk msg = Raise Invalid_argument.
Proof.
  exists bad_sk, bad_pk, [1; 2; 3; 4; 5; 6; 7; 8; 9]. split; [exact bad_pair|]. split; [repeat constructor; unfold byte_ok; lia|]. splits; vm_compute; reflexivity.
Qed.
Definition crt_sk : rsa_private := RsaPriv 64 [85] [43] [5] [17] [3] [11] [3].
Lemma crt_small : rsa_crt crt_sk.
Proof.
  unfold rsa_crt. cbn zeta. splits; try (vm_compute; discriminate); try (vm_compute; (reflexivity || congruence || (split; discriminate))); try (apply small_prime; vm_compute; reflexivity).
  - apply Zgcd_1_rel_prime. vm_compute. reflexivity.
  - apply Zgcd_1_rel_prime. vm_compute. reflexivity.
  - exists 10. vm_compute. reflexivity.
Qed.
Lemma crt_wrong : exists sk msg m1 m2, rsa_crt sk /\ aligned (rk_size sk) /\ bytes_ok msg /\ be msg < be (rk_n sk) /\ rsa_decrypt sk msg = Ret m1 /\ rsa_decrypt_CRT sk msg = Ret m2 /\ m1 <> m2.
Proof.
  exists crt_sk, [50]. eexists _, _. split; [exact crt_small|]. split; [exists 1; reflexivity|]. split; [repeat constructor; unfold byte_ok; lia|]. split; [vm_compute; reflexivity|]. split; [vm_compute; reflexivity|]. split; [vm_compute; reflexivity|]. discriminate.
Qed.
Lemma new_key_valid fresh R np fuel s e numbits s' k : fresh_ok fresh -> rng_bytes R -> (forall n, 0 <= n -> prime (np n)) -> (forall x, e = Some x -> 0 < x) ->
  rsa_new_key fresh R np fuel s e numbits = (s', Ret k) -> new_key_spec e numbits k /\ rsa_pair (fst k) (snd k) /\ rsa_crt (fst k).
Proof.
  intros F B P E H. apply new_key_inv in H; try assumption. destruct H as (N & _ & Sp & Sz & _). split; [exact Sp|]. eapply new_key_pair; eassumption.
Qed.
Lemma wrong_sizes fresh R np fuel s e numbits : numbits < 32 \/ Z.odd numbits = true -> rsa_new_key fresh R np fuel s e numbits = (s, Raise (Error Wrong_key_size)).
Proof.
  intros H. unfold rsa_new_key. destruct (Z.ltb_spec numbits 32) as [L|L]; [reflexivity|]. destruct H as [H|H]; [lia|]. cbn [orb]. assert (X : Z.land numbits 1 = 1) by (change 1 with (Z.ones 1) at 1; rewrite Z.land_ones by lia; change (2 ^ 1) with 2; rewrite Zmod_odd, H; reflexivity). rewrite X. reflexivity.
Qed.
Lemma not_aligned_16 : ~ aligned 16. Proof. intros (k & K). change ((16 + 7) / 8) with 2 in K. lia. Qed.
Lemma new_key_32 : exists numbits, 32 <= numbits /\ Z.even numbits = true /\ forall fresh R np fuel s e, fresh_ok fresh -> rng_bytes R -> (forall n, 0 <= n -> prime (np n)) -> (forall x, e = Some x -> 0 < x) ->
  forall k, snd (rsa_new_key fresh R np fuel s e numbits) <> Ret k.
Proof. exists 32. split; [lia|]. split; [reflexivity|]. intros. apply new_key_unaligned; try assumption. exact not_aligned_16. Qed.
Lemma even_exponent fresh R np fuel s e numbits : fresh_ok fresh -> rng_bytes R -> rng_total R -> (forall n, 0 <= n -> prime (np n)) ->
  32 <= numbits -> Z.even numbits = true -> size_ok numbits -> aligned numbits -> aligned (numbits / 2) -> 0 < e < 2 ^ numbits -> Z.even e = true -> snd (rsa_new_key fresh R np fuel s (Some e) numbits) = Hang.
Proof.
  intros F B T P N Ev S A A2 E Ee. destruct (new_key_total fresh R np F B P T fuel s (Some e) numbits N Ev S A A2 ltac:(intros x X; injection X as <-; exact E)) as [(k & H)|H]; [|exact H]. exfalso. revert H. apply new_key_even; try assumption. lia.
Qed.
Lemma short_modulus : exists fresh R np fuel s k, fresh_ok fresh /\ rng_bytes R /\ (forall n, 0 <= n -> prime (np n)) /\ snd (rsa_new_key fresh R np fuel s (Some 3) 128) = Ret k /\ be (rp_n (snd k)) < 2 ^ 127.
Proof.
  exists toy_fresh, toy_rng, toy_nextprime, 4%nat, 0%nat. eexists. split; [exact toy_fresh_ok|]. split; [exact toy_rng_bytes|]. split; [exact toy_nextprime_ok|]. split; [vm_compute; reflexivity|]. vm_compute. reflexivity.
Qed.

(* ---- Paillier: ciphertexts are made by encryption and addition ---- *)
Lemma ciphertext_encrypts sk pk m c : pai_key sk pk -> ciphertext pk m c -> 0 < m /\ encrypts (be (pp_n pk)) m (be c).
Proof.
  intros K H. induction H as [fresh R fuel s msg s' c F B M E|m1 c1 m2 c2 c H1 IH1 H2 IH2 E].
  - split; [exact M|]. eapply pai_encrypt_inv; eassumption.
  - destruct IH1 as (P1 & E1), IH2 as (P2 & E2). split; [lia|]. destruct (pai_add_ok sk pk m1 m2 c1 c2 K ltac:(lia) ltac:(lia) E1 E2) as (c' & Ec & H & _). rewrite E in Ec. injection Ec as <-. exact H.
Qed.
Lemma pai_roundtrip sk pk msg fresh R fuel s s' c : pai_key sk pk -> fresh_ok fresh -> rng_bytes R -> 0 < be msg < be (pp_n pk) -> pai_encrypt fresh R fuel s pk msg = (s', Ret c) -> exists x, pai_decrypt sk c = Ret x /\ be x = be msg.
Proof.
  intros K F B M E. destruct (pai_decrypt_ok sk pk (be msg) c K ltac:(lia)) as (x & X1 & X2); [eapply pai_encrypt_inv; try eassumption; lia|]. exists x. split; [exact X1|]. rewrite X2. apply Z.mod_small. lia.
Qed.
Lemma pai_ciphertext_ok sk pk m c : pai_key sk pk -> ciphertext pk m c -> exists x, pai_decrypt sk c = Ret x /\ be x = m mod be (pp_n pk).
Proof. intros K H. destruct (ciphertext_encrypts sk pk m c K H) as (M & E). eapply pai_decrypt_ok; [exact K|lia|exact E]. Qed.
Lemma pai_add_total sk pk m1 c1 m2 c2 : pai_key sk pk -> ciphertext pk m1 c1 -> ciphertext pk m2 c2 -> exists c, pai_add pk c1 c2 = Ret c /\ ciphertext pk (m1 + m2) c.
Proof.
  intros K H1 H2. pose proof (ciphertext_encrypts sk pk _ _ K H1) as (M1 & E1). pose proof (ciphertext_encrypts sk pk _ _ K H2) as (M2 & E2). destruct (pai_add_ok sk pk m1 m2 c1 c2 K ltac:(lia) ltac:(lia) E1 E2) as (c & Ec & _). exists c. split; [exact Ec|]. eapply C_add; eassumption.
Qed.
Definition toy_pai := pai_new_key toy_fresh toy_rng toy_nextprime 4 0%nat 128.
Lemma toy_pai_ok : exists sk pk, snd toy_pai = Ret (sk, pk) /\ pai_key sk pk /\ 2 <= pp_size pk /\ size_ok (pp_size pk).
Proof.
  destruct toy_pai as (s' & r) eqn:E. cbn [snd]. assert (X : exists sk pk, r = Ret (sk, pk)) by (apply (f_equal snd) in E; cbn [snd] in E; rewrite <- E; eexists _, _; vm_compute; reflexivity). destruct X as (sk & pk & ->). exists sk, pk. split; [reflexivity|].
  unfold toy_pai in E. apply (pai_new_key_inv toy_fresh toy_rng toy_nextprime toy_fresh_ok toy_rng_bytes toy_nextprime_ok) in E; [|vm_compute; discriminate]. cbn [fst snd] in E. destruct E as (K & -> & _). split; [exact K|]. split; [lia|]. split; [lia|vm_compute; discriminate].
Qed.
Lemma pai_zero : exists sk pk msg, pai_key sk pk /\ 0 <= be msg < be (pp_n pk) /\ bytes_ok msg /\ forall fresh R fuel s c, snd (pai_encrypt fresh R fuel s pk msg) <> Ret c.
Proof.
  destruct toy_pai_ok as (sk & pk & _ & K & _). exists sk, pk, [0]. split; [exact K|]. pose proof (pai_key_num sk pk K) as (N & _). change (be [0]) with 0. split; [lia|]. split; [repeat constructor; unfold byte_ok; lia|]. intros. eapply pai_encrypt_zero; [exact K|reflexivity].
Qed.

(* ---- Diffie-Hellman ---- *)
Lemma dh_unaligned : exists pr x, bytes_ok (dh_p pr) /\ prime (be (dh_p pr)) /\ 1 < be (dh_g pr) < be (dh_p pr) /\ 0 < x /\ dh_message pr x = Raise Invalid_argument.
Proof. exists (DhParams [23] [5] 4), 6. splits; try (vm_compute; (reflexivity || discriminate || (split; reflexivity))); [repeat constructor; unfold byte_ok; lia|apply small_prime; vm_compute; reflexivity]. Qed.
Definition toy_dh : dh_params := DhParams (to_be 8 toy_p) [5] 4.
Lemma toy_dh_ok : dh_ok toy_dh.
Proof. unfold dh_ok. splits; [split; [apply bytes_ok_to_be|vm_compute; discriminate]|exists 1; reflexivity|vm_compute; reflexivity|vm_compute; reflexivity]. Qed.
Lemma dh_not_wiped : exists pr x m k, dh_ok pr /\ 0 < x < 2 ^ dh_privlen pr /\ dh_shared_secret pr x m = (x, Ret k).
Proof. exists toy_dh, 11, [7]. eexists. split; [exact toy_dh_ok|]. split; [vm_compute; split; reflexivity|]. vm_compute. reflexivity. Qed.
Lemma private_secret_bits fresh R s pr s' x : fresh_ok fresh -> rng_bytes R -> dh_private_secret fresh R s pr = (s', Ret x) -> 2 ^ (dh_privlen pr - 1) <= x < 2 ^ dh_privlen pr /\ 0 < x.
Proof. intros F B E. unfold dh_private_secret in E. apply bn_random_inv in E; [|exact F|exact B]. destruct E as (N & X & _). split; [exact X|]. pose proof (Z.pow_pos_nonneg 2 (dh_privlen pr - 1)). lia. Qed.
Lemma private_wiped fresh R s pr s' x m k : fresh_ok fresh -> rng_bytes R -> 63 <= dh_privlen pr -> dh_private_secret fresh R s pr = (s', Ret x) -> snd (dh_shared_secret pr x m) = Ret k ->
  let x' := fst (dh_shared_secret pr x m) in x' = 0 /\ dh_message pr x' = Raise Invalid_argument /\ forall m', snd (dh_shared_secret pr x' m') = Raise Invalid_argument.
Proof.
  intros F B L E K. apply private_secret_bits in E; [|exact F|exact B]. eapply dh_wiped; [|exact K]. eapply Z.le_trans; [|apply E]. apply Z.pow_le_mono_r; lia.
Qed.
