(* Consequences for DH.derive_key, HMAC keys, and generators without entropy. *)
From Verif Require Import Prelude PreludeFacts BytesNum SpecHash SpecMac SpecPk HashModel HashSpec HashFacts HashSize ShaModel MacModel HashLib RngModel BnModel PkModel Bn Pk3.
From Verif Require WipeHash.

(* ---- derive_key ---- *)
Definition dec (i : Z) : bytes := decimal (Z.to_nat i) i.
Lemma dec_ok i : 0 < i -> is_decimal (dec i) i.
Proof.
  intros H. apply decimal_ok. split; [lia|]. rewrite Z2Nat.id by lia. apply Z.pow_gt_lin_r; lia.
Qed.
Lemma derive_key_dec fresh dv secret nb : (forall n, 0 <= n -> zlen (fresh n) = n) -> bytes_ok dv -> bytes_ok secret -> zlen dv + zlen secret + 20 <= max_string_length ->
  0 <= nb <= max_string_length -> forall K, nb <= 32 * Z.of_nat K -> Z.of_nat K < 2 ^ 62 ->
  dh_derive_key fresh dv secret nb = Ret (firstn (Z.to_nat nb) (concat (map (fun i => sha256 (dv ++ secret ++ dec (Z.of_nat i))) (seq 1 K)))).
Proof. intros F B1 B2 L N K HK1 HK2. apply derive_key_ok; try assumption. exact dec_ok. Qed.
Lemma derive_prefix fresh dv secret n m k : (forall n, 0 <= n -> zlen (fresh n) = n) -> bytes_ok dv -> bytes_ok secret -> zlen dv + zlen secret + 20 <= max_string_length ->
  0 <= n <= m -> m <= max_string_length -> dh_derive_key fresh dv secret m = Ret k -> dh_derive_key fresh dv secret n = Ret (firstn (Z.to_nat n) k).
Proof.
  intros F B1 B2 L N M E. assert (M' := M). unfold max_string_length in M'. rewrite (derive_key_dec fresh dv secret m F B1 B2 L ltac:(lia) (Z.to_nat m)) in E by lia. injection E as <-.
  rewrite (derive_key_dec fresh dv secret n F B1 B2 L ltac:(lia) (Z.to_nat m)) by lia. rewrite firstn_firstn. do 2 f_equal. lia.
Qed.
Lemma derive_split fresh dv secret dv' secret' nb : (forall n, 0 <= n -> zlen (fresh n) = n) -> bytes_ok dv -> bytes_ok secret -> bytes_ok dv' -> bytes_ok secret' ->
  zlen dv + zlen secret + 20 <= max_string_length -> 0 <= nb <= max_string_length -> dv ++ secret = dv' ++ secret' ->
  dh_derive_key fresh dv secret nb = dh_derive_key fresh dv' secret' nb.
Proof.
  intros F B1 B2 B3 B4 L N E. assert (L' : zlen dv' + zlen secret' + 20 <= max_string_length) by (rewrite <- zlen_app, <- E, zlen_app; exact L).
  assert (N' := N). unfold max_string_length in N'. rewrite (derive_key_dec fresh dv secret nb F B1 B2 L N (Z.to_nat nb)), (derive_key_dec fresh dv' secret' nb F B3 B4 L' N (Z.to_nat nb)) by lia.
  do 3 f_equal. apply map_ext. intros i. rewrite !app_assoc, E. reflexivity.
Qed.
Local Notation ret_inj := WipeHash.ret_inj.
Lemma derive_overlap fresh dv secret k : (forall n, 0 <= n -> zlen (fresh n) = n) -> bytes_ok dv -> bytes_ok secret -> zlen dv + zlen secret + 21 <= max_string_length ->
  dh_derive_key fresh dv secret 352 = Ret k -> dh_derive_key fresh dv (secret ++ [49]) 32 = Ret (sub k 320 32).
Proof.
  intros F B1 B2 L E. assert (B3 : bytes_ok (secret ++ [49])) by (apply bytes_ok_app; split; [assumption|repeat constructor; lia]).
  rewrite (derive_key_dec fresh dv secret 352 F B1 B2 ltac:(lia) ltac:(unfold max_string_length; lia) 11%nat) in E by lia. apply ret_inj in E. subst k.
  rewrite (derive_key_dec fresh dv (secret ++ [49]) 32 F B1 B3 ltac:(rewrite zlen_app; change (zlen [49]) with 1; lia) ltac:(unfold max_string_length; lia) 1%nat) by lia.
  f_equal. set (h := fun x => sha256 (dv ++ secret ++ x)).
  assert (Eh : map (fun i => sha256 (dv ++ secret ++ dec (Z.of_nat i))) (seq 1 11) = map h (map (fun i => dec (Z.of_nat i)) (seq 1 11))) by (rewrite map_map; reflexivity).
  rewrite Eh. clear Eh. change (map (fun i => dec (Z.of_nat i)) (seq 1 11)) with [[49]; [50]; [51]; [52]; [53]; [54]; [55]; [56]; [57]; [49; 48]; [49; 49]]. cbn [seq map concat]. rewrite !app_nil_r.
  change (dec (Z.of_nat 1)) with [49]. rewrite <- app_assoc. change ([49] ++ [49]) with [49; 49]. fold (h [49; 49]).
  assert (Hl : forall x, zlen (h x) = 32) by (intros x; apply sha256_size).
  set (P := h [49] ++ h [50] ++ h [51] ++ h [52] ++ h [53] ++ h [54] ++ h [55] ++ h [56] ++ h [57] ++ h [49; 48]).
  assert (LP : zlen P = 320) by (unfold P; rewrite !zlen_app, !Hl; reflexivity).
  assert (EP : h [49] ++ h [50] ++ h [51] ++ h [52] ++ h [53] ++ h [54] ++ h [55] ++ h [56] ++ h [57] ++ h [49; 48] ++ h [49; 49] = P ++ h [49; 49]) by (unfold P; rewrite !app_assoc; reflexivity).
  rewrite EP. assert (LA : zlen (P ++ h [49; 49]) = 352) by (rewrite zlen_app, LP, Hl; reflexivity).
  rewrite !firstn_all2 by (pose proof (Hl [49; 49]); unfold zlen in *; lia).
  rewrite sub_app_r by lia. rewrite LP. symmetry. apply sub_0_all. symmetry. apply Hl.
Qed.
Lemma derive_not_sha1 : dh_derive_key zeros [] [] 4 <> Ret (firstn 4 (sha1 [49])).
Proof. vm_compute. discriminate. Qed.

(* ---- HMAC keys ---- *)
Lemma hmac_zero_key d B key m n : zlen key + Z.of_nat n <= B -> hmac_spec d B (key ++ repeat 0 n) m = hmac_spec d B key m.
Proof.
  intros H. unfold hmac_spec. assert (E : hmac_key d B (key ++ repeat 0 n) = hmac_key d B key); [|rewrite E; reflexivity].
  unfold hmac_key. assert (Ln : zlen (repeat 0 n) = Z.of_nat n) by (unfold zlen; rewrite repeat_length; reflexivity). rewrite zlen_app, Ln.
  replace (zlen key + Z.of_nat n >? B) with false by lia. replace (zlen key >? B) with false by lia. rewrite zlen_app, Ln, <- app_assoc. f_equal.
  unfold zeros. rewrite <- repeat_app. f_equal. lia.
Qed.
Lemma hmac_long_key d B key m : zlen key > B -> zlen (d key) <= B -> hmac_spec d B key m = hmac_spec d B (d key) m.
Proof. intros H1 H2. unfold hmac_spec, hmac_key. replace (zlen key >? B) with true by lia. replace (zlen (d key) >? B) with false by lia. reflexivity. Qed.
Lemma hmac_key_inj d B k1 k2 : zlen k1 = zlen k2 -> zlen k1 <= B -> hmac_key d B k1 = hmac_key d B k2 -> k1 = k2.
Proof.
  intros H1 H2. unfold hmac_key. replace (zlen k1 >? B) with false by lia. replace (zlen k2 >? B) with false by lia. intros H. apply (f_equal (firstn (length k1))) in H. rewrite firstn_app, firstn_all, Nat.sub_diag, app_nil_r in H. assert (El : length k1 = length k2) by (unfold zlen in H1; lia). rewrite El, firstn_app, firstn_all, Nat.sub_diag, app_nil_r in H. exact H.
Qed.

(* ---- no entropy ---- *)
Section NoRng.
Variables (fresh : Z -> bytes) (np : Z -> Z) (s : unit).
Definition raises {A} (r : unit * out A) : Prop := snd r = Raise (Error No_entropy_source).
Lemma no_string n : 0 <= n <= max_string_length -> raises (rng_string fresh no_rng s n).
Proof. intros H. unfold raises, rng_string. replace ((n <? 0) || (n >? max_string_length)) with false by lia. reflexivity. Qed.
Lemma no_random odd nb : 1 <= nb -> (nb + 7) / 8 <= max_string_length -> raises (bn_random fresh no_rng s odd nb).
Proof.
  intros H1 H2. unfold bn_random. rewrite quot8 by lia. pose proof (no_string ((nb + 7) / 8)) as H. unfold raises in *. destruct (rng_string fresh no_rng s ((nb + 7) / 8)) as [s' r]. cbn [snd] in H.
  rewrite H by (split; [apply Z.div_pos; lia|lia]). reflexivity.
Qed.
Lemma bind_raises {A B} (r : unit * out A) (k : unit -> A -> unit * out B) : raises r -> raises (let! (s, x) := r in k s x).
Proof. unfold raises. destruct r as [s' x]. cbn [snd]. intros ->. reflexivity. Qed.
Lemma no_prime f nb : 1 <= nb -> (nb + 7) / 8 <= max_string_length -> raises (bn_random_prime fresh no_rng np (S f) s nb).
Proof. intros H1 H2. cbn [bn_random_prime]. apply bind_raises, no_random; assumption. Qed.
Lemma no_rsa f e nb : 32 <= nb -> Z.land nb 1 = 0 -> (nb + 7) / 8 <= max_string_length -> raises (rsa_new_key fresh no_rng np (S f) s e nb).
Proof.
  intros H1 H2 H3. unfold rsa_new_key. replace ((nb <? 32) || (Z.land nb 1 >? 0)) with false by lia. apply bind_raises. cbn [gen_factors]. apply bind_raises. cbn [gen_factor]. apply bind_raises.
  rewrite Z.quot_div_nonneg by lia. apply no_prime; [apply Z.div_le_lower_bound; lia|]. transitivity ((nb + 7) / 8); [|assumption]. apply Z.div_le_mono; [lia|]. pose proof (Z.div_le_upper_bound nb 2 nb ltac:(lia) ltac:(lia)). lia.
Qed.
Lemma no_paillier f nb : 32 <= nb -> Z.land nb 1 = 0 -> (nb + 7) / 8 <= max_string_length -> raises (pai_new_key fresh no_rng np (S f) s nb).
Proof.
  intros H1 H2 H3. unfold pai_new_key. replace ((nb <? 32) || (Z.land nb 1 >? 0)) with false by lia. apply bind_raises. cbn [pai_gen_factors]. apply bind_raises.
  rewrite Z.quot_div_nonneg by lia. apply no_prime; [apply Z.div_le_lower_bound; lia|]. transitivity ((nb + 7) / 8); [|assumption]. apply Z.div_le_mono; [lia|]. pose proof (Z.div_le_upper_bound nb 2 nb ltac:(lia) ltac:(lia)). lia.
Qed.
Lemma no_encrypt f key msg : 2 <= pp_size key -> (pp_size key + 7) / 8 <= max_string_length -> raises (pai_encrypt fresh no_rng (S f) s key msg).
Proof.
  intros H1 H2. unfold pai_encrypt. apply bind_raises. cbn [pai_get_r]. apply bind_raises. apply no_random; [lia|]. transitivity ((pp_size key + 7) / 8); [|assumption]. apply Z.div_le_mono; lia.
Qed.
Lemma no_parameters f privlen nb : 32 <= nb -> privlen < nb -> (nb + 7) / 8 <= max_string_length -> raises (dh_new_parameters fresh no_rng np (S f) s privlen nb).
Proof.
  intros H1 H2 H3. unfold dh_new_parameters. replace ((nb <? 32) || (nb <=? privlen)) with false by lia. apply bind_raises. apply no_prime; [lia|assumption].
Qed.
Lemma no_secret pr : 1 <= dh_privlen pr -> (dh_privlen pr + 7) / 8 <= max_string_length -> raises (dh_private_secret fresh no_rng s pr).
Proof. apply no_random. Qed.
End NoRng.
Lemma hmac_zero_keys fresh o d B key n : (forall n, 0 <= n -> zlen (fresh n) = n) -> hmac_hash fresh o d B -> bytes_ok key -> zlen key + Z.of_nat n <= B ->
  exists h h' D, hmac_of o B key = Ret h /\ hmac_of o B (key ++ repeat 0 n) = Ret h' /\ computes h D /\ computes h' D.
Proof.
  intros F HH Hk Hl. destruct (hmac_hash_ok fresh o d B F HH) as (HB & _). assert (Ln : zlen (repeat 0 n) = Z.of_nat n) by (unfold zlen; rewrite repeat_length; reflexivity).
  assert (Hk' : bytes_ok (key ++ repeat 0 n)) by (apply bytes_ok_app; split; [exact Hk|apply Forall_forall; intros x Hx; apply repeat_spec in Hx; subst x; unfold byte_ok; lia]).
  destruct (hmac_ok fresh o d B key F HH Hk ltac:(lia)) as (h & E1 & _ & C1). destruct (hmac_ok fresh o d B (key ++ repeat 0 n) F HH Hk' ltac:(rewrite zlen_app; lia)) as (h' & E2 & _ & C2).
  exists h, h', (hmac_spec d B key). split; [exact E1|]. split; [exact E2|]. split; [exact C1|]. intros ops Hv HP. specialize (C2 ops Hv HP). cbv beta in C2. rewrite hmac_zero_key in C2 by exact Hl. exact C2.
Qed.
Lemma hmac_long_keys fresh o d B key : (forall n, 0 <= n -> zlen (fresh n) = n) -> hmac_hash fresh o d B -> bytes_ok key -> B < zlen key <= max_string_length ->
  exists h h' D, hmac_of o B key = Ret h /\ hmac_of o B (d key) = Ret h' /\ computes h D /\ computes h' D.
Proof.
  intros F HH Hk Hl. destruct (hmac_hash_ok fresh o d B F HH) as (HB & _ & Hd & Hdb).
  destruct (hmac_ok fresh o d B key F HH Hk ltac:(lia)) as (h & E1 & _ & C1). destruct (hmac_ok fresh o d B (d key) F HH (Hdb key) ltac:(specialize (Hd key); lia)) as (h' & E2 & _ & C2).
  exists h, h', (hmac_spec d B key). split; [exact E1|]. split; [exact E2|]. split; [exact C1|]. intros ops Hv HP. specialize (C2 ops Hv HP). cbv beta in C2. rewrite <- hmac_long_key in C2 by (try apply Hd; lia). exact C2.
Qed.
Lemma no_entropy : forall (fresh : Z -> bytes) (np : Z -> Z) f, 
  (forall n, 0 <= n <= max_string_length -> raises (rng_string fresh no_rng tt n)) /\
  (forall e nb, 32 <= nb -> Z.land nb 1 = 0 -> (nb + 7) / 8 <= max_string_length -> raises (rsa_new_key fresh no_rng np (S f) tt e nb)) /\
  (forall nb, 32 <= nb -> Z.land nb 1 = 0 -> (nb + 7) / 8 <= max_string_length -> raises (pai_new_key fresh no_rng np (S f) tt nb)) /\
  (forall key msg, 2 <= pp_size key -> (pp_size key + 7) / 8 <= max_string_length -> raises (pai_encrypt fresh no_rng (S f) tt key msg)) /\
  (forall privlen nb, 32 <= nb -> privlen < nb -> (nb + 7) / 8 <= max_string_length -> raises (dh_new_parameters fresh no_rng np (S f) tt privlen nb)) /\
  (forall pr, 1 <= dh_privlen pr -> (dh_privlen pr + 7) / 8 <= max_string_length -> raises (dh_private_secret fresh no_rng tt pr)).
Proof.
  intros fresh np f. repeat split; intros.
  - apply no_string; assumption.
  - apply no_rsa; assumption.
  - apply no_paillier; assumption.
  - apply no_encrypt; assumption.
  - apply no_parameters; assumption.
  - apply no_secret; assumption.
Qed.
Lemma derive_sha1 : exists dv secret n, 0 <= n <= 20 /\ dh_derive_key zeros dv secret n <> Ret (firstn (Z.to_nat n) (sha1 (dv ++ secret ++ [49]))).
Proof. exists [], [], 4. split; [lia|exact derive_not_sha1]. Qed.
