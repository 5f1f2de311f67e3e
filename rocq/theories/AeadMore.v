(* AEAD: the keystream depends on key and IV only, the authenticated string determines header and ciphertext. *)
From Verif Require Import Prelude PreludeFacts BytesNum SpecTransducer SpecBlock BlockTotal TransformModel CipherModel CipherSpec CipherApi EncModel EncApi SpecAes AesModel AesniModel
  Aesni SpecStream StreamObj StreamModel SpecPoly SpecGhash PolyModel Poly AesField Aes AesApi AuthModel AeadModel Auth SpecAead Gcm GcmObj ChaPoly AeadApi KeyStream.

Lemma gcm_keystream key iv : aes_key_size key -> bytes_ok key -> bytes_ok iv -> zlen iv <= max_string_length ->
  exists ks, forall (fresh : Z -> bytes) accel nb A, (forall n, 0 <= n -> zlen (fresh n) = n) -> aes_class fresh nb -> bytes_ok A -> zlen A <= max_string_length ->
  exists o, aes_gcm fresh accel nb A iv key Encrypt = Ret o /\
  forall msg, bytes_ok msg -> zlen msg + 128 <= max_string_length -> zlen msg <= 2 ^ 36 - 32 ->
  exists t, auth_detached o msg = Ret (ks_xor ks 0 msg, t).
Proof.
  intros HK BK BI LI. pose proof (blk_J0 (aes_E key) iv BI) as HJ. destruct HJ as (J1 & J2).
  destruct (gctr_keystream (aes_E key)) with (icb := inc32 (gcm_J0 (aes_E key) iv)) as (ks & Hks).
  - intros b H1 H2. apply (aes_E_blk key b HK BK H1 H2).
  - unfold inc32. rewrite zlen_app. unfold zlen in *. rewrite firstn_length, length_to_be. lia.
  - unfold inc32. apply bytes_ok_app. split; [apply Forall_firstn, J2|apply bytes_ok_to_be].
  - exists ks. intros fresh accel nb A F Hnb BA LA. destruct (gcm_encrypts fresh accel nb key A iv F Hnb HK BK BA BI LA LI) as (o & Eo & Ho).
    exists o. split; [exact Eo|]. intros msg Bm Lm L36. destruct (Ho msg Bm Lm) as (D & _). replace (zlen msg <=? 2 ^ 36 - 32) with true in D by lia.
    unfold gcm_C in D. rewrite Hks in D. eexists. exact D.
Qed.
Lemma chapoly_keystream key iv : zlen key = 16 \/ zlen key = 32 -> zlen iv = 8 \/ zlen iv = 12 -> bytes_ok key -> bytes_ok iv ->
  exists ks, forall (fresh : Z -> bytes) P header, (forall n, 0 <= n -> zlen (fresh n) = n) -> poly_class P -> bytes_ok header -> zlen header <= max_string_length ->
  exists o, chacha20_poly1305 fresh P header iv key Encrypt = Ret o /\
  forall msg, bytes_ok msg -> zlen msg <= max_string_length -> (zlen iv = 12 -> zlen msg <= 2 ^ 38) ->
  exists t, auth_detached o msg = Ret (ks_xor ks 0 msg, t).
Proof.
  intros HK HI BK BI. exists (chacha20 key 1 iv). intros fresh P header F HP BH LH.
  destruct (chapoly_encrypts fresh P header iv key F HP HK HI BK BI BH LH) as (o & Eo & Ho). exists o. split; [exact Eo|].
  intros msg Bm Lm L38. destruct (Ho msg Bm Lm) as (D & _).
  replace ((zlen iv =? 12) && (zlen msg >? 2 ^ 38))%bool with false in D.
  - eexists. exact D.
  - symmetry. apply andb_false_iff. destruct (Z.eqb_spec (zlen iv) 12) as [E|E]; [right|left; reflexivity]. specialize (L38 E). lia.
Qed.

(* the string authenticated by each construction *)
Definition poly_input (A C : bytes) : bytes := pad16 A ++ pad16 C ++ to_le 8 (zlen A) ++ to_le 8 (zlen C).
Definition ghash_input (A C : bytes) : bytes := pad16 A ++ pad16 C ++ to_be 8 (8 * zlen A) ++ to_be 8 (8 * zlen C).

Lemma poly_input_inj A C A' C' : zlen A < 2 ^ 64 -> zlen C < 2 ^ 64 -> zlen A' < 2 ^ 64 -> zlen C' < 2 ^ 64 ->
  poly_input A C = poly_input A' C' -> A = A' /\ C = C'.
Proof.
  intros H1 H2 H3 H4. pose proof (zlen_nonneg A). pose proof (zlen_nonneg C). pose proof (zlen_nonneg A'). pose proof (zlen_nonneg C').
  apply (pad16_encoding (to_le 8)); [intros; apply length_to_le| |]; intros E; apply to_le_inj in E; try exact E;
    change (256 ^ Z.of_nat 8) with (2 ^ 64); lia.
Qed.

(* as polynomials: zero blocks in front do not count *)
Lemma last16 (l : bytes) a b : length b = 16%nat -> (16 | zlen a) -> chunks 16 (a ++ b) = chunks 16 a ++ [b].
Proof.
  intros Hb (k & Hk). destruct (split_blocks 16 a ltac:(lia)) as (X & tail & E & HX & Hl & Hm & _).
  assert (tail = []). { pose proof (zlen_nonneg tail). rewrite Hk, Z.mod_mul in Hm by lia. destruct tail; [reflexivity|]. unfold zlen in Hm. cbn in Hm. lia. }
  subst tail. rewrite app_nil_r in E. subst a. rewrite (chunks_concat0 16 X) by (lia || exact HX).
  rewrite (chunks_concat 16 X b) by (lia || exact HX). f_equal. apply chunks_short. unfold zlen. lia.
Qed.
Lemma pad16_div A : (16 | zlen (pad16 A)).
Proof.
  unfold pad16. rewrite zlen_app, zlen_zeros by (apply Z.mod_pos_bound; lia). exists (- (- zlen A / 16)). pose proof (Z.div_mod (- zlen A) 16). lia.
Qed.
Lemma ghash_input_inj A C A' C' k k' : zlen A < 2 ^ 61 -> zlen C < 2 ^ 61 -> zlen A' < 2 ^ 61 -> zlen C' < 2 ^ 61 ->
  repeat (zeros 16) k ++ chunks 16 (ghash_input A C) = repeat (zeros 16) k' ++ chunks 16 (ghash_input A' C') -> A = A' /\ C = C'.
Proof.
  intros H1 H2 H3 H4 E. pose proof (zlen_nonneg A). pose proof (zlen_nonneg C). pose proof (zlen_nonneg A'). pose proof (zlen_nonneg C').
  assert (Q : forall A C, chunks 16 (ghash_input A C) = chunks 16 (pad16 A ++ pad16 C) ++ [to_be 8 (8 * zlen A) ++ to_be 8 (8 * zlen C)]).
  { intros X Y. unfold ghash_input. rewrite app_assoc. apply last16; [exact []|rewrite app_length, !length_to_be; reflexivity|].
    rewrite zlen_app. apply Z.divide_add_r; apply pad16_div. }
  rewrite !Q, !app_assoc in E. apply app_inj_tail in E. destruct E as (E1 & E2).
  apply app_len_inj in E2; [|rewrite !length_to_be; reflexivity]. destruct E2 as (EA & EC).
  apply to_be_inj in EA; [|change (256 ^ Z.of_nat 8) with (2 ^ 64); lia..]. apply to_be_inj in EC; [|change (256 ^ Z.of_nat 8) with (2 ^ 64); lia..].
  assert (LA : zlen A = zlen A') by lia. assert (LC : zlen C = zlen C') by lia.
  assert (S : forall l, (16 | zlen l) -> concat (chunks 16 l) = l).
  { intros l _. apply chunks_sizes. }
  assert (N : forall A C A' C', zlen A = zlen A' -> zlen C = zlen C' -> length (chunks 16 (pad16 A ++ pad16 C)) = length (chunks 16 (pad16 A' ++ pad16 C'))).
  { intros a c a' c' La Lc. assert (Lp : zlen (pad16 a ++ pad16 c) = zlen (pad16 a' ++ pad16 c')).
    { rewrite !zlen_app. unfold pad16. rewrite !zlen_app, La, Lc. reflexivity. }
    destruct (Z.divide_add_r 16 _ _ (pad16_div a) (pad16_div c)) as (q & Hq). rewrite <- zlen_app in Hq. pose proof (zlen_nonneg (pad16 a ++ pad16 c)).
    rewrite (chunks_len 16 (Z.to_nat q)), (chunks_len 16 (Z.to_nat q)); try lia. }
  apply app_len_inj_r in E1; [|apply N; assumption]. destruct E1 as (_ & E1). apply (f_equal (@concat Z)) in E1. rewrite !S in E1.
  - unfold pad16 in E1. rewrite LA, LC in E1. assert (length A = length A') by (unfold zlen in LA; lia). assert (length C = length C') by (unfold zlen in LC; lia).
    apply app_len_inj in E1; [|rewrite !app_length; lia]. destruct E1 as (F1 & F2). apply app_len_inj in F1; [|assumption]. apply app_len_inj in F2; [|assumption]. tauto.
  - rewrite zlen_app. apply Z.divide_add_r; apply pad16_div.
  - rewrite zlen_app. apply Z.divide_add_r; apply pad16_div.
Qed.

Lemma gcm_authenticates key iv fresh accel nb A : aes_key_size key -> bytes_ok key -> bytes_ok iv -> zlen iv <= max_string_length ->
  (forall n, 0 <= n -> zlen (fresh n) = n) -> aes_class fresh nb -> bytes_ok A -> zlen A <= max_string_length ->
  exists o, aes_gcm fresh accel nb A iv key Encrypt = Ret o /\
  forall msg, bytes_ok msg -> zlen msg + 128 <= max_string_length -> zlen msg <= 2 ^ 36 - 32 ->
  exists c, auth_detached o msg = Ret (c, gctr (aes_E key) (gcm_J0 (aes_E key) iv) (ghash (gcm_H (aes_E key)) (chunks 16 (ghash_input A c)))).
Proof.
  intros HK BK BI LI F Hnb BA LA. destruct (gcm_encrypts fresh accel nb key A iv F Hnb HK BK BA BI LA LI) as (o & Eo & Ho).
  exists o. split; [exact Eo|]. intros msg Bm Lm L36. destruct (Ho msg Bm Lm) as (D & _). replace (zlen msg <=? 2 ^ 36 - 32) with true in D by lia.
  eexists. exact D.
Qed.
Lemma chapoly_authenticates key iv fresh P header : zlen key = 16 \/ zlen key = 32 -> zlen iv = 8 \/ zlen iv = 12 -> bytes_ok key -> bytes_ok iv ->
  (forall n, 0 <= n -> zlen (fresh n) = n) -> poly_class P -> bytes_ok header -> zlen header <= max_string_length ->
  exists o, chacha20_poly1305 fresh P header iv key Encrypt = Ret o /\
  forall msg, bytes_ok msg -> zlen msg <= max_string_length -> (zlen iv = 12 -> zlen msg <= 2 ^ 38) ->
  exists c, auth_detached o msg = Ret (c, poly1305 (firstn 32 (chacha_block key 0 iv)) (poly_input header c)).
Proof.
  intros HK HI BK BI F HP BH LH. destruct (chapoly_encrypts fresh P header iv key F HP HK HI BK BI BH LH) as (o & Eo & Ho). exists o. split; [exact Eo|].
  intros msg Bm Lm L38. destruct (Ho msg Bm Lm) as (D & _).
  replace ((zlen iv =? 12) && (zlen msg >? 2 ^ 38))%bool with false in D.
  - eexists. exact D.
  - symmetry. apply andb_false_iff. destruct (Z.eqb_spec (zlen iv) 12) as [E|E]; [right|left; reflexivity]. specialize (L38 E). lia.
Qed.
(* two messages under one key and one IV *)
Lemma mode_two_messages fresh nb key bs E D m iv d : (forall n, 0 <= n -> zlen (fresh n) = n) -> block_family nb key bs E D -> stream_mode m -> mode_ok bs m -> iv_ok bs m iv ->
  exists o, make_cipher fresh nb (Some m) None iv key d = Ret o /\
  forall m1 m2, bytes_ok m1 -> bytes_ok m2 -> zlen m1 = zlen m2 -> zlen m1 + 3 * mode_bs bs m <= max_string_length -> zlen m1 mod mode_bs bs m = 0 ->
    within_limit bs m (zlen m1 / mode_bs bs m) ->
    exists c1 c2, run_string o m1 = Ret c1 /\ run_string o m2 = Ret c2 /\ xorb c1 c2 = xorb m1 m2.
Proof.
  intros F HF Hs Hm Hiv. destruct (mode_keystream fresh F nb key bs E D m iv HF Hs Hm Hiv) as (ks & Hk). destruct (Hk d) as (o & Eo & Ho).
  exists o. split; [exact Eo|]. intros m1 m2 B1 B2 L12 L1 Hd Hw.
  destruct (Ho m1 B1 L1 Hd Hw) as (R1 & _). destruct (Ho m2 B2) as (R2 & _); try (rewrite <- L12; assumption).
  do 2 eexists. split; [exact R1|]. split; [exact R2|]. apply ks_xor_diff. unfold zlen in L12. lia.
Qed.
