(* Forgeries: what the objects accept, and for how many keys.  C94, C95. *)
From Verif Require Import Prelude PreludeFacts BytesNum SpecBlock SpecPoly SpecGhash SpecAead SpecStream SpecAes BlockModel EncModel CipherModel BlockTotal AesModel AesApi PolyModel AuthModel AeadModel Auth AesField Gcm AeadApi AeadMore
  Aes Aesni MacApi WipeHash Poly PolyForge GhashForge SpecForge.

Lemma pad16_blocks x : zlen (pad16 x) = 16 * ((zlen x + 15) / 16).
Proof.
  unfold pad16. pose proof (Z.mod_pos_bound (- zlen x) 16 ltac:(lia)). rewrite zlen_app, zlen_zeros by lia. pose proof (Z.div_mod (- zlen x) 16 ltac:(lia)).
  pose proof (Z.div_mod (zlen x + 15) 16 ltac:(lia)). pose proof (Z.mod_pos_bound (zlen x + 15) 16 ltac:(lia)). lia.
Qed.
Lemma input_len (f : Z -> bytes) A C : (forall n, length (f n) = 8%nat) -> forall m : bytes -> Z, zlen (pad16 A ++ pad16 C ++ f (m A) ++ f (m C)) = 16 * auth_blocks A C.
Proof. intros L m. rewrite !zlen_app, !pad16_blocks. unfold auth_blocks. unfold zlen at 3 4. rewrite !L. lia. Qed.
Lemma blocks_pos A C : 1 <= auth_blocks A C.
Proof. unfold auth_blocks. pose proof (zlen_nonneg A). pose proof (zlen_nonneg C). assert (0 <= (zlen A + 15) / 16) by (apply Z.div_pos; lia). assert (0 <= (zlen C + 15) / 16) by (apply Z.div_pos; lia). lia. Qed.
Lemma input_chunks x A C : zlen x = 16 * auth_blocks A C -> length (chunks 16 x) = Z.to_nat (auth_blocks A C).
Proof. intros H. pose proof (blocks_pos A C). apply chunks_len; lia. Qed.

Lemma chapoly_accepts_tag fresh P key iv header c t : (forall n, 0 <= n -> zlen (fresh n) = n) -> poly_class P ->
  zlen key = 16 \/ zlen key = 32 -> zlen iv = 8 \/ zlen iv = 12 -> bytes_ok key -> bytes_ok iv -> bytes_ok header -> zlen header <= max_string_length ->
  bytes_ok c -> bytes_ok t -> zlen t = 16 -> zlen c + 16 <= max_string_length ->
  chapoly_accepts fresh P key iv header (c ++ t) <-> t = aead_T key iv header c.
Proof.
  intros F HP K I BK BI BH LH BC BT LT LC. destruct (chapoly_check fresh P header iv key F HP K I BK BI BH LH) as (o & E & H). specialize (H c t BC BT LT LC). split.
  - intros (o' & p & E' & A). rewrite E in E'. apply ret_inj in E'. subst o'. rewrite H in A. apply ret_inj in A. destruct (list_eq_dec Z.eq_dec t (aead_T key iv header c)) as [T|T]; [exact T|discriminate A].
  - intros T. exists o, (aead_C key iv c). split; [exact E|]. rewrite H. destruct (list_eq_dec Z.eq_dec t (aead_T key iv header c)); [reflexivity|contradiction].
Qed.
Lemma gcm_accepts_tag fresh accel nb key iv header c t : (forall n, 0 <= n -> zlen (fresh n) = n) -> aes_class fresh nb ->
  aes_key_size key -> bytes_ok key -> bytes_ok header -> bytes_ok iv -> zlen header <= max_string_length -> zlen iv <= max_string_length ->
  bytes_ok c -> bytes_ok t -> zlen t = 16 -> zlen c + 144 <= max_string_length ->
  gcm_accepts fresh accel nb key iv header (c ++ t) <-> t = gcm_T (aes_E key) iv header c.
Proof.
  intros F HN K BK BH BI LH LI BC BT LT LC. destruct (gcm_check fresh accel nb key header iv F HN K BK BH BI LH LI) as (o & E & H). specialize (H c t BC BT LT LC). split.
  - intros (o' & p & E' & A). rewrite E in E'. apply ret_inj in E'. subst o'. rewrite H in A. apply ret_inj in A. destruct (list_eq_dec Z.eq_dec t (gcm_T (aes_E key) iv header c)) as [T|T]; [exact T|discriminate A].
  - intros T. exists o, (gcm_C (aes_E key) iv c). split; [exact E|]. rewrite H. destruct (list_eq_dec Z.eq_dec t (gcm_T (aes_E key) iv header c)); [reflexivity|contradiction].
Qed.

Lemma land_mask_range x m : 0 <= m < 2 ^ 128 -> 0 <= Z.land x m < 2 ^ 128.
Proof.
  intros M. assert (0 <= Z.land x m) by (apply Z.land_nonneg; right; lia). split; [assumption|].
  destruct (Z.eq_dec m 0) as [->|N]; [rewrite Z.land_0_r; lia|]. replace m with (Z.land m (Z.ones 128)) by (rewrite Z.land_ones by lia; apply Z.mod_small; lia).
  rewrite Z.land_assoc, Z.land_ones by lia. apply Z.mod_pos_bound. lia.
Qed.
Lemma poly_r_range key : 0 <= poly_r key < p1305.
Proof.
  unfold poly_r. destruct (land_mask_range (le (sub key 0 16)) 0x0ffffffc0ffffffc0ffffffc0fffffff ltac:(lia)) as (A & B).
  split; [exact A|]. eapply Z.lt_trans; [exact B|reflexivity].
Qed.
Theorem chapoly_forgeries fresh P header1 c1 t1 header2 c2 t2 s keys : (forall n, 0 <= n -> zlen (fresh n) = n) -> poly_class P ->
  bytes_ok header1 -> bytes_ok c1 -> bytes_ok t1 -> zlen t1 = 16 -> zlen header1 <= max_string_length -> zlen c1 + 16 <= max_string_length ->
  bytes_ok header2 -> bytes_ok c2 -> bytes_ok t2 -> zlen t2 = 16 -> zlen header2 <= max_string_length -> zlen c2 + 16 <= max_string_length ->
  (header1, c1) <> (header2, c2) ->
  NoDup (map (fun '(key, iv) => poly_r (aead_key key iv)) keys) ->
  (forall key iv, In (key, iv) keys -> (zlen key = 16 \/ zlen key = 32) /\ (zlen iv = 8 \/ zlen iv = 12) /\ bytes_ok key /\ bytes_ok iv /\
    poly_s (aead_key key iv) = s /\ chapoly_accepts fresh P key iv header1 (c1 ++ t1) /\ chapoly_accepts fresh P key iv header2 (c2 ++ t2)) ->
  zlen keys <= 8 * Z.max (auth_blocks header1 c1) (auth_blocks header2 c2).
Proof.
  intros F HP B1 BC1 BT1 LT1 L1 LC1 B2 BC2 BT2 LT2 L2 LC2 D N H. assert (MX : max_string_length < 2 ^ 61) by reflexivity.
  assert (PI : forall A C, bytes_ok A -> bytes_ok C -> bytes_ok (poly_input A C)) by (intros; unfold poly_input, pad16; rewrite !bytes_ok_app; repeat split; try assumption; try apply bytes_ok_zeros; apply bytes_ok_to_le).
  assert (Q : (length (map (fun '(key, iv) => poly_r (aead_key key iv)) keys) <= 8 * max (length (chunks 16 (poly_input header1 c1))) (length (chunks 16 (poly_input header2 c2))))%nat).
  { apply (poly_forge (poly_input header1 c1) (poly_input header2 c2) t1 t2 s); [apply PI; assumption|apply PI; assumption| |exact N|].
    - intros E. apply poly_input_inj in E; [|lia..]. destruct E as (-> & ->). now apply D.
    - intros r R. apply in_map_iff in R. destruct R as ((key, iv) & <- & I). destruct (H key iv I) as (K & V & BK & BV & S & A1 & A2). split; [apply poly_r_range|].
      apply (chapoly_accepts_tag fresh P key iv header1 c1 t1) in A1; try assumption. apply (chapoly_accepts_tag fresh P key iv header2 c2 t2) in A2; try assumption.
      subst t1 t2 s. split; reflexivity. }
  rewrite map_length in Q. unfold poly_input in Q. rewrite (input_chunks _ header1 c1), (input_chunks _ header2 c2) in Q by (apply (input_len (to_le 8)); intros; apply length_to_le).
  pose proof (blocks_pos header1 c1). pose proof (blocks_pos header2 c2). unfold zlen. lia.
Qed.

Lemma blk_fold_mult H bl : forall y, blk y -> blk (fold_left (fun y x => block_mult (xorb y x) H) bl y).
Proof.
  induction bl as [|b bl IH]; intros y Y; [exact Y|]. cbn [fold_left]. apply IH. unfold block_mult. split; [unfold zlen; rewrite length_to_be; reflexivity|apply bytes_ok_to_be].
Qed.
Lemma blk_ghash H bl : blk (ghash H bl).
Proof. unfold ghash. apply blk_fold_mult. split; [reflexivity|apply bytes_ok_zeros]. Qed.
Lemma gctr_one E j x : zlen x = 16 -> gctr E j x = xorb x (firstn 16 (E j)).
Proof. intros L. unfold gctr. rewrite chunks_short by lia. cbn [gctr_blocks concat]. rewrite app_nil_r. replace (length x) with 16%nat by (unfold zlen in L; lia). reflexivity. Qed.
Theorem gcm_forgeries fresh accel nb header1 c1 t1 header2 c2 t2 e keys : (forall n, 0 <= n -> zlen (fresh n) = n) -> aes_class fresh nb ->
  bytes_ok header1 -> bytes_ok c1 -> bytes_ok t1 -> zlen t1 = 16 -> zlen header1 <= max_string_length -> zlen c1 + 144 <= max_string_length ->
  bytes_ok header2 -> bytes_ok c2 -> bytes_ok t2 -> zlen t2 = 16 -> zlen header2 <= max_string_length -> zlen c2 + 144 <= max_string_length ->
  (header1, c1) <> (header2, c2) ->
  NoDup (map (fun '(key, iv) => aes_E key (zeros 16)) keys) ->
  (forall key iv, In (key, iv) keys -> aes_key_size key /\ bytes_ok key /\ bytes_ok iv /\ zlen iv <= max_string_length /\
    aes_E key (gcm_J0 (aes_E key) iv) = e /\ gcm_accepts fresh accel nb key iv header1 (c1 ++ t1) /\ gcm_accepts fresh accel nb key iv header2 (c2 ++ t2)) ->
  zlen keys <= Z.max (auth_blocks header1 c1) (auth_blocks header2 c2).
Proof.
  intros F HN B1 BC1 BT1 LT1 L1 LC1 B2 BC2 BT2 LT2 L2 LC2 D N H. assert (MX : max_string_length < 2 ^ 61) by reflexivity.
  pose proof (blocks_pos header1 c1) as P1. pose proof (blocks_pos header2 c2) as P2. destruct keys as [|k0 keys0]; [unfold zlen; cbn [length]; lia|]. set (keys := k0 :: keys0) in *.
  assert (BL : forall A C, bytes_ok A -> bytes_ok C -> Forall blk (chunks 16 (ghash_input A C))).
  { intros A C BA BC. assert (bytes_ok (ghash_input A C)) by (unfold ghash_input, pad16; rewrite !bytes_ok_app; repeat split; try assumption; try apply bytes_ok_zeros; apply bytes_ok_to_be).
    apply (chunks_ok 16); [lia| |assumption]. unfold ghash_input. rewrite (input_len (to_be 8) A C (fun n => length_to_be 8 n) (fun x => 8 * zlen x)). rewrite Z.mul_comm. apply Z.mod_mul. lia. }
  assert (J : forall key iv, aes_key_size key -> bytes_ok key -> bytes_ok iv -> blk (gcm_J0 (aes_E key) iv)).
  { intros key iv K BK BV. unfold gcm_J0. destruct (Z.eqb_spec (zlen iv) 12) as [E|E].
    - split; [rewrite zlen_app, E; reflexivity|]. apply bytes_ok_app. split; [exact BV|]. repeat constructor; unfold byte_ok; lia.
    - apply blk_ghash. }
  assert (Be : blk e).
  { destruct k0 as (key, iv). destruct (H key iv (or_introl eq_refl)) as (K & BK & BV & _ & <- & _). destruct (J key iv K BK BV). apply aes_E_blk; assumption. }
  assert (Q : (length (map (fun '(key, iv) => aes_E key (zeros 16)) keys) <= max (length (chunks 16 (ghash_input header1 c1))) (length (chunks 16 (ghash_input header2 c2))))%nat).
  { apply (ghash_forge (chunks 16 (ghash_input header1 c1)) (chunks 16 (ghash_input header2 c2)) e t1 t2); [apply BL; assumption|apply BL; assumption|exact Be| |exact N|].
    - intros k k' E. apply ghash_input_inj in E; [|lia..]. destruct E as (-> & ->). now apply D.
    - intros h R. apply in_map_iff in R. destruct R as ((key, iv) & <- & I). destruct (H key iv I) as (K & BK & BV & LV & S & A1 & A2). split; [apply aes_E_blk; try assumption; [reflexivity|apply bytes_ok_zeros]|].
      apply (gcm_accepts_tag fresh accel nb key iv header1 c1 t1) in A1; try assumption. apply (gcm_accepts_tag fresh accel nb key iv header2 c2 t2) in A2; try assumption.
      assert (GE : forall bl, zlen (ghash (aes_E key (zeros 16)) bl) = 16) by (intros bl; exact (proj1 (blk_ghash (aes_E key (zeros 16)) bl))).
      unfold gcm_T, ghash_str, gcm_H in A1, A2. rewrite gctr_one in A1, A2 by apply GE. rewrite S in A1, A2.
      rewrite (firstn_all2 (n := 16) e) in A1, A2 by (destruct Be as (Be & _); unfold zlen in Be; lia). split; symmetry; assumption. }
  rewrite map_length in Q. unfold ghash_input in Q. rewrite (input_chunks _ header1 c1), (input_chunks _ header2 c2) in Q.
  - unfold zlen. lia.
  - apply (input_len (to_be 8) header2 c2 (fun n => length_to_be 8 n) (fun x => 8 * zlen x)).
  - apply (input_len (to_be 8) header1 c1 (fun n => length_to_be 8 n) (fun x => 8 * zlen x)).
Qed.

(* for the examples *)
Definition chapoly_accepts_b (fresh : Z -> bytes) (P : poly_impl) (key iv header str : bytes) : bool :=
  match chacha20_poly1305 fresh P header iv key Decrypt with
  | Ret o => match auth_check o str with Ret (Some _) => true | _ => false end
  | _ => false end.
Lemma chapoly_accepts_intro fresh P key iv header str : chapoly_accepts_b fresh P key iv header str = true -> chapoly_accepts fresh P key iv header str.
Proof.
  unfold chapoly_accepts_b, chapoly_accepts. destruct (chacha20_poly1305 fresh P header iv key Decrypt) as [o|e| |]; try discriminate. intros H.
  exists o. destruct (auth_check o str) as [[p|]|e| |]; try discriminate. exists p. split; reflexivity.
Qed.
Definition gcm_accepts_b (fresh : Z -> bytes) (accel : bool) (nb : bytes -> out bobj) (key iv header str : bytes) : bool :=
  match aes_gcm fresh accel nb header iv key Decrypt with
  | Ret o => match auth_check o str with Ret (Some _) => true | _ => false end
  | _ => false end.
Lemma gcm_accepts_intro fresh accel nb key iv header str : gcm_accepts_b fresh accel nb key iv header str = true -> gcm_accepts fresh accel nb key iv header str.
Proof.
  unfold gcm_accepts_b, gcm_accepts. destruct (aes_gcm fresh accel nb header iv key Decrypt) as [o|e| |]; try discriminate. intros H.
  exists o. destruct (auth_check o str) as [[p|]|e| |]; try discriminate. exists p. split; reflexivity.
Qed.
