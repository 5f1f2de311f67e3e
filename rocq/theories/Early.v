(* What the AEAD decryption objects deliver before the tag is checked. *)
From Verif Require Import LibTransform Prelude PreludeFacts BytesNum Word BufOutModel BufOut EncModel SpecTransducer SpecBlock TransformModel BlockModel BlockObj CipherModel History EncApi SpecAes AesModel AesniModel Aes AesField AesApi
  SpecStream StreamModel StreamObj Chacha StreamApi SpecHash SpecPoly PolyModel Poly SpecGhash BlockTotal Transform Lawful AuthModel AeadModel Auth SpecAead Gcm GcmObj ChaPoly AuthHash AeadApi.

(* put_string c on the new object, then get_string: the bytes delivered *)
Definition released (o : aobj) (c : bytes) : out bytes :=
  match a_put_string (ao_class o) (ao_st o) c with
  | (s, Ret _) => snd (a_get_string (ao_class o) s)
  | (_, Raise e) => Raise e
  | (_, Undef) => Undef
  | (_, Hang) => Hang
  end.

Lemma lawful_released o M Fin sg K B c s' p : auth_lawful true o M Fin sg K B -> bytes_ok c -> zlen c <= max_string_length ->
  K * zlen c + B <= max_string_length -> m_run M sg c = (s', p, None) -> released o c = Ret p.
Proof.
  intros (F & R & OK & I & G & HR & HO) Hb Hl Hs Hm.
  assert (Hf : f_put F sg c []).
  { apply (g_put_fits _ _ _ _ _ G); assumption. }
  pose proof (im_put_string _ _ _ _ _ (ai_data _ _ _ _ _ _ I) (ao_st o) sg [] c HR Hb Hl Hf) as Hp.
  rewrite Hm in Hp. unfold matches in Hp. cbn [r_exn r_st r_out fst snd app] in Hp. destruct Hp as (Hp & HR').
  unfold released. cbn [data_view t_put_string] in Hp, HR'.
  destruct (a_put_string (ao_class o) (ao_st o) c) as [s u]. cbn [fst snd] in Hp, HR'. subst u.
  destruct (im_get_string _ _ _ _ _ (ai_data _ _ _ _ _ _ I) s s' p HR') as (s2 & Hg & _). cbn [data_view t_get_string] in Hg. rewrite Hg. reflexivity.
Qed.

Lemma chapoly_early (fresh : Z -> bytes) P header iv key : (forall n, 0 <= n -> zlen (fresh n) = n) -> poly_class P ->
  zlen key = 16 \/ zlen key = 32 -> zlen iv = 8 \/ zlen iv = 12 -> bytes_ok key -> bytes_ok iv -> bytes_ok header -> zlen header <= max_string_length ->
  exists o, chacha20_poly1305 fresh P header iv key Decrypt = Ret o /\
  forall c, bytes_ok c -> zlen c + 16 <= max_string_length ->
  released o c = Ret (aead_C key iv c) /\
  forall t, bytes_ok t -> zlen t = 16 -> t <> aead_T key iv header c -> auth_check o (c ++ t) = Ret None.
Proof.
  intros F HPc K I BK BI BH LH. pose proof HPc as (w & Hw & HP). pose proof max_small60 as M60. assert (M64 : 2 ^ 60 < 2 ^ 64) by reflexivity.
  assert (HO : inhabited (poly_ok P)) by (destruct HP as [->| ->]; constructor; [exact (poly64_ok w Hw)|exact (poly32_ok w Hw)]). destruct HO as [O].
  destruct (chapoly_lawful_full fresh P O header iv key Decrypt F K I BK BI BH ltac:(clear - LH M60 M64; lia)) as (o & M & Fin & sg & Eo & Ts & L & _ & R).
  destruct (chapoly_check fresh P header iv key F HPc K I BK BI BH LH) as (o' & Eo' & C). rewrite Eo in Eo'. injection Eo' as <-.
  exists o. split; [exact Eo|]. intros c Hc Hs. split.
  - destruct (R eq_refl c) as (s' & Hm). apply (lawful_released o M Fin sg 1 0 c s' _ L Hc); [clear - Hs; lia|clear - Hs; lia|exact Hm].
  - intros t Ht Lt Nt. rewrite C by assumption. destruct (list_eq_dec Z.eq_dec t (aead_T key iv header c)) as [e|_]; [contradiction|reflexivity].
Qed.

Lemma gcm_early (fresh : Z -> bytes) accel nb key A iv : (forall n, 0 <= n -> zlen (fresh n) = n) -> aes_class fresh nb ->
  aes_key_size key -> bytes_ok key -> bytes_ok A -> bytes_ok iv -> zlen A <= max_string_length -> zlen iv <= max_string_length ->
  exists o, aes_gcm fresh accel nb A iv key Decrypt = Ret o /\
  forall X b, Forall (fun x => zlen x = 16) X -> bytes_ok (concat X) -> bytes_ok b -> 0 < zlen b <= 16 ->
  zlen (concat X) + 160 <= max_string_length ->
  released o (concat X ++ b) = Ret (gcm_C (aes_E key) iv (concat X)) /\
  forall t, bytes_ok t -> zlen t = 16 -> t <> gcm_T (aes_E key) iv A (concat X ++ b) -> auth_check o (concat X ++ b ++ t) = Ret None.
Proof.
  intros F Hnb K BK BA BI LA LI. pose proof max_small60 as M60.
  destruct (aes_gcm_lawful_full fresh accel nb key (aes_E key) A iv Decrypt F) as (o & M & Fin & sg & Eo & Ts & L & _ & R); try assumption; try (eapply Z.le_lt_trans; eassumption).
  - destruct Hnb as [->| ->].
    + destruct (new_aes_computes fresh Encrypt key F K BK) as (b & Eb & Cb & _). exists b. auto.
    + destruct (new_aesni_computes fresh Encrypt key F K BK) as (b & Eb & Cb & _). exists b. auto.
  - intros b (Hb & Bb). apply aes_E_blk; assumption.
  - destruct (gcm_check fresh accel nb key A iv F Hnb K BK BA BI LA LI) as (o' & Eo' & C). rewrite Eo in Eo'. injection Eo' as <-.
    exists o. split; [exact Eo|]. intros X b HX BX Bb Hb Hs.
    assert (Bc : bytes_ok (concat X ++ b)) by (apply bytes_ok_app; split; assumption). pose proof (zlen_app (concat X) b) as Hz. split.
    + destruct (R eq_refl X b HX Hb) as (s' & Hm); [clear - Hs M60; lia|].
      apply (lawful_released o M Fin sg 1 64 _ s' _ L Bc); [clear - Hs Hz Hb; lia|clear - Hs Hz Hb; lia|exact Hm].
    + intros t Ht Lt Nt. rewrite app_assoc. rewrite C; [|assumption|assumption|assumption|clear - Hs Hz Hb; lia].
      destruct (list_eq_dec Z.eq_dec t (gcm_T (aes_E key) iv A (concat X ++ b))) as [e|_]; [contradiction|reflexivity].
Qed.
