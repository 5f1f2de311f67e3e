(* The AES classes as objects computing FIPS 197. *)
From Verif Require Import Prelude PreludeFacts SpecBlock BlockModel BlockCipher Modes CipherModel CipherApi BlockObj SpecAes AesField AesModel Aes AesniModel Aesni.

Definition aes_dir (d : dir) (key : bytes) : bytes -> bytes := match d with Encrypt => aes_E key | Decrypt => aes_D key end.
Lemma new_aes_computes fresh d key : (forall n, 0 <= n -> zlen (fresh n) = n) -> aes_key_size key -> bytes_ok key ->
  exists o, new_aes fresh d key = Ret o /\ block_computes o 16 (aes_dir d key) /\ block_checks o 16.
Proof.
  intros F K B. unfold new_aes. replace (aes_key_ok key) with true by (symmetry; apply aes_key_ok_size; exact K).
  eexists. split; [reflexivity|]. destruct d; (apply raw_computes; [|lia]); intros b Hb Bb.
  - apply aes_encrypt_ok; assumption.
  - apply aes_decrypt_ok; assumption.
Qed.
Lemma new_aesni_computes fresh d key : (forall n, 0 <= n -> zlen (fresh n) = n) -> aes_key_size key -> bytes_ok key ->
  exists o, new_aesni fresh d key = Ret o /\ block_computes o 16 (aes_dir d key) /\ block_checks o 16.
Proof.
  intros F K B. unfold new_aesni. replace (aes_key_ok key) with true by (symmetry; apply aes_key_ok_size; exact K).
  assert (Z16 : zlen (zeros 16) = 16 /\ bytes_ok (zeros 16)) by (split; [reflexivity|apply bytes_ok_zeros]).
  destruct (aesniEncrypt_ok fresh F key (zeros 16)) as (ce & Ee & _); [assumption|assumption|apply Z16|apply Z16|].
  destruct (aesniDecrypt_ok fresh F key (zeros 16)) as (cd & Ed & _); [assumption|assumption|apply Z16|apply Z16|].
  rewrite Ee, Ed. destruct d; (eexists; split; [reflexivity|]); (apply raw_computes; [|lia]); intros b Hb Bb.
  - destruct (aesniEncrypt_ok fresh F key b) as (c & Ec & R); try assumption. rewrite Ee in Ec. injection Ec as <-. exact R.
  - destruct (aesniDecrypt_ok fresh F key b) as (c & Ec & R); try assumption. rewrite Ed in Ec. injection Ec as <-. exact R.
Qed.
Lemma aes_undoes fresh key : (forall n, 0 <= n -> zlen (fresh n) = n) -> aes_key_size key -> bytes_ok key ->
  exists e d, new_aes fresh Encrypt key = Ret e /\ new_aes fresh Decrypt key = Ret d /\ undoes e d 16 /\ undoes d e 16.
Proof.
  intros F K B. destruct (new_aes_computes fresh Encrypt key F K B) as (e & Ee & Ce & _). destruct (new_aes_computes fresh Decrypt key F K B) as (d & Ed & Cd & _).
  exists e, d. split; [exact Ee|]. split; [exact Ed|]. cbn [aes_dir] in *. split.
  - apply (computes_undoes e d 16 (aes_E key) (aes_D key)); [lia|assumption|assumption|]. intros b Hb Bb.
    destruct (aes_E_blk key b K B Hb Bb). split; [assumption|]. split; [assumption|]. apply aes_D_E; assumption.
  - apply (computes_undoes d e 16 (aes_D key) (aes_E key)); [lia|assumption|assumption|]. intros b Hb Bb.
    destruct (aes_D_blk key b K B Hb Bb). split; [assumption|]. split; [assumption|]. apply aes_E_D; assumption.
Qed.
Lemma aesni_same fresh d key : (forall n, 0 <= n -> zlen (fresh n) = n) -> bytes_ok key ->
  (exists a b, new_aes fresh d key = Ret a /\ new_aesni fresh d key = Ret b /\ same_transform a b) \/
  (new_aes fresh d key = Raise (Error Wrong_key_size) /\ new_aesni fresh d key = Raise (Error Wrong_key_size)).
Proof.
  intros F B. destruct (aes_key_ok key) eqn:K.
  - left. apply aes_key_ok_size in K. destruct (new_aes_computes fresh d key F K B) as (a & Ea & C1 & C2).
    destruct (new_aesni_computes fresh d key F K B) as (b & Eb & C3 & C4). exists a, b. split; [exact Ea|]. split; [exact Eb|].
    eapply computes_same; eassumption.
  - right. unfold new_aes, new_aesni. rewrite K. split; reflexivity.
Qed.
Lemma aes_key_sizes fresh d key : (forall n, 0 <= n -> zlen (fresh n) = n) -> bytes_ok key ->
  (aes_key_size key -> (exists o, new_aes fresh d key = Ret o) /\ (exists o, new_aesni fresh d key = Ret o)) /\
  (~ aes_key_size key -> new_aes fresh d key = Raise (Error Wrong_key_size) /\ new_aesni fresh d key = Raise (Error Wrong_key_size)).
Proof.
  intros F B. split; intros K.
  - destruct (new_aes_computes fresh d key F K B) as (a & Ea & _). destruct (new_aesni_computes fresh d key F K B) as (b & Eb & _). eauto.
  - unfold new_aes, new_aesni. destruct (aes_key_ok key) eqn:E; [|split; reflexivity]. apply aes_key_ok_size in E. contradiction.
Qed.
