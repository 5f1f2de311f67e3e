(* The properties of stream ciphers, put together. *)
From Verif Require Import Prelude PreludeFacts SpecTransducer TransformModel Transform EncModel EncApi LibTransform KeccakModel CipherModel SpecStream StreamModel StreamObj Rc4 Chacha.

Definition kget_12_13 (c : chacha) : Z * Z := (kget (cc_input c) 12, kget (cc_input c) 13).
Lemma arcfour_cipher fresh key d msg : (forall n, 0 <= n -> zlen (fresh n) = n) -> 1 <= zlen key <= 256 -> bytes_ok msg -> zlen msg <= max_string_length ->
  exists o, Cipher_arcfour fresh key d = Ret o /\ whole o msg (Ret (ks_xor (rc4 key) 0 msg)).
Proof. intros Hf H B L. destruct (Cipher_arcfour_whole fresh key d msg Hf H B L) as (o & H1 & H2 & _). eauto. Qed.
Lemma ks_xor_zlen ks n l : zlen (ks_xor ks n l) = zlen l.
Proof. unfold zlen. rewrite ks_xor_length. reflexivity. Qed.
Lemma arcfour_involution fresh key d d' msg : (forall n, 0 <= n -> zlen (fresh n) = n) -> 1 <= zlen key <= 256 -> bytes_ok msg -> zlen msg <= max_string_length ->
  exists o c o', Cipher_arcfour fresh key d = Ret o /\ whole o msg (Ret c) /\ zlen c = zlen msg /\ Cipher_arcfour fresh key d' = Ret o' /\ whole o' c (Ret msg).
Proof.
  intros Hf H B L. destruct (arcfour_cipher fresh key d msg Hf H B L) as (o & H1 & H2).
  destruct (arcfour_cipher fresh key d' (ks_xor (rc4 key) 0 msg) Hf H) as (o' & H3 & H4); [apply ks_xor_ok; [apply arc_Q; exact H|exact B]|rewrite ks_xor_zlen; exact L|].
  rewrite ks_xor_twice in H4. exists o, (ks_xor (rc4 key) 0 msg), o'. split; [exact H1|]. split; [exact H2|]. split; [apply ks_xor_zlen|]. split; assumption.
Qed.
Section CC.
Variables (fresh : Z -> bytes) (iv : option bytes) (ctr : Z) (key : bytes).
Hypothesis (HK : zlen key = 16 \/ zlen key = 32) (BK : bytes_ok key) (BI : bytes_ok (iv_of iv)) (HI : chacha_iv iv ctr).
Lemma cc_args : chacha_args iv ctr key.
Proof. split; [exact HK|]. split; [exact HI|]. split; assumption. Qed.
Lemma chacha20_stream : exists o, new_chacha20 fresh iv ctr key = Ret o /\ stream_computes o (chacha20 key ctr (iv_of iv)).
Proof. exact (chacha20_computes fresh iv ctr key cc_args). Qed.
Hypothesis Hf : forall n, 0 <= n -> zlen (fresh n) = n.
Lemma chacha20_cipher0 d msg : bytes_ok msg -> zlen msg <= max_string_length ->
  exists o, Cipher_chacha20 fresh iv ctr key d = Ret o /\ whole o msg (Ret (ks_xor (chacha20 key ctr (iv_of iv)) 0 msg)).
Proof. intros B L. destruct (Cipher_chacha20_whole fresh iv ctr key cc_args d msg Hf B L) as (o & H1 & H2 & _). eauto. Qed.
Lemma chacha20_involution0 d d' msg : bytes_ok msg -> zlen msg <= max_string_length ->
  exists o c o', Cipher_chacha20 fresh iv ctr key d = Ret o /\ whole o msg (Ret c) /\ zlen c = zlen msg /\ Cipher_chacha20 fresh iv ctr key d' = Ret o' /\ whole o' c (Ret msg).
Proof.
  intros B L. destruct (chacha20_cipher0 d msg B L) as (o & H1 & H2). set (ks := chacha20 key ctr (iv_of iv)) in *.
  destruct (chacha20_cipher0 d' (ks_xor ks 0 msg)) as (o' & H3 & H4); [apply ks_xor_ok; [exact (cc_Q iv ctr key cc_args)|exact B]|rewrite ks_xor_zlen; exact L|].
  fold ks in H4. rewrite ks_xor_twice in H4. exists o, (ks_xor ks 0 msg), o'. split; [exact H1|]. split; [exact H2|]. split; [apply ks_xor_zlen|]. split; assumption.
Qed.
End CC.
Lemma chacha20_cipher fresh iv ctr key d msg : (forall n, 0 <= n -> zlen (fresh n) = n) ->
  zlen key = 16 \/ zlen key = 32 -> bytes_ok key -> bytes_ok (iv_of iv) -> chacha_iv iv ctr -> bytes_ok msg -> zlen msg <= max_string_length ->
  exists o, Cipher_chacha20 fresh iv ctr key d = Ret o /\ whole o msg (Ret (ks_xor (chacha20 key ctr (iv_of iv)) 0 msg)).
Proof. intros. apply chacha20_cipher0; assumption. Qed.
Lemma chacha20_involution fresh iv ctr key d d' msg : (forall n, 0 <= n -> zlen (fresh n) = n) ->
  zlen key = 16 \/ zlen key = 32 -> bytes_ok key -> bytes_ok (iv_of iv) -> chacha_iv iv ctr -> bytes_ok msg -> zlen msg <= max_string_length ->
  exists o c o', Cipher_chacha20 fresh iv ctr key d = Ret o /\ whole o msg (Ret c) /\ zlen c = zlen msg /\ Cipher_chacha20 fresh iv ctr key d' = Ret o' /\ whole o' c (Ret msg).
Proof. intros. apply chacha20_involution0; assumption. Qed.
Lemma chacha20_large_counter : exists iv key ctr, zlen iv = 12 /\ zlen key = 32 /\ 0 <= ctr < 2 ^ 32 /\
  forall fresh, new_chacha20 fresh (Some iv) ctr key = Raise (Error Wrong_IV_size).
Proof. exists (zeros 12), (zeros 32), (2 ^ 24). repeat split; reflexivity || discriminate. Qed.
Lemma chacha20_iv_size : exists iv key ctr, zlen iv = 12 /\ zlen key = 32 /\ forall fresh, new_chacha20 fresh (Some iv) ctr key = Raise (Error Wrong_IV_size).
Proof. destruct chacha20_large_counter as (iv & key & ctr & H1 & H2 & _ & H3). exists iv, key, ctr. auto. Qed.
