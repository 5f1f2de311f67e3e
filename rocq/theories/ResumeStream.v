(* ChaCha20 with a later counter continues the message. *)
From Verif Require Import Prelude PreludeFacts SpecTransducer TransformModel Transform EncModel EncApi CipherModel SpecStream StreamModel StreamObj Chacha StreamApi.

Lemma ks_shift (f g : nat -> Z) l : forall n k, (forall i, (n <= i)%nat -> f (k + i)%nat = g i) -> ks_xor f (k + n) l = ks_xor g n l.
Proof.
  induction l as [|c l IH]; intros n k H; [reflexivity|]. rewrite !ks_xor_cons, H by lia. f_equal. replace (S (k + n)) with (k + S n)%nat by lia. apply IH. intros i Hi. apply H. lia.
Qed.
Lemma chacha_shift key ctr iv k i : chacha20 key ctr iv (64 * k + i)%nat = chacha20 key (ctr + Z.of_nat k) iv i.
Proof.
  unfold chacha20. replace ((64 * k + i) mod 64)%nat with (i mod 64)%nat by (rewrite (Nat.mul_comm 64 k), Nat.add_comm, Nat.mod_add by lia; reflexivity).
  replace ((64 * k + i) / 64)%nat with (k + i / 64)%nat by (rewrite (Nat.mul_comm 64 k), Nat.div_add_l by lia; reflexivity). f_equal. f_equal. lia.
Qed.
Theorem chacha_resume fresh iv ctr key d a b : (forall n, 0 <= n -> zlen (fresh n) = n) ->
  zlen key = 16 \/ zlen key = 32 -> bytes_ok key -> bytes_ok (iv_of iv) -> chacha_iv iv ctr -> chacha_iv iv (ctr + zlen a / 64) ->
  bytes_ok a -> bytes_ok b -> zlen (a ++ b) <= max_string_length -> zlen a mod 64 = 0 ->
  exists o o' ra rb, Cipher_chacha20 fresh iv ctr key d = Ret o /\ Cipher_chacha20 fresh iv (ctr + zlen a / 64) key d = Ret o' /\
    whole o a (Ret ra) /\ whole o' b (Ret rb) /\ whole o (a ++ b) (Ret (ra ++ rb)).
Proof.
  intros Hf Hk Bk Bi H1 H2 Ba Bb L M. pose proof (zlen_nonneg a). pose proof (zlen_nonneg b). rewrite zlen_app in L.
  destruct (chacha20_cipher fresh iv ctr key d a Hf Hk Bk Bi H1 Ba ltac:(lia)) as (o & O1 & W1).
  destruct (chacha20_cipher fresh iv ctr key d (a ++ b) Hf Hk Bk Bi H1 ltac:(apply bytes_ok_app; auto) ltac:(rewrite zlen_app; lia)) as (o2 & O2 & W2). rewrite O1 in O2. injection O2 as <-.
  destruct (chacha20_cipher fresh iv (ctr + zlen a / 64) key d b Hf Hk Bk Bi H2 Bb ltac:(lia)) as (o' & O3 & W3).
  exists o, o', (ks_xor (chacha20 key ctr (iv_of iv)) 0 a), (ks_xor (chacha20 key (ctr + zlen a / 64) (iv_of iv)) 0 b).
  split; [exact O1|]. split; [exact O3|]. split; [exact W1|]. split; [exact W3|]. rewrite ks_xor_app in W2.
  set (k := Z.to_nat (zlen a / 64)). assert (Ek : zlen a / 64 = Z.of_nat k) by (unfold k; rewrite Z2Nat.id; [reflexivity|apply Z.div_pos; lia]).
  assert (El : length a = (64 * k)%nat) by (pose proof (Z.div_mod (zlen a) 64 ltac:(lia)); unfold zlen in *; lia).
  rewrite <- (ks_shift (chacha20 key ctr (iv_of iv)) (chacha20 key (ctr + zlen a / 64) (iv_of iv)) b 0 (length a)); [replace (length a + 0)%nat with (0 + length a)%nat by lia; exact W2|].
  intros i _. rewrite El, Ek. apply chacha_shift.
Qed.
