(* A small block cipher, for the concrete cases
   shown beside the theorems.  Not a model of cryptokit code. *)
From Verif Require Import Prelude PreludeFacts SpecBlock SpecModes SpecTransducer BlockModel BlockCipher Modes CipherModel CipherSpec
  CipherFacts CipherApi EncModel SpecEnc EncLawful.

(* contents of fresh buffers: 0xAA everywhere *)
Definition toy_fresh (n : Z) : bytes := repeat 170 (Z.to_nat n).
Lemma toy_fresh_len n : 0 <= n -> zlen (toy_fresh n) = n.
Proof. intros. unfold toy_fresh, zlen. rewrite repeat_length. lia. Qed.

(* block size n, mostly 4: reverse the block and xor it with the key *)
Definition toy_E (k b : bytes) : bytes := xorb k (rev b).
Definition toy_D (k b : bytes) : bytes := rev (xorb k b).
Definition toy_block_n (n : Z) (d : dir) (key : bytes) : out bobj :=
  if zlen key =? n then
    Ret (BObj (raw_cipher bytes n (fun k b => Ret (match d with Encrypt => toy_E k b | Decrypt => toy_D k b end))
                 (fun _ => zeros n)) key)
  else Raise (Error Wrong_key_size).

Lemma toy_family_n n key : 0 < n < 2 ^ 50 -> zlen key = n -> bytes_ok key -> block_family (toy_block_n n) key n (toy_E key) (toy_D key).
Proof.
  intros Hn Hl Hk.
  assert (HE : forall b, zlen b = n -> bytes_ok b -> zlen (toy_E key b) = n /\ bytes_ok (toy_E key b)).
  { intros b Hb Hok. unfold toy_E. assert (zlen (rev b) = n) by (unfold zlen in *; rewrite rev_length; lia).
    split; [rewrite zlen_xorb by lia; assumption|apply bytes_ok_xorb; [assumption|apply Forall_rev; assumption]]. }
  assert (HD : forall b, zlen b = n -> bytes_ok b -> zlen (toy_D key b) = n /\ bytes_ok (toy_D key b)).
  { intros b Hb Hok. unfold toy_D. split; [unfold zlen; rewrite rev_length; change (zlen (xorb key b) = n); rewrite zlen_xorb by lia; assumption|].
    apply Forall_rev. apply bytes_ok_xorb; assumption. }
  constructor; [lia| |exact HE|].
  - intros d. unfold toy_block_n. rewrite Hl, Z.eqb_refl. exists (BObj (raw_cipher bytes n (fun k b => Ret (match d with Encrypt => toy_E k b | Decrypt => toy_D k b end)) (fun _ => zeros n)) key), (fun s => s = key).
    split; [reflexivity|]. split; [reflexivity|]. split; [|reflexivity].
    apply (raw_implements bytes n _ (fun _ => zeros n) key); [lia|].
    intros b Hb Hok. split; [destruct d; reflexivity|]. destruct d; auto.
  - intros b Hb Hok. unfold toy_D, toy_E. rewrite xorb_cancel_lr; [apply rev_involutive|].
    unfold zlen in *. rewrite rev_length. lia.
Qed.
Definition toy_block := toy_block_n 4.
Lemma toy_family key : zlen key = 4 -> bytes_ok key -> block_family toy_block key 4 (toy_E key) (toy_D key).
Proof. intros. apply toy_family_n; [lia|assumption|assumption]. Qed.

