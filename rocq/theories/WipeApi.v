(* wipe, as seen by users of Cipher, Hash and MAC *)
From Verif Require Import Prelude PreludeFacts SpecTransducer TransformModel BlockModel CipherModel EncModel HashModel MacModel
  SpecWipe WipeSafe CipherSpec WipeCipher WipeHash WipeMac WipeErase WipeMore AesModel AesniModel DesModel BlowfishModel StreamModel ShaModel RipemdModel KeccakModel Blake2Model SipModel Blake3Model AuthModel AeadModel.

(* the classes of block ciphers whose wipe is safe, those of AES, and all of them *)
Definition feistel_class (nb : dir -> bytes -> out bobj) : Prop := nb = new_des \/ nb = new_triple_des \/ nb = new_blowfish.
Definition rijndael_class (fresh : Z -> bytes) (nb : dir -> bytes -> out bobj) : Prop := nb = new_aes fresh \/ nb = new_aesni fresh.
Section Fresh.
Variable fresh : Z -> bytes.
Hypothesis fresh_len : forall n, 0 <= n -> zlen (fresh n) = n.

Lemma feistel_good nb key : feistel_class nb -> forall d c, nb d key = Ret c -> b_good true c.
Proof. intros [->|[->| ->]] d c; [apply new_des_good|apply (new_triple_des_good fresh fresh_len)|apply new_blowfish_good]. Qed.
Lemma rijndael_good nb key : rijndael_class fresh nb -> bytes_ok key -> forall d c, nb d key = Ret c -> b_good false c.
Proof. intros [->| ->] B d c; [now apply (new_aes_good fresh fresh_len)|now apply (new_aesni_good fresh fresh_len)]. Qed.
Lemma rijndael_stuck nb key : rijndael_class fresh nb -> forall d c, nb d key = Ret c -> b_stuck c.
Proof. intros [->| ->] d c; [apply (new_aes_stuck fresh fresh_len)|apply (new_aesni_stuck fresh fresh_len)]. Qed.

Lemma feistel_safe nb m p iv key d o : feistel_class nb -> make_cipher fresh nb m (option_map scheme_of p) iv key d = Ret o -> memory_safe (o_tr o) (o_st o).
Proof. intros H E. exact (proj2 (make_cipher_good fresh fresh_len true nb m p iv key d o (feistel_good nb key H) E) eq_refl). Qed.
Lemma rijndael_unwiped nb m p iv key d o : rijndael_class fresh nb -> bytes_ok key -> make_cipher fresh nb m (option_map scheme_of p) iv key d = Ret o -> unwiped_memory_safe o.
Proof. intros H B E. exact (proj1 (make_cipher_good fresh fresh_len false nb m p iv key d o (rijndael_good nb key H B) E)). Qed.
Lemma rijndael_wiped nb m p iv key d o b : rijndael_class fresh nb -> make_cipher fresh nb m p iv key d = Ret o -> zlen b = 17 ->
  snd (w_run (o_tr o) (o_st o) [Wipe; Call (PutString b)]) = [OUnit; OUndef].
Proof. intros H. apply (make_cipher_stuck fresh fresh_len). now apply rijndael_stuck. Qed.

Lemma arcfour_safe key d o : Cipher_arcfour fresh key d = Ret o -> memory_safe (o_tr o) (o_st o).
Proof.
  unfold Cipher_arcfour, new_arcfour. destruct (_ && _); [|discriminate]. cbn [obind]. intros E. apply ret_inj in E. subst o. exact (proj1 (arcfour_obj_good fresh fresh_len key)).
Qed.
Lemma chacha_safe iv ctr key d o : Cipher_chacha20 fresh iv ctr key d = Ret o -> memory_safe (o_tr o) (o_st o).
Proof.
  unfold Cipher_chacha20, new_chacha20. destruct (negb _); [discriminate|]. destruct (match iv with None => _ | Some _ => _ end) as [v|e| |]; cbn [obind]; try discriminate.
  intros E. apply ret_inj in E. subst o. exact (proj1 (chacha_obj_good fresh fresh_len key v ctr)).
Qed.

(* hashes with one block of at most 128 bytes *)
Definition md_object (o : hobj) (B : Z) : Prop :=
  (o = sha1_obj fresh /\ B = 64) \/ (o = ripemd160_obj fresh /\ B = 64) \/ (o = sha224_obj fresh /\ B = 64) \/ (o = sha256_obj fresh /\ B = 64) \/ (o = sha384_obj fresh /\ B = 128) \/ (o = sha512_obj fresh /\ B = 128).
Lemma md_object_good o B : md_object o B -> exists R, obj_good R o /\ R <= B /\ 0 < B <= 2 ^ 20.
Proof.
  intros [(-> & ->)|[(-> & ->)|[(-> & ->)|[(-> & ->)|[(-> & ->)|(-> & ->)]]]]]; [exists 20|exists 20|exists 28|exists 32|exists 48|exists 64]; (split; [|lia]).
  - apply (sha1_good fresh fresh_len).
  - apply (ripemd_good fresh fresh_len).
  - apply (sha224_good fresh fresh_len).
  - apply (sha256_good fresh fresh_len).
  - apply (sha384_good fresh fresh_len).
  - apply (sha512_good fresh fresh_len).
Qed.
Lemma md_safe o B : md_object o B -> hash_memory_safe (ho_class o) (ho_st o).
Proof. intros H. destruct (md_object_good o B H) as (R & G & _). exact (obj_good_safe R o G). Qed.
Lemma hmac_safe o B key m : md_object o B -> zlen key <= max_string_length -> hmac_of o B key = Ret m -> hash_memory_safe (ho_class m) (ho_st m).
Proof. intros H L E. destruct (md_object_good o B H) as (R & G & L1 & L2). exact (hmac_of_good fresh fresh_len R o B key m G L2 L1 L E). Qed.
Lemma blake2b_safe sz key o : blake2b_obj fresh sz key = Ret o -> hash_memory_safe (ho_class o) (ho_st o).
Proof. apply b2_new_good; first [exact fresh_len|reflexivity|lia]. Qed.
Lemma blake2s_safe sz key o : blake2s_obj fresh sz key = Ret o -> hash_memory_safe (ho_class o) (ho_st o).
Proof. apply b2_new_good; first [exact fresh_len|reflexivity|lia]. Qed.

Lemma feistel_mac_safe nb iv p key o : feistel_class nb -> block_mac fresh (nb Encrypt) iv (option_map scheme_of p) key = Ret o -> hash_memory_safe (ho_class o) (ho_st o).
Proof. intros H E. exact (proj2 (block_mac_good fresh fresh_len true (nb Encrypt) iv p key o (fun c => feistel_good nb key H Encrypt c) E) eq_refl). Qed.
Lemma rijndael_mac_unwiped nb iv p key o : rijndael_class fresh nb -> bytes_ok key -> block_mac fresh (nb Encrypt) iv (option_map scheme_of p) key = Ret o -> unwiped_hash_safe (ho_class o) (ho_st o).
Proof. intros H B E. exact (proj1 (block_mac_good fresh fresh_len false (nb Encrypt) iv p key o (fun c => rijndael_good nb key H B Encrypt c) E)). Qed.
Lemma rijndael_mac_wiped nb iv p key o b : rijndael_class fresh nb -> block_mac fresh (nb Encrypt) iv p key = Ret o -> zlen b = 17 ->
  snd (h_run (ho_class o) (ho_st o) [HWipe; AddString b]) = [OUnit; OUndef].
Proof. intros H. apply (mac_new_stuck fresh fresh_len). intros c. now apply rijndael_stuck. Qed.
Lemma rijndael_cmac_unwiped nb iv key o : rijndael_class fresh nb -> bytes_ok key -> aes_cmac fresh (nb Encrypt) iv key = Ret o -> unwiped_hash_safe (ho_class o) (ho_st o).
Proof.
  intros H B. apply (cmac_good fresh fresh_len). intros c E. split; [exact (rijndael_good nb key H B Encrypt c E)|].
  destruct H as [->| ->]; [unfold new_aes in E|unfold new_aesni in E]; destruct (aes_key_ok key); try discriminate E; [apply ret_inj in E; subst c; reflexivity|].
  destruct (aesniKeySetupEnc _ _ _); try discriminate E. apply ret_inj in E. subst c. reflexivity.
Qed.

Definition any_block_class (nb : dir -> bytes -> out bobj) : Prop := feistel_class nb \/ rijndael_class fresh nb.
Lemma any_erases nb : any_block_class nb -> erases nb.
Proof. intros [[->|[->| ->]]|[->| ->]]; [apply des_erases|apply (triple_des_erases fresh fresh_len)|apply blowfish_erases|apply (aes_erases fresh fresh_len)|apply (aesni_erases fresh fresh_len)]. Qed.
Lemma block_erased nb m p d iv1 iv2 k1 k2 o1 o2 : any_block_class nb -> bytes_ok k1 -> bytes_ok k2 ->
  make_cipher fresh nb m (option_map scheme_of p) iv1 k1 d = Ret o1 -> make_cipher fresh nb m (option_map scheme_of p) iv2 k2 d = Ret o2 -> after o1 [Wipe] = after o2 [Wipe].
Proof. intros H. apply (erase_cipher fresh fresh_len). now apply any_erases. Qed.
Lemma block_erased_used nb m p d iv1 iv2 k1 k2 o1 o2 l1 l2 : any_block_class nb -> bytes_ok k1 -> bytes_ok k2 -> is_ctr (match m with Some m => m | None => CBC end) = false ->
  make_cipher fresh nb m (option_map scheme_of p) iv1 k1 d = Ret o1 -> make_cipher fresh nb m (option_map scheme_of p) iv2 k2 d = Ret o2 ->
  Forall op_possible l1 -> Forall op_possible l2 ->
  exists C fin (s1 s2 : cs C), after o1 (map Call l1) = TObj (cipher_with_finish fresh C fin) s1 /\ after o2 (map Call l2) = TObj (cipher_with_finish fresh C fin) s2 /\
  (public s1 = public s2 -> after (after o1 (map Call l1)) [Wipe] = after (after o2 (map Call l2)) [Wipe]).
Proof. intros H. apply (erase_cipher_used fresh fresh_len). now apply any_erases. Qed.
Lemma block_erased_ctr nb m p d iv1 iv2 k1 k2 o1 o2 l1 l2 : any_block_class nb -> bytes_ok k1 -> bytes_ok k2 -> is_ctr m = true ->
  make_cipher fresh nb (Some m) (option_map scheme_of p) iv1 k1 d = Ret o1 -> make_cipher fresh nb (Some m) (option_map scheme_of p) iv2 k2 d = Ret o2 ->
  Forall op_possible l1 -> Forall op_possible l2 ->
  exists C n fin (s1 s2 : cs (ctr C n)), after o1 (map Call l1) = TObj (cipher_with_finish fresh (ctr C n) fin) s1 /\ after o2 (map Call l2) = TObj (cipher_with_finish fresh (ctr C n) fin) s2 /\
  (public s1 = public s2 -> blocks_left s1 = blocks_left s2 -> after (after o1 (map Call l1)) [Wipe] = after (after o2 (map Call l2)) [Wipe]).
Proof. intros H. apply (erase_cipher_ctr fresh fresh_len). now apply any_erases. Qed.
End Fresh.

(* the result of HMAC-SHA1 after wipe still depends on the key *)
Definition wiped_result (key : bytes) : list obs :=
  match hmac_of (sha1_obj (fun n => zeros n)) 64 key with Ret m => snd (h_run (ho_class m) (ho_st m) [HWipe; Result]) | _ => [] end.
Lemma hmac_keeps_key : wiped_result [1] <> wiped_result [2].
Proof. assert (H : wiped_result [1] = wiped_result [2] -> False); [|exact H]. vm_compute. discriminate. Qed.

Lemma aes_unsafe : exists key o l, make_cipher (fun n => zeros n) (new_aes (fun n => zeros n)) (Some CBC) None None key Encrypt = Ret o /\
  Forall wop_possible l /\ In OUndef (snd (w_run (o_tr o) (o_st o) l)).
Proof.
  assert (match make_cipher (fun n => zeros n) (new_aes (fun n => zeros n)) (Some CBC) None None (repeat 1 16) Encrypt with Ret _ => True | _ => False end) as H by (vm_compute; exact Logic.I).
  exists (repeat 1 16). destruct (make_cipher _ _ _ _ _ _ _) as [o|e| |] eqn:E; try now destruct H. exists o, [Wipe; Call (PutString (repeat 0 17))]. split; [reflexivity|]. split.
  - constructor; [exact Logic.I|constructor; [|constructor]]. apply Z.leb_le. reflexivity.
  - rewrite (rijndael_wiped (fun n => zeros n) (fun n H => zlen_zeros n H) (new_aes (fun n => zeros n)) (Some CBC) None None (repeat 1 16) Encrypt o); [right; now left|now left|exact E|reflexivity].
Qed.
(* finish_and_get_tag of a wiped AES-GCM object *)
Definition gcm_wiped (key : bytes) : out bytes :=
  match aes_gcm (fun n => zeros n) false (new_aes (fun n => zeros n) Encrypt) [] (repeat 0 12) key Encrypt with Ret o => wiped_finish o | _ => Undef end.
Lemma gcm_not_erased : exists k1 k2, gcm_wiped k1 <> gcm_wiped k2.
Proof.
  exists (repeat 0 16), (repeat 1 16). intros E. apply (f_equal (fun x => match x with Ret (a :: b :: _) => a + 256 * b | _ => 0 end)) in E. revert E.
  vm_compute. discriminate.
Qed.
