(* The hash and MAC objects of the library, together. *)
From Verif Require Import Prelude PreludeFacts BytesNum Word SpecBlock BlockTotal SpecModes SpecPadding SpecHash SpecRipemd SpecKeccak SpecBlake2 SpecBlake3 SpecMac SpecTransducer TransformModel Transform HashModel HashSpec HashFacts
  MdModel MdHash ShaModel RipemdModel KeccakModel Blake2Model Blake3Model Md5Model Sha Ripemd KeccakHash Blake2 Blake3Hash Md5 HashSize
  BlockModel BlockCipher CipherModel CipherSpec CipherApi MacModel Mac MacApi Hmac SipModel Sip.

(* ---- digests are bytes ---- *)
Lemma bytes_ok_words (f : Z -> bytes) l : (forall x, bytes_ok (f x)) -> bytes_ok (concat (map f l)).
Proof. intros H. induction l as [|x l IH]; [constructor|]. cbn [map concat]. apply bytes_ok_app. auto. Qed.
Lemma sha1_bytes m : bytes_ok (sha1 m).
Proof. unfold sha1. apply bytes_ok_words. intros x. apply bytes_ok_to_be. Qed.
Lemma sha2_bytes P iv len m : bytes_ok (sha2_digest P iv len m).
Proof. unfold sha2_digest. apply Forall_firstn, bytes_ok_words. intros x. apply bytes_ok_to_be. Qed.
Lemma ripemd160_bytes m : bytes_ok (ripemd160 m).
Proof. unfold ripemd160. apply bytes_ok_words. intros x. apply bytes_ok_to_le. Qed.

(* ---- HMAC, MAC.hmac_* of cryptokit.ml 1443-1463 ---- *)
(* the hash function d, its object, and its block size *)
Inductive hmac_hash (fresh : Z -> bytes) : hobj -> (bytes -> bytes) -> Z -> Prop :=
  | HH_sha1 : hmac_hash fresh (sha1_obj fresh) sha1 64
  | HH_sha256 : hmac_hash fresh (sha256_obj fresh) sha256 64
  | HH_sha384 : hmac_hash fresh (sha384_obj fresh) sha384 128
  | HH_sha512 : hmac_hash fresh (sha512_obj fresh) sha512 128
  | HH_ripemd160 : hmac_hash fresh (ripemd160_obj fresh) ripemd160 64.
Lemma hmac_hash_ok fresh o d B : (forall n, 0 <= n -> zlen (fresh n) = n) -> hmac_hash fresh o d B ->
  0 < B <= max_string_length /\ computes o d /\ (forall m, zlen (d m) <= B) /\ (forall m, bytes_ok (d m)).
Proof.
  intros Hf H. destruct H; (split; [unfold max_string_length; lia|]); (split; [|split]).
  - apply sha1_computes; assumption. - intros m. rewrite sha1_size. lia. - apply sha1_bytes.
  - apply sha256_computes; assumption. - intros m. rewrite sha256_size. lia. - intros m. apply sha2_bytes.
  - apply sha384_computes; assumption. - intros m. rewrite sha384_size. lia. - intros m. apply sha2_bytes.
  - apply sha512_computes; assumption. - intros m. rewrite sha512_size. lia. - intros m. apply sha2_bytes.
  - apply ripemd160_computes; assumption. - intros m. rewrite ripemd160_size. lia. - apply ripemd160_bytes.
Qed.
Lemma hmac_ok fresh o d B key : (forall n, 0 <= n -> zlen (fresh n) = n) -> hmac_hash fresh o d B -> bytes_ok key -> zlen key <= max_string_length ->
  exists h, hmac_of o B key = Ret h /\ h_size (ho_class h) = h_size (ho_class o) /\ computes h (hmac_spec d B key).
Proof. intros Hf HH Hk Hl. destruct (hmac_hash_ok fresh o d B Hf HH) as (HB & HC & H1 & H2). apply hmac_computes; assumption. Qed.

Lemma md5_computes rt D : runtime_computes rt D -> computes_on (fun m => zlen m < 2 ^ 32) (md5_obj rt) (fun m => Ret (D m)).
Proof.
  intros HD ops Hv HP. cbn [md5_obj ho_class ho_st]. destruct (md5_feeds rt D ops HD Hv) as (E1 & E2).
  { apply Forall_forall. intros o Ho. unfold op_small. apply in_split in Ho as (l1 & l2 & ->). unfold added in HP. rewrite map_app, concat_app in HP. cbn [map concat] in HP.
    rewrite !zlen_app in HP. pose proof (zlen_nonneg (concat (map hop_bytes l1))). pose proof (zlen_nonneg (concat (map hop_bytes l2))). lia. }
  rewrite E1, E2. auto.
Qed.
Lemma hmac_md5_ok rt D key : runtime_computes rt D -> (forall m, zlen (D m) = 16 /\ bytes_ok (D m)) -> bytes_ok key -> zlen key < 2 ^ 32 ->
  exists h, hmac_of (md5_obj rt) 64 key = Ret h /\ computes_on (fun m => 64 + zlen m < 2 ^ 32) h (fun m => Ret (hmac_spec D 64 key m)).
Proof.
  intros HD Hd Hk Hl. apply (hmac_computes_bounded (md5_obj rt) D 64 (2 ^ 32) key); [unfold max_string_length; lia|apply md5_computes; assumption|intros m; destruct (Hd m); lia|intros m; apply Hd|assumption|unfold max_string_length; lia|assumption|lia].
Qed.

(* ---- the objects whose hash_size is right ---- *)
Inductive sized_hash (fresh : Z -> bytes) : hobj -> Prop :=
  | S_sha1 : sized_hash fresh (sha1_obj fresh)
  | S_sha256 : sized_hash fresh (sha256_obj fresh)
  | S_sha384 : sized_hash fresh (sha384_obj fresh)
  | S_sha512 : sized_hash fresh (sha512_obj fresh)
  | S_sha3 sz o : sha3_obj fresh sz = Ret o -> sized_hash fresh o
  | S_keccak sz o : keccak_obj fresh sz = Ret o -> sized_hash fresh o
  | S_blake2b sz key o : bytes_ok key -> blake2b_obj fresh sz key = Ret o -> sized_hash fresh o
  | S_blake2s sz key o : bytes_ok key -> blake2s_obj fresh sz key = Ret o -> sized_hash fresh o
  | S_blake3 sz key o : bytes_ok key -> blake3_obj key sz = Ret o -> sized_hash fresh o
  | S_hmac o d B key h : hmac_hash fresh o d B -> d <> ripemd160 -> bytes_ok key -> zlen key <= max_string_length ->
      hmac_of o B key = Ret h -> sized_hash fresh h
  | S_siphash sz key o : bytes_ok key -> siphash_new fresh sz key = Ret o -> sized_hash fresh o
  (* CBC-MAC and CMAC with any block cipher *)
  | S_mac nb key bs E D iv p o : block_family nb key bs E D -> mac_iv_ok bs iv ->
      (forall q, p = Some q -> pad_supports q bs) ->
      block_mac fresh (nb Encrypt) iv (option_map scheme_of p) key = Ret o -> sized_hash fresh o
  | S_triple nb E D key iv p o : (forall k, zlen k = 8 -> bytes_ok k -> block_family nb k 8 (E k) (D k)) -> mac_iv_ok 8 iv ->
      bytes_ok key -> des_final_triple_des fresh nb iv (option_map scheme_of p) key = Ret o -> sized_hash fresh o
  | S_cmac nb key E D iv o : block_family nb key 16 E D -> mac_iv_ok 16 iv ->
      aes_cmac fresh (nb Encrypt) iv key = Ret o -> sized_hash fresh o.
Inductive lib_hash (fresh : Z -> bytes) : hobj -> Prop :=
  | L_sized o : sized_hash fresh o -> lib_hash fresh o
  | L_sha224 : lib_hash fresh (sha224_obj fresh)
  | L_ripemd160 : lib_hash fresh (ripemd160_obj fresh)
  | L_hmac_ripemd160 key h : bytes_ok key -> zlen key <= max_string_length -> hmac_of (ripemd160_obj fresh) 64 key = Ret h -> lib_hash fresh h.

Definition sized (D : bytes -> out bytes) (n : Z) : Prop := forall m, bytes_ok m -> match D m with Ret r => zlen r = n | Raise e => e = Error Wrong_data_length | _ => False end.
Definition short64 (m : bytes) : Prop := zlen m < 2 ^ 64.
Lemma computes_on_all o D : computes_on (fun _ => True) o D -> computes_on short64 o D.
Proof. intros H ops Hv _. apply H; [assumption|exact Logic.I]. Qed.

Lemma siphash64_size key m : zlen (siphash64 key m) = 8.
Proof. unfold siphash64. destruct (fold_left _ _ _) as [[[a b] c] d]. apply zlen_to_le. Qed.
Lemma siphash128_size key m : zlen (siphash128 key m) = 16.
Proof.
  unfold siphash128. destruct (sip_init key) as [[[i0 i1] i2] i3]. destruct (fold_left _ _ _) as [[[a b] c] d]. destruct (Nat.iter 4 _ _) as [[[w0 w1] w2] w3].
  rewrite zlen_app, !zlen_to_le. reflexivity.
Qed.
Lemma last_chunk m : bytes_ok m -> exists L b, Forall (fun b => zlen b = 16 /\ bytes_ok b) L /\ zlen b <= 16 /\ bytes_ok b /\
  removelast (chunks 16 m) = L /\ last (chunks 16 m) [] = b.
Proof.
  intros Hm. destruct (split_blocks 16 m ltac:(lia)) as (blks & tail & -> & Hl & Ht & _ & Hok). destruct (Hok Hm) as (Hb & Ho).
  assert (HB : Forall (fun b => zlen b = 16 /\ bytes_ok b) blks) by (apply Forall_and; assumption). clear Hok Hm Hb.
  destruct (Z.eq_dec (zlen tail) 0) as [Hz | Hz].
  - assert (tail = []) as -> by (apply zlen_0; exact Hz). rewrite app_nil_r, chunks_concat0 by (assumption || lia).
    destruct blks as [|b0 blks0]; [exists [], []; repeat split; try constructor; unfold zlen; cbn; lia|].
    destruct (@exists_last _ (b0 :: blks0) ltac:(discriminate)) as (L & b & E). rewrite E in *. exists L, b. rewrite removelast_last, last_last.
    apply Forall_app in HB as (HL & HB). inversion HB as [|? ? (H1 & H2) ?]; subst. repeat split; try assumption. lia.
  - pose proof (zlen_nonneg tail). rewrite chunks_concat, chunks_short by (assumption || lia). exists blks, tail. rewrite removelast_last, last_last. repeat split; try assumption. lia.
Qed.
Lemma cmac_size E iv m : (forall b, zlen b = 16 -> bytes_ok b -> zlen (E b) = 16 /\ bytes_ok (E b)) -> zlen iv = 16 -> bytes_ok iv -> bytes_ok m ->
  zlen (cmac_spec E iv m) = 16.
Proof.
  intros HE H1 H2 Hm. destruct (last_chunk m Hm) as (L & b & HL & Hb & Hbo & EL & Eb). unfold cmac_spec. rewrite EL, Eb. apply (cbc_mac_ok E 16); try assumption.
  apply Forall_app. split; [exact HL|]. constructor; [|constructor].
  assert (K : zlen (cmac_K1 E) = 16 /\ bytes_ok (cmac_K1 E) /\ zlen (cmac_K2 E) = 16 /\ bytes_ok (cmac_K2 E)).
  { unfold cmac_K1, cmac_K2. rewrite !zlen_to_be. repeat split; apply bytes_ok_to_be. }
  destruct K as (K1 & K2 & K3 & K4). pose proof (zlen_nonneg b). unfold cmac_last. destruct (zlen b =? 16) eqn:El.
  - split; [rewrite zlen_xorb; lia|apply bytes_ok_xorb; assumption].
  - assert (zlen (b ++ [128] ++ zeros (15 - zlen b)) = 16) by (rewrite !zlen_app, zlen_one, zlen_zeros; lia).
    split; [rewrite zlen_xorb; lia|apply bytes_ok_xorb; [|assumption]]. apply bytes_ok_app. split; [assumption|]. apply bytes_ok_app. split; [repeat constructor; lia|apply bytes_ok_zeros].
Qed.
Lemma sized_hash_ok fresh o : (forall n, 0 <= n -> zlen (fresh n) = n) -> sized_hash fresh o -> exists D, computes_on short64 o D /\ sized D (h_size (ho_class o)).
Proof.
  intros Hf H.
  assert (G : forall o d, computes o d -> (forall m, bytes_ok m -> zlen (d m) = h_size (ho_class o)) -> exists D, computes_on short64 o D /\ sized D (h_size (ho_class o))).
  { clear. intros o d H1 H2. exists (fun m => Ret (d m)). split; [apply computes_on_all; exact H1|]. intros m Hm. apply H2. exact Hm. }
  destruct H as [ | | | |sz o Ho|sz o Ho|sz key o Hk Ho|sz key o Hk Ho|sz key o Hk Ho|o d B key h Hh Hd Hk Hl Ho|sz key o Hk Ho|nb key bs E D iv p o F Hi Hp Ho|nb E D key iv p o F Hi Hk Ho|nb key E D iv o F Hi Ho].
  - apply (G _ sha1); [apply sha1_computes; assumption|intros m _; apply sha1_size].
  - apply (G _ sha256); [apply sha256_computes; assumption|intros m _; apply sha256_size].
  - apply (G _ sha384); [apply sha384_computes; assumption|intros m _; apply sha384_size].
  - apply (G _ sha512); [apply sha512_computes; assumption|intros m _; apply sha512_size].
  - assert (Hs : sz = 224 \/ sz = 256 \/ sz = 384 \/ sz = 512).
    { destruct (Z.eq_dec sz 224); [auto|]. destruct (Z.eq_dec sz 256); [auto|]. destruct (Z.eq_dec sz 384); [auto|]. destruct (Z.eq_dec sz 512); [auto|].
      unfold sha3_obj in Ho. rewrite sha3_new_other in Ho by lia. discriminate. }
    destruct (sha3_new_ok fresh Hf sz true Hs) as (o' & E & Es & HC). unfold sha3_obj in Ho. rewrite Ho in E. injection E as <-.
    apply (G _ _ HC). intros m Hm. rewrite Es. apply keccak_size. lia.
  - assert (Hs : sz = 224 \/ sz = 256 \/ sz = 384 \/ sz = 512).
    { destruct (Z.eq_dec sz 224); [auto|]. destruct (Z.eq_dec sz 256); [auto|]. destruct (Z.eq_dec sz 384); [auto|]. destruct (Z.eq_dec sz 512); [auto|].
      unfold keccak_obj in Ho. rewrite sha3_new_other in Ho by lia. discriminate. }
    destruct (sha3_new_ok fresh Hf sz false Hs) as (o' & E & Es & HC). unfold keccak_obj in Ho. rewrite Ho in E. injection E as <-.
    apply (G _ _ HC). intros m Hm. rewrite Es. apply keccak_size. lia.
  - assert (Hs : (8 <= sz <= 512 /\ sz mod 8 = 0 /\ zlen key <= 64) \/ ~ (8 <= sz <= 512 /\ sz mod 8 = 0 /\ zlen key <= 64)) by (generalize (sz mod 8); intros; lia).
    destruct Hs as [(H1 & H2 & H3) | Hs]; [|pose proof (blake2_new_other 64 12 32 24 16 63 blake2b_iv fresh sz key Hs) as Ex; unfold blake2b_obj in Ho; rewrite Ho in Ex; discriminate].
    destruct (blake2b_ok fresh sz key Hf H1 H2 H3 Hk) as (o' & E & Es & HC). rewrite Ho in E. injection E as <-.
    apply (G _ _ HC). intros m Hm. rewrite Es. apply blake2b_size. clear - H1. lia.
  - assert (Hs : (8 <= sz <= 256 /\ sz mod 8 = 0 /\ zlen key <= 32) \/ ~ (8 <= sz <= 256 /\ sz mod 8 = 0 /\ zlen key <= 32)) by (generalize (sz mod 8); intros; lia).
    destruct Hs as [(H1 & H2 & H3) | Hs]; [|pose proof (blake2_new_other 32 10 16 12 8 7 blake2s_iv fresh sz key Hs) as Ex; unfold blake2s_obj in Ho; rewrite Ho in Ex; discriminate].
    destruct (blake2s_ok fresh sz key Hf H1 H2 H3 Hk) as (o' & E & Es & HC). rewrite Ho in E. injection E as <-.
    apply (G _ _ HC). intros m Hm. rewrite Es. apply blake2s_size. clear - H1. lia.
  - assert (Hs : (0 < sz /\ sz mod 8 = 0 /\ (zlen key = 0 \/ zlen key = 32)) \/ ~ (0 < sz /\ sz mod 8 = 0 /\ (zlen key = 0 \/ zlen key = 32))) by (generalize (sz mod 8); intros; lia).
    destruct Hs as [(H1 & H2 & H3) | Hs]; [|rewrite blake3_other in Ho by assumption; discriminate].
    destruct (blake3_ok key sz H1 H2 H3 Hk) as (o' & E & Es & HC). rewrite Ho in E. injection E as <-.
    eexists. split; [exact HC|]. intros m _. rewrite Es. apply blake3_size. clear - H1. lia.
  - destruct (hmac_ok fresh o d B key Hf Hh Hk Hl) as (h' & E & Es & HC). rewrite Ho in E. injection E as <-.
    apply (G _ _ HC). intros m Hm. rewrite Es. unfold hmac_spec. destruct Hh; try contradiction; [apply sha1_size|apply sha256_size|apply sha384_size|apply sha512_size].
  - assert (Hs : (zlen key = 16 /\ (sz = 64 \/ sz = 128)) \/ ~ (zlen key = 16 /\ (sz = 64 \/ sz = 128))) by lia.
    destruct Hs as [(H1 & H2) | Hs]; [|rewrite siphash_other in Ho by assumption; discriminate].
    destruct (siphash_ok fresh sz key Hf H1 Hk H2) as (o' & E & Es & HC). rewrite Ho in E. injection E as <-.
    apply (G _ _ HC). intros m Hm. rewrite Es. destruct H2 as [-> | ->]; [apply siphash64_size|apply siphash128_size].
  - destruct (block_mac_ok fresh nb key bs E D iv p Hf F Hi Hp) as (o' & Eo & Es & HC). rewrite Ho in Eo. injection Eo as <-.
    eexists. split; [apply computes_on_all; exact HC|]. intros m Hm. cbn beta. rewrite Es. destruct (mac_message bs p m) as [X|] eqn:EX; [|reflexivity]. cbn [option_map mac_out].
    pose proof (fam_bs _ _ _ _ _ F) as Hb. destruct (mac_iv bs iv ltac:(lia) Hi) as (_ & I1 & I2).
    apply (cbc_mac_ok E bs X); try assumption; [exact (fam_len _ _ _ _ _ F)|]. apply (mac_message_ok bs p m X); try assumption. lia.
  - assert (Hl : (zlen key = 16 \/ zlen key = 24) \/ (zlen key <> 16 /\ zlen key <> 24)) by lia.
    destruct Hl as [Hl | (Hl1 & Hl2)]; [|rewrite des_final_key in Ho by assumption; discriminate].
    destruct (des_final_ok fresh nb E D key iv p Hf F Hk Hl Hi) as (o' & Eo & Es & HC). rewrite Ho in Eo. injection Eo as <-.
    eexists. split; [apply computes_on_all; exact HC|]. intros m Hm. cbn beta. rewrite Es. destruct (mac_message 8 p m) as [X|] eqn:EX; [|reflexivity]. cbn [option_map mac_out].
    set (i3 := if zlen key =? 24 then 2 else 0). assert (Hi3 : 8 * i3 + 8 <= zlen key /\ 0 <= i3) by (unfold i3; destruct (zlen key =? 24) eqn:El; lia).
    assert (Hp : forall i, 0 <= i -> 8 * i + 8 <= zlen key -> block_family nb (key_part key i) 8 (E (key_part key i)) (D (key_part key i))).
    { intros i Hi1 Hi2. apply F; unfold key_part; [apply zlen_sub; lia|apply bytes_ok_sub; assumption]. }
    destruct (mac_iv 8 iv ltac:(lia) Hi) as (_ & I1 & I2).
    pose proof (fam_len _ _ _ _ _ (Hp 0 ltac:(lia) ltac:(lia))) as A. pose proof (fam_len _ _ _ _ _ (Hp i3 ltac:(lia) ltac:(lia))) as C.
    destruct (family_object _ _ _ _ _ Decrypt (Hp 1 ltac:(lia) ltac:(lia))) as (c2 & _ & O2). pose proof (object_E_ok _ _ _ O2) as B. cbn beta iota in B.
    destruct (cbc_mac_ok _ 8 X A (mac_message_ok 8 p m X ltac:(lia) Hm EX) _ I1 I2) as (Z1 & Z2). destruct (B _ Z1 Z2) as (Z3 & Z4). apply C; assumption.
  - destruct (aes_cmac_ok fresh nb key E D iv Hf F Hi) as (o' & Eo & Es & HC). rewrite Ho in Eo. injection Eo as <-.
    apply (G _ _ HC). intros m Hm. rewrite Es. destruct (mac_iv 16 iv ltac:(lia) Hi) as (_ & I1 & I2). apply cmac_size; try assumption. exact (fam_len _ _ _ _ _ F).
Qed.

(* ---- all library objects ---- *)
Lemma lib_hash_computes fresh o : (forall n, 0 <= n -> zlen (fresh n) = n) -> lib_hash fresh o -> exists D, computes_on short64 o D.
Proof.
  intros Hf H. destruct H as [o H | | |key h Hk Hl Ho].
  - destruct (sized_hash_ok fresh o Hf H) as (D & H1 & _). eauto.
  - eexists. apply computes_on_all. apply sha224_computes. assumption.
  - eexists. apply computes_on_all. apply ripemd160_computes. assumption.
  - destruct (hmac_ok fresh _ _ _ key Hf (HH_ripemd160 fresh) Hk Hl) as (h' & E & _ & HC). rewrite Ho in E. injection E as <-. eexists. apply computes_on_all. exact HC.
Qed.
Lemma lib_hash_chunking fresh o : (forall n, 0 <= n -> zlen (fresh n) = n) -> lib_hash fresh o ->
  forall ops1 ops2, Forall hop_valid ops1 -> Forall hop_valid ops2 -> added ops1 = added ops2 -> zlen (added ops1) < 2 ^ 64 ->
  snd (h_run (ho_class o) (ho_st o) ops1) = Ret tt /\
  snd (h_result (ho_class o) (fst (h_run (ho_class o) (ho_st o) ops1))) = snd (h_result (ho_class o) (fst (h_run (ho_class o) (ho_st o) ops2))).
Proof.
  intros Hf Ho ops1 ops2 H1 H2 E HP. destruct (lib_hash_computes fresh o Hf Ho) as (D & HC). destruct (HC ops1 H1 HP) as (A & B & _).
  rewrite E in HP. destruct (HC ops2 H2 HP) as (_ & B' & _). split; [exact A|]. rewrite B, B', E. reflexivity.
Qed.
Lemma lib_hash_channel fresh o : (forall n, 0 <= n -> zlen (fresh n) = n) -> lib_hash fresh o ->
  forall sched len ic, bytes_ok ic -> zlen ic <= max_string_length ->
  obj_hash_channel fresh sched o len ic =
    if (match len with None => true | Some l => l <=? zlen ic end)
    then obj_hash_string o (match len with None => ic | Some l => firstn (Z.to_nat l) ic end) else Raise End_of_file.
Proof.
  intros Hf Ho sched len ic Hb Hl. destruct (lib_hash_computes fresh o Hf Ho) as (D & HC).
  assert (Hpre : forall a b, short64 (a ++ b) -> short64 a) by (intros a b; unfold short64; rewrite zlen_app; pose proof (zlen_nonneg b); lia).
  assert (HR : zlen (requested len ic) <= max_string_length /\ bytes_ok (requested len ic)).
  { destruct len as [l|]; cbn [requested]; [|auto]. split; [rewrite zlen_firstn; lia|apply Forall_firstn; assumption]. }
  destruct HR as (HR1 & HR2). assert (HP : short64 (requested len ic)) by (unfold short64, max_string_length in *; lia).
  rewrite (computes_channel fresh Hf sched short64 o D len ic Hpre HC Hb HP).
  assert (E : long_enough len ic = match len with None => true | Some l => l <=? zlen ic end) by (destruct len; reflexivity). rewrite E.
  destruct (match len with None => true | Some l => l <=? zlen ic end); [|reflexivity].
  symmetry. unfold obj_hash_string. change (match len with None => ic | Some l => firstn (Z.to_nat l) ic end) with (requested len ic).
  destruct (computes_himpl short64 o D Hpre HC) as (I & R0). exact (himpl_string short64 (ho_class o) D (reached o) (ho_st o) [] _ I R0 HR2 HR1 HP).
Qed.
Lemma sized_hash_size fresh o : (forall n, 0 <= n -> zlen (fresh n) = n) -> sized_hash fresh o ->
  forall ops r, Forall hop_valid ops -> zlen (added ops) < 2 ^ 64 ->
  snd (h_result (ho_class o) (fst (h_run (ho_class o) (ho_st o) ops))) = Ret r -> zlen r = h_size (ho_class o).
Proof.
  intros Hf Ho ops r Hv HP Hr. destruct (sized_hash_ok fresh o Hf Ho) as (D & HC & HS). destruct (HC ops Hv HP) as (_ & E & _).
  assert (Hb : bytes_ok (added ops)) by (clear - Hv; unfold added; induction Hv as [|x l Hx Hl IH]; [constructor|cbn [map concat]; apply bytes_ok_app; split; [apply hop_bytes_ok; assumption|exact IH]]).
  specialize (HS _ Hb). rewrite <- E, Hr in HS. exact HS.
Qed.
Lemma wrong_hash_sizes fresh : (forall n, 0 <= n -> zlen (fresh n) = n) ->
  exists o1 o2, lib_hash fresh o1 /\ lib_hash fresh o2 /\ h_size (ho_class o1) = 24 /\ h_size (ho_class o2) = 32 /\
  forall ops, Forall hop_valid ops -> exists r1 r2,
    snd (h_result (ho_class o1) (fst (h_run (ho_class o1) (ho_st o1) ops))) = Ret r1 /\ zlen r1 = 28 /\
    snd (h_result (ho_class o2) (fst (h_run (ho_class o2) (ho_st o2) ops))) = Ret r2 /\ zlen r2 = 20.
Proof.
  intros Hf. exists (sha224_obj fresh), (ripemd160_obj fresh). split; [apply L_sha224|]. split; [apply L_ripemd160|]. split; [reflexivity|]. split; [reflexivity|].
  intros ops Hv. exists (sha224 (added ops)), (ripemd160 (added ops)).
  split; [apply (sha224_computes fresh Hf ops Hv Logic.I)|]. split; [apply sha224_size|]. split; [apply (ripemd160_computes fresh Hf ops Hv Logic.I)|apply ripemd160_size].
Qed.
Lemma md5_chunking : exists s1 s2, Forall hop_valid [HString (s1 ++ s2)] /\ Forall hop_valid [HString s1; HString s2] /\
  forall rt D, runtime_computes rt D ->
  let result ops := snd (h_result (md5_class rt) (fst (h_run (md5_class rt) (rt_init rt) ops))) in
  result [HString (s1 ++ s2)] = Ret (D []) /\ result [HString s1; HString s2] = Ret (D (s1 ++ s2)).
Proof.
  assert (H : exists n, n = 2 ^ 31) by (eexists; reflexivity). destruct H as (n & Hn). exists (zeros n), (zeros n).
  assert (Hz : zlen (zeros n) = n) by (apply zlen_zeros; lia). pose proof (bytes_ok_zeros n) as Hb. set (z := zeros n) in *. clearbody z.
  assert (Hzz : zlen (z ++ z) = 2 ^ 32) by (rewrite zlen_app; lia). assert (Hbb : bytes_ok (z ++ z)) by (apply bytes_ok_app; auto).
  split; [repeat constructor; [assumption|rewrite Hzz; unfold max_string_length; lia]|].
  assert (V : Forall hop_valid [HString z; HString z]) by (repeat constructor; try assumption; rewrite Hz, Hn; unfold max_string_length; lia). split; [exact V|].
  intros rt D HD result. split.
  - pose proof (md5_loses (z ++ z) Hzz rt D HD) as E. unfold obj_hash_string, hash_string in E. unfold result. cbn [h_run h_step]. cbn [md5_obj ho_class ho_st] in E.
    destruct (h_add_string (md5_class rt) (rt_init rt) (z ++ z)) as [s r] eqn:Ea. destruct r as [[]| | |]; cbn [bind] in E |- *; try discriminate. cbn [fst].
    cbn [h_result md5_class c_hash md5_fin bind h_wipe snd] in *. exact E.
  - destruct (md5_feeds rt D [HString z; HString z] HD V) as (_ & E); [repeat constructor; unfold op_small; cbn [hop_bytes]; lia|].
    unfold result. rewrite E. unfold added. cbn [map hop_bytes concat]. rewrite app_nil_r. reflexivity.
Qed.
