(* Collisions of SHA-1, SHA-2 and RIPEMD-160. *)
From Verif Require Import Prelude PreludeFacts BytesNum Word SpecBlock SpecHash SpecRipemd BlockTotal HashModel HashSpec ShaModel RipemdModel Sha Ripemd KeyStream SpecCollide Collide.

Lemma app_tail {A} (a b c d : list A) : length b = length d -> a ++ b = c ++ d -> a = c /\ b = d.
Proof.
  intros L E. assert (La : length a = length c) by (apply (f_equal (@length A)) in E; rewrite !app_length in E; lia).
  split; [apply (f_equal (firstn (length a))) in E|apply (f_equal (skipn (length a))) in E].
  - rewrite La in E at 2. now rewrite !firstn_app, !firstn_all, !Nat.sub_diag, !firstn_O, !app_nil_r in E.
  - rewrite La in E at 2. now rewrite !skipn_app, !skipn_all, !Nat.sub_diag in E.
Qed.
Lemma app_head {A} (a b c d : list A) : length a = length c -> a ++ b = c ++ d -> a = c /\ b = d.
Proof. intros L E. apply app_tail; [|exact E]. apply (f_equal (@length A)) in E. rewrite !app_length in E. lia. Qed.

Lemma concat_chunks n l : 0 < n -> zlen l mod n = 0 -> concat (chunks n l) = l.
Proof.
  intros Hn Hm. destruct (split_blocks n l Hn) as (blks & tail & E & H1 & H2 & H3 & _). rewrite Hm in H3. apply zlen_0 in H3. subst tail.
  rewrite app_nil_r in E. rewrite E at 1. rewrite chunks_concat0 by assumption. now rewrite <- E.
Qed.

Definition list_dec : forall x y : list Z, {x = y} + {x <> y} := list_eq_dec Z.eq_dec.

Section Md.
Variables (B L : Z) (enc : nat -> Z -> bytes).
Hypotheses (HB : 0 < B) (HL : 0 < L) (Henc : forall n x, length (enc n x) = n)
  (Hinj : forall x y, 0 <= x < 256 ^ L -> 0 <= y < 256 ^ L -> enc (Z.to_nat L) x = enc (Z.to_nat L) y -> x = y).

Lemma md_pad_zlen m : zlen (md_pad B L enc m) = zlen m + 1 + L + (- (zlen m + 1 + L)) mod B.
Proof.
  unfold md_pad. rewrite !zlen_app. change (zlen [128]) with 1. rewrite zlen_zeros by (apply Z.mod_pos_bound; lia).
  replace (zlen (enc (Z.to_nat L) (8 * zlen m))) with L by (unfold zlen; rewrite Henc; lia). lia.
Qed.
Lemma md_pad_mod m : zlen (md_pad B L enc m) mod B = 0.
Proof. rewrite md_pad_zlen. rewrite Z.add_mod_idemp_r by lia. now rewrite Z.add_opp_diag_r, Z.mod_0_l by lia. Qed.
Lemma md_pad_tail x y m1 m2 : 8 * zlen m1 < 256 ^ L -> 8 * zlen m2 < 256 ^ L -> x ++ md_pad B L enc m1 = y ++ md_pad B L enc m2 -> zlen m1 = zlen m2.
Proof.
  intros H1 H2 E. unfold md_pad in E. rewrite !app_assoc in E. apply app_tail in E; [|now rewrite !Henc].
  destruct E as [_ E]. apply Hinj in E; [lia| |]; split; try assumption; unfold zlen; lia.
Qed.
Lemma md_pad_inj m1 m2 : 8 * zlen m1 < 256 ^ L -> 8 * zlen m2 < 256 ^ L -> md_pad B L enc m1 = md_pad B L enc m2 -> m1 = m2.
Proof.
  intros H1 H2 E. assert (El := md_pad_tail [] [] m1 m2 H1 H2 E). unfold md_pad in E. apply app_head in E; [exact (proj1 E)|]. unfold zlen in El. lia.
Qed.

Context {S : Type} (Sd : forall x y : S, {x = y} + {x <> y}) (f : S -> bytes -> S) (g : S -> bytes) (iv : S).
Notation blocks m := (chunks B (md_pad B L enc m)).
Lemma blocks_no_suffix m1 m2 p : 8 * zlen m1 < 256 ^ L -> 8 * zlen m2 < 256 ^ L -> p <> [] -> blocks m1 <> p ++ blocks m2.
Proof.
  intros H1 H2 Np E. assert (E' := f_equal (@concat Z) E). rewrite concat_app, !concat_chunks in E' by (try apply md_pad_mod; lia).
  assert (El := md_pad_tail [] (concat p) m1 m2 H1 H2 E'). assert (Lp := f_equal zlen E'). rewrite zlen_app, !md_pad_zlen, El in Lp.
  destruct p as [|x p]; [contradiction|]. cbn [concat] in Lp. rewrite zlen_app in Lp. 
  assert (Hx : zlen x = B). { destruct (chunks_length B _ HB (md_pad_mod m1)) as (_ & F & _). rewrite E in F. cbn [app] in F. now inversion F. }
  assert (0 <= zlen (concat p)) by (unfold zlen; lia). lia.
Qed.
Lemma blocks_ne m : blocks m <> [].
Proof.
  intros E. apply (f_equal (@concat Z)) in E. rewrite concat_chunks in E by (try apply md_pad_mod; lia). unfold md_pad in E. destruct m; discriminate E.
Qed.
Theorem md_collide m1 m2 : 8 * zlen m1 < 256 ^ L -> 8 * zlen m2 < 256 ^ L -> m1 <> m2 ->
  g (md_digest B L enc iv f m1) = g (md_digest B L enc iv f m2) ->
  collision f iv (blocks m1) (blocks m2) \/ last_collision f g iv (blocks m1) (blocks m2).
Proof.
  intros H1 H2 N E. destruct (collide f g Sd list_dec (blocks m1) (blocks m2) iv (blocks_ne m1) (blocks_ne m2) E) as [C|[C|[C|(p & Np & _ & [C|C])]]].
  - exfalso. apply N, md_pad_inj; try assumption. apply (f_equal (@concat Z)) in C. now rewrite !concat_chunks in C by (try apply md_pad_mod; lia).
  - now left.
  - now right.
  - exfalso. exact (blocks_no_suffix m1 m2 p H1 H2 Np C).
  - exfalso. exact (blocks_no_suffix m2 m1 p H2 H1 Np C).
Qed.
End Md.

Lemma computes_same o d ops1 ops2 : computes o d -> Forall hop_valid ops1 -> Forall hop_valid ops2 -> result_of o ops1 = result_of o ops2 -> d (added ops1) = d (added ops2).
Proof.
  intros C V1 V2 E. destruct (C ops1 V1 Logic.I) as (_ & E1 & _). destruct (C ops2 V2 Logic.I) as (_ & E2 & _). unfold result_of in E. rewrite E1, E2 in E. congruence.
Qed.
Lemma to_be_inj n x y : 0 <= x < 256 ^ Z.of_nat n -> 0 <= y < 256 ^ Z.of_nat n -> to_be n x = to_be n y -> x = y.
Proof. intros Hx Hy E. apply (f_equal be) in E. rewrite !be_to_be, !Z.mod_small in E by assumption. exact E. Qed.
Lemma words_out_inj (enc : nat -> Z -> bytes) n (He : forall x, length (enc n x) = n)
  (Hi : forall x y, 0 <= x < 256 ^ Z.of_nat n -> 0 <= y < 256 ^ Z.of_nat n -> enc n x = enc n y -> x = y) a : forall b, length a = length b ->
  Forall (fun x => 0 <= x < 256 ^ Z.of_nat n) a -> Forall (fun x => 0 <= x < 256 ^ Z.of_nat n) b -> concat (map (enc n) a) = concat (map (enc n) b) -> a = b.
Proof.
  induction a as [|x a IH]; intros [|y b] L Ha Hb E; try discriminate L; [reflexivity|]. cbn [map concat] in E. inversion Ha; inversion Hb; subst.
  apply app_head in E; [|now rewrite !He]. destruct E as [E1 E2]. f_equal; [now apply Hi|]. apply IH; try assumption. now inversion L.
Qed.
Lemma calls_inv {S B} (f : S -> B -> S) (P : S -> Prop) : (forall h b, P h -> P (f h b)) -> forall l h a b, P h -> In (a, b) (calls f h l) -> P a.
Proof.
  intros F l. induction l as [|x l IH]; intros h a b H I; [destruct I|]. destruct I as [E|I]; [congruence|]. apply (IH (f h x) a b); [now apply F|exact I].
Qed.
Lemma add_words_ok n w a b : w = 8 * Z.of_nat n -> length a = length b -> length (add_words w a b) = length a /\ Forall (fun x => 0 <= x < 256 ^ Z.of_nat n) (add_words w a b).
Proof.
  intros -> L. unfold add_words. rewrite map_length, combine_length. split; [lia|]. apply Forall_map, Forall_forall. intros x _.
  replace (256 ^ Z.of_nat n) with (2 ^ (8 * Z.of_nat n)) by (rewrite Z.pow_mul_r by lia; reflexivity). apply Z.mod_pos_bound. apply Z.pow_pos_nonneg; lia.
Qed.
(* functions whose results are k words of n bytes *)
Lemma words_full {B} (enc : nat -> Z -> bytes) n k (f : list Z -> B -> list Z) h l1 l2 (He : forall x, length (enc n x) = n)
  (Hi : forall x y, 0 <= x < 256 ^ Z.of_nat n -> 0 <= y < 256 ^ Z.of_nat n -> enc n x = enc n y -> x = y) :
  (forall h b, length h = k -> length (f h b) = k /\ Forall (fun x => 0 <= x < 256 ^ Z.of_nat n) (f h b)) -> length h = k ->
  last_collision f (fun s => concat (map (enc n) s)) h l1 l2 -> collision f h l1 l2.
Proof.
  intros F K. apply last_full. intros a b a' b' I1 I2 E.
  assert (Ka := calls_inv f (fun s => length s = k) (fun s x H => proj1 (F s x H)) l1 h a b K I1). cbn beta in Ka.
  assert (Ka' := calls_inv f (fun s => length s = k) (fun s x H => proj1 (F s x H)) l2 h a' b' K I2). cbn beta in Ka'.
  destruct (F a b Ka) as [L R]. destruct (F a' b' Ka') as [L' R']. apply (words_out_inj enc n He Hi); try assumption. lia.
Qed.
Lemma words_out_length (enc : nat -> Z -> bytes) n (He : forall x, length (enc n x) = n) a : length (concat (map (enc n) a)) = (length a * n)%nat.
Proof. induction a as [|x a IH]; [reflexivity|]. cbn [map concat length]. rewrite app_length, IH, He. lia. Qed.
Lemma words_full_firstn {B} (enc : nat -> Z -> bytes) n k (f : list Z -> B -> list Z) h l1 l2 (He : forall x, length (enc n x) = n)
  (Hi : forall x y, 0 <= x < 256 ^ Z.of_nat n -> 0 <= y < 256 ^ Z.of_nat n -> enc n x = enc n y -> x = y) :
  (forall h b, length h = k -> length (f h b) = k /\ Forall (fun x => 0 <= x < 256 ^ Z.of_nat n) (f h b)) -> length h = k ->
  last_collision f (fun s => firstn (k * n) (concat (map (enc n) s))) h l1 l2 -> collision f h l1 l2.
Proof.
  intros F K. apply last_full. intros a b a' b' I1 I2 E.
  assert (Ka := calls_inv f (fun s => length s = k) (fun s x H => proj1 (F s x H)) l1 h a b K I1). cbn beta in Ka.
  assert (Ka' := calls_inv f (fun s => length s = k) (fun s x H => proj1 (F s x H)) l2 h a' b' K I2). cbn beta in Ka'.
  destruct (F a b Ka) as [L R]. destruct (F a' b' Ka') as [L' R']. rewrite !firstn_all2 in E by (rewrite words_out_length by exact He; lia).
  apply (words_out_inj enc n He Hi); try assumption. lia.
Qed.
Lemma to_be_inj' n L x y : L = Z.of_nat n -> 0 <= x < 256 ^ L -> 0 <= y < 256 ^ L -> to_be (Z.to_nat L) x = to_be (Z.to_nat L) y -> x = y.
Proof. intros ->. rewrite Nat2Z.id. apply to_be_inj. Qed.
Lemma to_le_inj' n L x y : L = Z.of_nat n -> 0 <= x < 256 ^ L -> 0 <= y < 256 ^ L -> to_le (Z.to_nat L) x = to_le (Z.to_nat L) y -> x = y.
Proof. intros ->. rewrite Nat2Z.id. apply to_le_inj. Qed.
Lemma len_to_le n : forall x, length (to_le n x) = n.
Proof. intros x. assert (H := zlen_to_le n x). unfold zlen in H. lia. Qed.

Lemma sha1_compress_ok h b : length h = 5%nat -> length (sha1_compress h b) = 5%nat /\ Forall (fun x => 0 <= x < 256 ^ Z.of_nat 4) (sha1_compress h b).
Proof.
  intros H. unfold sha1_compress. destruct (fold_left _ _ _) as [[[[a c] d] e] e'].
  destruct (add_words_ok 4 32 h [a; c; d; e; e'] eq_refl H) as [H1 H2]. split; [now rewrite H1|exact H2].
Qed.
Lemma sha2_compress_ok P n h b : s2_w P = 8 * Z.of_nat n -> length h = 8%nat ->
  length (sha2_compress P h b) = 8%nat /\ Forall (fun x => 0 <= x < 256 ^ Z.of_nat n) (sha2_compress P h b).
Proof.
  intros W H. unfold sha2_compress. destruct (fold_left _ _ _) as [[[[[[[a b1] c] d] e] e1] e2] e3].
  destruct (add_words_ok n (s2_w P) h [a; b1; c; d; e; e1; e2; e3] W H) as [H1 H2]. split; [now rewrite H1|exact H2].
Qed.
Lemma rmd_compress_ok h b : length h = 5%nat -> length (rmd160_compress h b) = 5%nat /\ Forall (fun x => 0 <= x < 256 ^ Z.of_nat 4) (rmd160_compress h b).
Proof.
  intros H. unfold rmd160_compress. destruct (rmd_left_line _ _) as [[[[a c] d] e] e']. destruct (rmd_right_line _ _) as [[[[a1 c1] d1] e1] e1'].
  split; [reflexivity|]. repeat constructor; try (apply Z.mod_pos_bound; reflexivity).
Qed.

Section Objects.
Variable fresh : Z -> bytes.
Hypothesis fresh_len : forall n, 0 <= n -> zlen (fresh n) = n.
Variables ops1 ops2 : list hop.
Hypotheses (V1 : Forall hop_valid ops1) (V2 : Forall hop_valid ops2) (N : added ops1 <> added ops2).

Lemma sha1_collide : zlen (added ops1) < 2 ^ 61 -> zlen (added ops2) < 2 ^ 61 -> result_of (sha1_obj fresh) ops1 = result_of (sha1_obj fresh) ops2 ->
  collision sha1_compress sha1_IV (chunks 64 (md_pad 64 8 to_be (added ops1))) (chunks 64 (md_pad 64 8 to_be (added ops2))).
Proof.
  intros H1 H2 E. apply (computes_same _ _ _ _ (sha1_computes fresh fresh_len) V1 V2) in E.
  destruct (md_collide 64 8 to_be eq_refl ltac:(lia) length_to_be (fun x y => to_be_inj' 8 8 x y eq_refl) list_dec sha1_compress (fun s => concat (map (to_be 4) s)) sha1_IV
    (added ops1) (added ops2) ltac:(lia) ltac:(lia) N E) as [C|C]; [exact C|].
  revert C. apply (words_full to_be 4 5 sha1_compress sha1_IV _ _ (length_to_be 4) (to_be_inj 4)); [exact sha1_compress_ok|reflexivity].
Qed.
Lemma ripemd160_collide : zlen (added ops1) < 2 ^ 61 -> zlen (added ops2) < 2 ^ 61 -> result_of (ripemd160_obj fresh) ops1 = result_of (ripemd160_obj fresh) ops2 ->
  collision rmd160_compress [0x67452301; 0xEFCDAB89; 0x98BADCFE; 0x10325476; 0xC3D2E1F0]
    (chunks 64 (md_pad 64 8 to_le (added ops1))) (chunks 64 (md_pad 64 8 to_le (added ops2))).
Proof.
  intros H1 H2 E. apply (computes_same _ _ _ _ (ripemd160_computes fresh fresh_len) V1 V2) in E.
  destruct (md_collide 64 8 to_le eq_refl ltac:(lia) len_to_le (fun x y => to_le_inj' 8 8 x y eq_refl) list_dec rmd160_compress (fun s => concat (map (to_le 4) s)) [0x67452301; 0xEFCDAB89; 0x98BADCFE; 0x10325476; 0xC3D2E1F0]
    (added ops1) (added ops2) ltac:(lia) ltac:(lia) N E) as [C|C]; [exact C|].
  revert C. apply (words_full to_le 4 5 rmd160_compress _ _ _ (len_to_le 4) (to_le_inj 4)); [exact rmd_compress_ok|reflexivity].
Qed.

Lemma iv_length : length sha256_IV = 8%nat /\ length sha512_IV = 8%nat.
Proof. split; vm_compute; reflexivity. Qed.
Lemma sha224_collide : zlen (added ops1) < 2 ^ 61 -> zlen (added ops2) < 2 ^ 61 -> result_of (sha224_obj fresh) ops1 = result_of (sha224_obj fresh) ops2 ->
  collision (sha2_compress p256) sha224_IV (chunks 64 (md_pad 64 8 to_be (added ops1))) (chunks 64 (md_pad 64 8 to_be (added ops2))) \/
  last_collision (sha2_compress p256) (fun s => firstn 28 (concat (map (to_be 4) s))) sha224_IV (chunks 64 (md_pad 64 8 to_be (added ops1))) (chunks 64 (md_pad 64 8 to_be (added ops2))).
Proof.
  intros H1 H2 E. apply (computes_same _ _ _ _ (sha224_computes fresh fresh_len) V1 V2) in E.
  destruct (md_collide 64 8 to_be eq_refl ltac:(lia) length_to_be (fun x y => to_be_inj' 8 8 x y eq_refl) list_dec (sha2_compress p256) (fun s => firstn 28 (concat (map (to_be 4) s))) sha224_IV
    (added ops1) (added ops2) ltac:(lia) ltac:(lia) N E) as [C|C]; [left; exact C|].
  right. exact C.
Qed.
Lemma sha256_collide : zlen (added ops1) < 2 ^ 61 -> zlen (added ops2) < 2 ^ 61 -> result_of (sha256_obj fresh) ops1 = result_of (sha256_obj fresh) ops2 ->
  collision (sha2_compress p256) sha256_IV (chunks 64 (md_pad 64 8 to_be (added ops1))) (chunks 64 (md_pad 64 8 to_be (added ops2))).
Proof.
  intros H1 H2 E. apply (computes_same _ _ _ _ (sha256_computes fresh fresh_len) V1 V2) in E.
  destruct (md_collide 64 8 to_be eq_refl ltac:(lia) length_to_be (fun x y => to_be_inj' 8 8 x y eq_refl) list_dec (sha2_compress p256) (fun s => firstn 32 (concat (map (to_be 4) s))) sha256_IV
    (added ops1) (added ops2) ltac:(lia) ltac:(lia) N E) as [C|C]; [exact C|].
  revert C. apply (words_full_firstn to_be 4 8 (sha2_compress p256) _ _ _ (length_to_be 4) (to_be_inj 4)); [|apply iv_length].
  intros h b. exact (sha2_compress_ok p256 4 h b eq_refl).
Qed.
Lemma sha384_collide : zlen (added ops1) < 2 ^ 125 -> zlen (added ops2) < 2 ^ 125 -> result_of (sha384_obj fresh) ops1 = result_of (sha384_obj fresh) ops2 ->
  collision (sha2_compress p512) sha384_IV (chunks 128 (md_pad 128 16 to_be (added ops1))) (chunks 128 (md_pad 128 16 to_be (added ops2))) \/
  last_collision (sha2_compress p512) (fun s => firstn 48 (concat (map (to_be 8) s))) sha384_IV (chunks 128 (md_pad 128 16 to_be (added ops1))) (chunks 128 (md_pad 128 16 to_be (added ops2))).
Proof.
  intros H1 H2 E. apply (computes_same _ _ _ _ (sha384_computes fresh fresh_len) V1 V2) in E.
  destruct (md_collide 128 16 to_be eq_refl ltac:(lia) length_to_be (fun x y => to_be_inj' 16 16 x y eq_refl) list_dec (sha2_compress p512) (fun s => firstn 48 (concat (map (to_be 8) s))) sha384_IV
    (added ops1) (added ops2) ltac:(lia) ltac:(lia) N E) as [C|C]; [left; exact C|].
  right. exact C.
Qed.
Lemma sha512_collide : zlen (added ops1) < 2 ^ 125 -> zlen (added ops2) < 2 ^ 125 -> result_of (sha512_obj fresh) ops1 = result_of (sha512_obj fresh) ops2 ->
  collision (sha2_compress p512) sha512_IV (chunks 128 (md_pad 128 16 to_be (added ops1))) (chunks 128 (md_pad 128 16 to_be (added ops2))).
Proof.
  intros H1 H2 E. apply (computes_same _ _ _ _ (sha512_computes fresh fresh_len) V1 V2) in E.
  destruct (md_collide 128 16 to_be eq_refl ltac:(lia) length_to_be (fun x y => to_be_inj' 16 16 x y eq_refl) list_dec (sha2_compress p512) (fun s => firstn 64 (concat (map (to_be 8) s))) sha512_IV
    (added ops1) (added ops2) ltac:(lia) ltac:(lia) N E) as [C|C]; [exact C|].
  revert C. apply (words_full_firstn to_be 8 8 (sha2_compress p512) _ _ _ (length_to_be 8) (to_be_inj 8)); [|apply iv_length].
  intros h b. exact (sha2_compress_ok p512 8 h b eq_refl).
Qed.
End Objects.
