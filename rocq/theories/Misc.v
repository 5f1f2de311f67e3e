(* Proofs about string_equal and xor. *)
From Verif Require Import Prelude PreludeFacts BytesNum MiscModel.
Ltac Zify.zify_post_hook ::= Z.div_mod_to_equations.

(* ---- comparison ---- *)
Lemma lor_0 a b : Z.lor a b = 0 <-> a = 0 /\ b = 0.
Proof. apply Z.lor_eq_0_iff. Qed.

Definition trace_spec (l : Z) (i : Z) : list access :=
  flat_map (fun k => [(false, i + Z.of_nat k); (true, i + Z.of_nat k)]) (seq 0 (Z.to_nat (l - i))).

Lemma trace_spec_step l i : 0 <= i < l -> trace_spec l i = (false, i) :: (true, i) :: trace_spec l (i + 1).
Proof.
  intros H. unfold trace_spec. replace (Z.to_nat (l - i)) with (S (Z.to_nat (l - (i + 1)))) by lia.
  cbn [seq flat_map app]. rewrite Z.add_0_r. do 2 f_equal. rewrite <- seq_shift, flat_map_concat_map, map_map, <- flat_map_concat_map.
  apply flat_map_ext. intros k. replace (i + Z.of_nat (S k)) with (i + 1 + Z.of_nat k) by lia. reflexivity.
Qed.

Lemma bytes_get_nth l i : 0 <= i < zlen l -> bytes_get l i = Ret (nth (Z.to_nat i) l 0).
Proof. intros H. unfold bytes_get. replace ((0 <=? i) && (i <? zlen l)) with true by lia. reflexivity. Qed.

Lemma equal_loop_ok s1 s2 : zlen s1 = zlen s2 -> forall fuel i accu, 0 <= i <= zlen s1 -> (Z.to_nat (zlen s1 - i) < fuel)%nat ->
  exists b, equal_loop fuel (zlen s1) s1 s2 i accu = (trace_spec (zlen s1) i, Ret b) /\
  (b = true <-> accu = 0 /\ skipn (Z.to_nat i) s1 = skipn (Z.to_nat i) s2).
Proof.
  intros HL. induction fuel as [|f IH]; intros i accu Hi Hf; [lia|]. cbn [equal_loop].
  destruct (i >=? zlen s1) eqn:E.
  - exists (accu =? 0). unfold trace_spec. replace (Z.to_nat (zlen s1 - i)) with O by lia. split; [reflexivity|].
    unfold zlen in *. rewrite !skipn_all2 by lia. rewrite Z.eqb_eq. tauto.
  - rewrite !bytes_get_nth by lia.
    destruct (IH (i + 1) (Z.lor accu (Z.lxor (nth (Z.to_nat i) s1 0) (nth (Z.to_nat i) s2 0))) ltac:(lia) ltac:(lia)) as (b & -> & Hb).
    exists b. cbn [fst snd]. rewrite <- trace_spec_step by lia. split; [reflexivity|]. rewrite Hb, lor_0, Z.lxor_eq_0_iff.
    replace (Z.to_nat (i + 1)) with (S (Z.to_nat i)) by lia.
    assert (D : forall s : bytes, (Z.to_nat i < length s)%nat -> skipn (Z.to_nat i) s = nth (Z.to_nat i) s 0 :: skipn (S (Z.to_nat i)) s).
    { clear. induction (Z.to_nat i) as [|n IH]; intros [|c s] H; cbn in H; try lia; [reflexivity|]. cbn [skipn nth]. apply IH. lia. }
    unfold zlen in *. rewrite (D s1), (D s2) by lia. split; [intros ((? & ->) & ->)|intros (? & [=])]; auto.
Qed.

Lemma seq_equal_ok s1 s2 : exists b, snd (seq_equal s1 s2) = Ret b /\ (b = true <-> s1 = s2).
Proof.
  unfold seq_equal. destruct (zlen s1 =? zlen s2) eqn:E.
  - pose proof (zlen_nonneg s1).
    destruct (equal_loop_ok s1 s2 ltac:(lia) (S (length s1)) 0 0 ltac:(lia)) as (b & -> & Hb); [unfold zlen; lia|].
    exists b. split; [reflexivity|]. rewrite Hb. cbn [Z.to_nat skipn]. tauto.
  - exists false. split; [reflexivity|]. split; [discriminate|intros ->; lia].
Qed.

Lemma seq_equal_trace s1 s2 : fst (seq_equal s1 s2) = if zlen s1 =? zlen s2 then trace_spec (zlen s1) 0 else [].
Proof.
  unfold seq_equal. destruct (zlen s1 =? zlen s2) eqn:E; [|reflexivity]. pose proof (zlen_nonneg s1).
  destruct (equal_loop_ok s1 s2 ltac:(lia) (S (length s1)) 0 0 ltac:(lia)) as (b & -> & Hb); [unfold zlen; lia|]. reflexivity.
Qed.
Lemma seq_equal_constant_time s1 s2 t1 t2 : zlen s1 = zlen t1 -> zlen s2 = zlen t2 ->
  fst (seq_equal s1 s2) = fst (seq_equal t1 t2).
Proof. intros H1 H2. rewrite !seq_equal_trace, H1, H2. reflexivity. Qed.

(* ---- words and bytes ---- *)
Lemma lxor_split x y p q : byte_ok x -> byte_ok y -> 0 <= p -> 0 <= q ->
  Z.lxor (x + 256 * p) (y + 256 * q) = Z.lxor x y + 256 * Z.lxor p q.
Proof.
  intros Hx Hy Hp Hq. pose proof (lxor_byte x y Hx Hy) as Hxy. unfold byte_ok in *.
  assert (A : forall u v, 0 <= u < 256 -> u + 256 * v = Z.lor u (Z.shiftl v 8)).
  { intros u v Hu. rewrite Z.shiftl_mul_pow2 by lia. change (2 ^ 8) with 256.
    assert (L : Z.land u (v * 256) = 0).
    { apply Z.bits_inj'. intros n Hn. rewrite Z.land_spec, Z.bits_0. destruct (Z.lt_ge_cases n 8).
      - replace (v * 256) with (v * 2 ^ 8) by reflexivity. rewrite (Z.mul_pow2_bits_low v 8 n) by lia. apply andb_false_r.
      - rewrite (Z.bits_above_log2 u n); [reflexivity|lia|]. destruct (Z.eq_dec u 0) as [->|]; [cbn; lia|].
        apply Z.log2_lt_pow2; [lia|]. apply Z.lt_le_trans with (2 ^ 8); [cbn; lia|]. apply Z.pow_le_mono_r; lia. }
    rewrite <- Z.lxor_lor, <- Z.add_nocarry_lxor by exact L. lia. }
  rewrite !A by assumption. apply Z.bits_inj'. intros n Hn. rewrite Z.lxor_spec, !Z.lor_spec, !Z.shiftl_spec, !Z.lxor_spec by lia.
  destruct (Z.lt_ge_cases n 8).
  - rewrite !(Z.testbit_neg_r _ (n - 8)) by lia. rewrite !orb_false_r. reflexivity.
  - assert (B : forall u, 0 <= u < 256 -> Z.testbit u n = false).
    { intros u Hu. destruct (Z.eq_dec u 0) as [->|]; [apply Z.bits_0|]. apply Z.bits_above_log2; [lia|].
      apply Z.log2_lt_pow2; [lia|]. apply Z.lt_le_trans with (2 ^ 8); [cbn; lia|]. apply Z.pow_le_mono_r; lia. }
    rewrite !B by assumption. reflexivity.
Qed.
Lemma le_lxor a : forall b, length a = length b -> bytes_ok a -> bytes_ok b -> Z.lxor (le a) (le b) = le (xorb a b).
Proof.
  induction a as [|x a IH]; intros [|y b] HL Ha Hb; try discriminate; [reflexivity|].
  apply Forall_cons_iff in Ha, Hb. destruct Ha as (Hx & Ha), Hb as (Hy & Hb). injection HL as HL.
  rewrite xorb_cons. cbn [le]. rewrite lxor_split, IH; auto; apply le_bound; assumption.
Qed.

(* ---- xor ---- *)
Definition mem_ok (m : mem) : Prop := forall a, byte_ok (m a).

(* what the byte loop computes, overlapping or not *)
Definition xored (m m' : mem) (s d l : Z) : Prop := forall a,
  m' a = if (d <=? a) && (a <? d + l) then Z.lxor (m a) (if s <? d then m' (s + (a - d)) else m (s + (a - d))) else m a.

Fixpoint bytes_n (n : nat) (m : mem) (s d : Z) : mem :=
  match n with O => m | S n => bytes_n n (xor_byte m s d) (s + 1) (d + 1) end.

Lemma bytes_n_frame n : forall m s d a, ~ (d <= a < d + Z.of_nat n) -> bytes_n n m s d a = m a.
Proof.
  induction n as [|n IH]; intros m s d a Ha; [reflexivity|]. cbn [bytes_n]. rewrite IH by lia. unfold xor_byte, upd.
  replace (a =? d) with false by lia. reflexivity.
Qed.
Lemma bytes_n_xored n : forall m s d, xored m (bytes_n n m s d) s d (Z.of_nat n).
Proof.
  induction n as [|n IH]; intros m s d a.
  - replace ((d <=? a) && (a <? d + Z.of_nat 0)) with false by lia. reflexivity.
  - cbn [bytes_n]. destruct ((d <=? a) && (a <? d + Z.of_nat (S n))) eqn:E.
    + destruct (Z.eq_dec a d) as [->|Na].
      * rewrite bytes_n_frame by lia. unfold xor_byte at 1, upd at 1. rewrite Z.eqb_refl. rewrite Z.sub_diag, Z.add_0_r.
        destruct (s <? d) eqn:Es; [|reflexivity]. rewrite bytes_n_frame by lia. unfold xor_byte, upd. replace (s =? d) with false by lia. reflexivity.
      * rewrite (IH (xor_byte m s d) (s + 1) (d + 1) a). replace ((d + 1 <=? a) && (a <? d + 1 + Z.of_nat n)) with true by lia.
        replace (s + 1 <? d + 1) with (s <? d) by lia. replace (s + 1 + (a - (d + 1))) with (s + (a - d)) by lia.
        assert (F : forall x, x <> d -> xor_byte m s d x = m x) by (intros x Hx; unfold xor_byte, upd; replace (x =? d) with false by lia; reflexivity).
        rewrite (F a) by lia. destruct (s <? d) eqn:Es; [reflexivity|]. rewrite F by lia. reflexivity.
    + rewrite bytes_n_frame by lia. unfold xor_byte, upd. replace (a =? d) with false by lia. reflexivity.
Qed.
Lemma bytes_n_ok n : forall m s d, mem_ok m -> mem_ok (bytes_n n m s d).
Proof.
  induction n as [|n IH]; intros m s d H; [exact H|]. cbn [bytes_n]. apply IH. intros a. unfold xor_byte, upd.
  destruct (a =? d); [apply lxor_byte; apply H|apply H].
Qed.
Lemma bytes_n_add n k : forall m s d, bytes_n (n + k) m s d = bytes_n k (bytes_n n m s d) (s + Z.of_nat n) (d + Z.of_nat n).
Proof.
  induction n as [|n IH]; intros m s d; cbn [Nat.add bytes_n]; [rewrite !Z.add_0_r; reflexivity|].
  rewrite IH. f_equal; lia.
Qed.

Lemma store_at l : forall m d a, store m d l a = if (d <=? a) && (a <? d + zlen l) then nth (Z.to_nat (a - d)) l 0 else m a.
Proof.
  induction l as [|c l IH]; intros m d a; cbn [store].
  - change (zlen (@nil Z)) with 0. replace ((d <=? a) && (a <? d + 0)) with false by lia. reflexivity.
  - rewrite IH, zlen_cons. unfold upd. pose proof (zlen_nonneg l). destruct (a =? d) eqn:E.
    + replace ((d + 1 <=? a) && (a <? d + 1 + zlen l)) with false by lia. replace ((d <=? a) && (a <? d + (1 + zlen l))) with true by lia.
      replace (Z.to_nat (a - d)) with O by lia. reflexivity.
    + replace ((d + 1 <=? a) && (a <? d + 1 + zlen l)) with ((d <=? a) && (a <? d + (1 + zlen l))) by lia.
      destruct ((d <=? a) && (a <? d + (1 + zlen l))) eqn:E2; [|reflexivity]. replace (Z.to_nat (a - d)) with (S (Z.to_nat (a - (d + 1)))) by lia. reflexivity.
Qed.
(* functional extensionality is avoided: memories are compared pointwise *)
Definition meq (m m' : mem) : Prop := forall a, m a = m' a.
Lemma bytes_n_meq n : forall m m' s d, meq m m' -> meq (bytes_n n m s d) (bytes_n n m' s d).
Proof.
  induction n as [|n IH]; intros m m' s d H; [exact H|]. cbn [bytes_n]. apply IH. intros a. unfold xor_byte, upd. rewrite !H. reflexivity.
Qed.
Lemma xor_word_bytes m s d : mem_ok m -> (s - d) mod 8 = 0 -> meq (xor_word m s d) (bytes_n 8 m s d).
Proof.
  intros Hm Ha a. unfold xor_word, load8.
  rewrite le_lxor; [|reflexivity|repeat constructor; apply Hm|repeat constructor; apply Hm].
  set (L := xorb _ _). assert (HLL : L = map (fun i => Z.lxor (m (d + i)) (m (s + i))) [0; 1; 2; 3; 4; 5; 6; 7]) by reflexivity.
  assert (HL : bytes_ok L) by (rewrite HLL; repeat constructor; apply lxor_byte; apply Hm).
  change 8%nat with (length L) at 1. rewrite to_le_le by exact HL. rewrite store_at.
  rewrite (bytes_n_xored 8 m s d a). change (zlen L) with 8. change (Z.of_nat 8) with 8.
  destruct ((d <=? a) && (a <? d + 8)) eqn:E; [|reflexivity].
  assert (HS : (if s <? d then bytes_n 8 m s d (s + (a - d)) else m (s + (a - d))) = m (s + (a - d))).
  { destruct (s <? d) eqn:Es; [|reflexivity]. apply bytes_n_frame. lia. }
  rewrite HS, HLL. clear HLL HS HL L. assert (C : a - d = 0 \/ a - d = 1 \/ a - d = 2 \/ a - d = 3 \/ a - d = 4 \/ a - d = 5 \/ a - d = 6 \/ a - d = 7) by lia.
  assert (Ea : a = d + (a - d)) by lia. rewrite Ea at 2.
  repeat destruct C as [C|C]; rewrite C; reflexivity.
Qed.

Lemma byte_loop_ok fuel : forall m s d l, (Z.to_nat l < fuel)%nat -> byte_loop fuel m s d l = Some (bytes_n (Z.to_nat l) m s d).
Proof.
  induction fuel as [|f IH]; intros m s d l Hf; [lia|]. cbn [byte_loop]. destruct (l >? 0) eqn:E.
  - rewrite IH by lia. replace (Z.to_nat l) with (S (Z.to_nat (l - 1))) by lia. reflexivity.
  - replace (Z.to_nat l) with O by lia. reflexivity.
Qed.
Lemma align_loop_ok fuel : forall m s d l, 0 <= l -> (Z.to_nat l < fuel)%nat -> exists k, 0 <= k <= l /\
  align_loop fuel m s d l = Some (bytes_n (Z.to_nat k) m s d, s + k, d + k, l - k).
Proof.
  induction fuel as [|f IH]; intros m s d l Hl Hf; [lia|]. cbn [align_loop]. destruct (negb (s mod 8 =? 0) && (l >? 0)) eqn:E.
  - destruct (IH (xor_byte m s d) (s + 1) (d + 1) (l - 1) ltac:(lia) ltac:(lia)) as (k & Hk & ->). exists (k + 1). split; [lia|].
    replace (Z.to_nat (k + 1)) with (S (Z.to_nat k)) by lia. cbn [bytes_n]. do 2 f_equal; [f_equal; [f_equal|]|]; lia.
  - exists 0. split; [lia|]. cbn [Z.to_nat bytes_n]. rewrite !Z.add_0_r, Z.sub_0_r. reflexivity.
Qed.
Lemma word_loop_ok fuel : forall m s d l, mem_ok m -> (s - d) mod 8 = 0 -> 0 <= l -> (Z.to_nat l < fuel)%nat -> exists k m', 0 <= k <= l /\
  word_loop fuel m s d l = Some (m', s + k, d + k, l - k) /\ meq m' (bytes_n (Z.to_nat k) m s d).
Proof.
  induction fuel as [|f IH]; intros m s d l Hm Ha Hl Hf; [lia|]. cbn [word_loop]. destruct (l >=? 8) eqn:E.
  - pose proof (xor_word_bytes m s d Hm Ha) as W.
    destruct (IH (xor_word m s d) (s + 8) (d + 8) (l - 8)) as (k & m' & Hk & -> & Hq); [|replace (s + 8 - (d + 8)) with (s - d) by lia; exact Ha|lia|lia|].
    { intros a. rewrite W. apply bytes_n_ok. exact Hm. }
    exists (k + 8), m'. split; [lia|]. split; [do 2 f_equal; [f_equal; [f_equal|]|]; lia|].
    replace (Z.to_nat (k + 8)) with (8 + Z.to_nat k)%nat by lia. rewrite bytes_n_add.
    intros a. rewrite Hq. apply bytes_n_meq. exact W.
  - exists 0, m. split; [lia|]. split; [rewrite !Z.add_0_r, Z.sub_0_r; reflexivity|]. intros a. reflexivity.
Qed.

Lemma caml_xor_ok m s d l : mem_ok m -> 0 <= l ->
  exists m', caml_xor_string m s d l = Some m' /\ meq m' (bytes_n (Z.to_nat l) m s d).
Proof.
  intros Hm Hl. unfold caml_xor_string. destruct ((l >=? 64) && (s mod 8 =? d mod 8)) eqn:E.
  - destruct (align_loop_ok (S (Z.to_nat l)) m s d l Hl ltac:(lia)) as (k1 & Hk1 & ->).
    destruct (word_loop_ok (S (Z.to_nat l)) (bytes_n (Z.to_nat k1) m s d) (s + k1) (d + k1) (l - k1)) as (k2 & m2 & Hk2 & -> & Hq);
      [apply bytes_n_ok; exact Hm|lia|lia|lia|].
    rewrite byte_loop_ok by lia. eexists. split; [reflexivity|].
    replace (Z.to_nat l) with (Z.to_nat k1 + (Z.to_nat k2 + Z.to_nat (l - k1 - k2)))%nat by lia. rewrite !bytes_n_add.
    rewrite !Z2Nat.id by lia. apply bytes_n_meq. exact Hq.
  - rewrite byte_loop_ok by lia. eexists. split; [reflexivity|]. intros a. reflexivity.
Qed.

Lemma api_xor_ok m src slen so dst dlen d len : mem_ok m -> 0 <= slen -> 0 <= dlen ->
  (0 <= len /\ 0 <= so /\ so + len <= slen /\ 0 <= d /\ d + len <= dlen ->
   exists m', api_xor m src slen so dst dlen d len = (m', Ret tt) /\ xored m m' (src + so) (dst + d) len) /\
  (~ (0 <= len /\ 0 <= so /\ so + len <= slen /\ 0 <= d /\ d + len <= dlen) ->
   api_xor m src slen so dst dlen d len = (m, Raise Invalid_argument)).
Proof.
  intros Hm Hs Hd. unfold api_xor. split; intros H.
  - replace ((len <? 0) || (so <? 0) || (so >? slen - len) || (d <? 0) || (d >? dlen - len)) with false by lia.
    destruct (caml_xor_ok m (src + so) (dst + d) len Hm ltac:(lia)) as (m' & -> & Hq). exists m'. split; [reflexivity|].
    intros a. rewrite !Hq. rewrite (bytes_n_xored (Z.to_nat len) m (src + so) (dst + d) a). rewrite Z2Nat.id by lia.
    destruct ((dst + d <=? a) && (a <? dst + d + len)); reflexivity.
  - replace ((len <? 0) || (so <? 0) || (so >? slen - len) || (d <? 0) || (d >? dlen - len)) with true by lia. reflexivity.
Qed.

(* two different strings, or the same one at the same offset: plain xor *)
Lemma api_xor_disjoint m src slen so dst dlen d len : mem_ok m -> 0 <= slen -> 0 <= dlen ->
  0 <= len -> 0 <= so -> so + len <= slen -> 0 <= d -> d + len <= dlen ->
  (src + slen <= dst \/ dst + dlen <= src \/ src + so = dst + d) ->
  exists m', api_xor m src slen so dst dlen d len = (m', Ret tt) /\
    (forall i, 0 <= i < len -> m' (dst + d + i) = Z.lxor (m (dst + d + i)) (m (src + so + i))) /\
    (forall a, ~ (dst + d <= a < dst + d + len) -> m' a = m a).
Proof.
  intros Hm Hs Hd H1 H2 H3 H4 H5 HD. destruct (api_xor_ok m src slen so dst dlen d len Hm Hs Hd) as (A & _).
  destruct A as (m' & -> & X); [lia|]. exists m'. split; [reflexivity|].
  assert (F : forall a, ~ (dst + d <= a < dst + d + len) -> m' a = m a).
  { intros a Ha. rewrite (X a). replace ((dst + d <=? a) && (a <? dst + d + len)) with false by lia. reflexivity. }
  split; [|exact F]. intros i Hi. rewrite (X (dst + d + i)). replace ((dst + d <=? dst + d + i) && (dst + d + i <? dst + d + len)) with true by lia.
  replace (src + so + (dst + d + i - (dst + d))) with (src + so + i) by lia.
  destruct (src + so <? dst + d) eqn:E; [|reflexivity]. rewrite F by lia. reflexivity.
Qed.
