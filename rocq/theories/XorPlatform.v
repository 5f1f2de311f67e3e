(* Proofs: xor on every machine. *)
From Verif Require Import Prelude PreludeFacts BytesNum SpecPlatform PlatformModel PlatformApi MiscModel Misc XorPlatformModel.

Lemma xorb_rev a : forall b, length a = length b -> xorb (rev a) (rev b) = rev (xorb a b).
Proof.
  assert (forall a b x y, length a = length b -> xorb (a ++ [x]) (b ++ [y]) = xorb a b ++ [Z.lxor x y]) as A.
  { clear a. induction a as [|u a IH]; intros [|v b] x y H; try discriminate H; [reflexivity|]. cbn [app]. unfold xorb in *. cbn [combine map app]. f_equal. apply (IH b x y). cbn in H; lia. }
  induction a as [|x a IH]; intros [|y b] H; try discriminate H; [reflexivity|]. cbn [rev]. rewrite A by (rewrite !rev_length; cbn in H; lia).
  rewrite IH by (cbn in H; lia). reflexivity.
Qed.
Lemma bytes_ok_rev l : bytes_ok l -> bytes_ok (rev l).
Proof. intros H. apply Forall_rev. exact H. Qed.
Lemma xor_word_on_same p m s d : mem_ok m -> xor_word_on p m s d = xor_word m s d.
Proof.
  intros Hm. unfold xor_word_on, xor_word, load8_on, load8, host_read, host_write. destruct (p_order p); [reflexivity|].
  f_equal. set (A := map (fun i => m (d + i)) _). set (B := map (fun i => m (s + i)) _).
  assert (bytes_ok A) as HA by (repeat constructor; apply Hm). assert (bytes_ok B) as HB by (repeat constructor; apply Hm).
  assert (bytes_ok (xorb A B)) as HX by (cbn; repeat constructor; apply lxor_byte; apply Hm).
  unfold be, to_be. rewrite le_lxor by (rewrite ?rev_length; auto using bytes_ok_rev). rewrite (le_lxor A B) by auto.
  rewrite xorb_rev by reflexivity. change 8%nat with (length (xorb A B)). rewrite to_le_le by exact HX.
  rewrite <- (rev_length (xorb A B)), to_le_le by (apply bytes_ok_rev; exact HX). apply rev_involutive.
Qed.
Lemma word_loop_on_same p fuel : forall m s d l, mem_ok m -> (s - d) mod 8 = 0 -> word_loop_on p fuel m s d l = word_loop fuel m s d l.
Proof.
  induction fuel as [|f IH]; intros m s d l Hm Ha; [reflexivity|]. cbn [word_loop_on word_loop]. destruct (l >=? 8); [|reflexivity].
  rewrite xor_word_on_same by exact Hm. apply IH; [|replace (s + 8 - (d + 8)) with (s - d) by lia; exact Ha].
  intros a. rewrite (xor_word_bytes m s d Hm Ha). apply bytes_n_ok. exact Hm.
Qed.
Lemma caml_xor_on_same p m s d len : mem_ok m -> caml_xor_string_on p m s d len = caml_xor_string m s d (to_long p len).
Proof.
  intros Hm. unfold caml_xor_string_on, caml_xor_string. set (l := to_long p len). destruct ((l >=? 64) && (s mod 8 =? d mod 8)) eqn:E; [|reflexivity].
  destruct (align_loop_ok (S (Z.to_nat l)) m s d l ltac:(lia) ltac:(lia)) as (k & Hk & ->).
  rewrite word_loop_on_same; [reflexivity|apply bytes_n_ok; exact Hm|]. lia.
Qed.
Definition valid_ranges (slen so dlen d len : Z) : Prop := 0 <= len /\ 0 <= so /\ so + len <= slen /\ 0 <= d /\ d + len <= dlen.
Lemma xor_on_exact p m src slen so dst dlen d len : platform_ok p -> mem_ok m -> 0 <= slen -> 0 <= dlen ->
  (valid_ranges slen so dlen d len ->
   exists m', api_xor_on p m src slen so dst dlen d len = (m', Ret tt) /\ xored m m' (src + so) (dst + d) (iterations (p_long p) len)) /\
  (~ valid_ranges slen so dlen d len -> api_xor_on p m src slen so dst dlen d len = (m, Raise Invalid_argument)).
Proof.
  intros Hp Hm Hs Hd. unfold valid_ranges, api_xor_on. split; intros H.
  - replace ((len <? 0) || (so <? 0) || (so >? slen - len) || (d <? 0) || (d >? dlen - len)) with false by lia.
    rewrite caml_xor_on_same by exact Hm. change (to_long p len) with (signed (p_long p) len). unfold iterations. set (l := signed (p_long p) len).
    destruct (Z.le_gt_cases 0 l) as [Hl|Hl].
    + rewrite Z.max_r by lia. destruct (caml_xor_ok m (src + so) (dst + d) l Hm Hl) as (m' & -> & Hq). exists m'. split; [reflexivity|].
      intros a. rewrite !Hq. rewrite (bytes_n_xored (Z.to_nat l) m (src + so) (dst + d) a). rewrite Z2Nat.id by lia.
      destruct ((dst + d <=? a) && (a <? dst + d + l)); reflexivity.
    + rewrite Z.max_l by lia. unfold caml_xor_string. replace (l >=? 64) with false by lia. cbn [andb]. cbn [byte_loop]. replace (l >? 0) with false by lia.
      exists m. split; [reflexivity|]. intros a. replace ((dst + d <=? a) && (a <? dst + d + 0)) with false by lia. reflexivity.
  - replace ((len <? 0) || (so <? 0) || (so >? slen - len) || (d <? 0) || (d >? dlen - len)) with true by lia. reflexivity.
Qed.
Lemma xor_on_short p m src slen so dst dlen d len : platform_ok p -> mem_ok m -> 0 <= slen -> 0 <= dlen -> valid_ranges slen so dlen d len -> len < 2 ^ (p_long p - 1) ->
  exists m', api_xor_on p m src slen so dst dlen d len = (m', Ret tt) /\ xored m m' (src + so) (dst + d) len.
Proof.
  intros Hp Hm Hs Hd Hv Hl. destruct (xor_on_exact p m src slen so dst dlen d len Hp Hm Hs Hd) as (H & _). destruct (H Hv) as (m' & E & X).
  exists m'. split; [exact E|]. rewrite signed_small in X; [exact X| |unfold valid_ranges in Hv; lia]. destruct Hp as [-> | ->]; lia.
Qed.
Lemma xor_on_nothing : exists src slen so dst dlen d len, valid_ranges slen so dlen d len /\ slen <= max_string_length /\ dlen <= max_string_length /\ src + slen <= dst /\
  (forall m, (forall a, dst + d <= a < dst + d + len -> m (src + so + (a - dst - d)) = 1) -> ~ xored m m (src + so) (dst + d) len) /\
  forall e m, mem_ok m -> exists m', api_xor_on (Platform e 32) m src slen so dst dlen d len = (m', Ret tt) /\ forall a, m' a = m a.
Proof.
  exists 0, (2 ^ 31), 0, (2 ^ 31), (2 ^ 31), 0, (2 ^ 31). split; [unfold valid_ranges; lia|]. split; [unfold max_string_length; lia|]. split; [unfold max_string_length; lia|]. split; [lia|]. split.
  - intros m H X. specialize (X (2 ^ 31)). replace ((2 ^ 31 + 0 <=? 2 ^ 31) && (2 ^ 31 <? 2 ^ 31 + 0 + 2 ^ 31)) with true in X by lia.
    replace (0 + 0 <? 2 ^ 31 + 0) with true in X by lia. specialize (H (2 ^ 31) ltac:(lia)). replace (0 + 0 + (2 ^ 31 - 2 ^ 31 - 0)) with 0 in H by lia.
    replace (0 + 0 + (2 ^ 31 - (2 ^ 31 + 0))) with 0 in X by lia. rewrite H in X. set (x := m (2 ^ 31)) in *. clearbody x.
    apply (f_equal (Z.lxor x)) in X. rewrite <- Z.lxor_assoc, Z.lxor_nilpotent, Z.lxor_0_l in X. discriminate X.
  - intros e m Hm. destruct (xor_on_exact (Platform e 32) m 0 (2 ^ 31) 0 (2 ^ 31) (2 ^ 31) 0 (2 ^ 31) (or_introl eq_refl) Hm ltac:(lia) ltac:(lia)) as (H & _).
    destruct (H ltac:(unfold valid_ranges; lia)) as (m' & E & X). exists m'. split; [exact E|]. intros a. specialize (X a). change (iterations (p_long (Platform e 32)) (2 ^ 31)) with 0 in X.
    replace ((2 ^ 31 + 0 <=? a) && (a <? 2 ^ 31 + 0 + 0)) with false in X by lia. exact X.
Qed.
