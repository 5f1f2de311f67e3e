(* BLAKE3: the compression function, chunks. *)
From Verif Require Import Prelude PreludeFacts BytesNum SpecBlock BlockTotal Word WordIO SpecHash HashModel HashSpec HashFacts MdModel MdHash ShaModel Sha KeccakModel Keccak
  SpecBlake2 Blake2Model Blake2 SpecBlake3 Blake3Model.

Definition quads : list (nat * nat * nat * nat) :=
  [(0, 4, 8, 12); (1, 5, 9, 13); (2, 6, 10, 14); (3, 7, 11, 15); (0, 5, 10, 15); (1, 6, 11, 12); (2, 7, 8, 13); (3, 4, 9, 14)]%nat.
Notation MIX := (MIX2 32 16 12 8 7).
Ltac lanes16 v := do 16 (let a := fresh "v" in destruct v as [|a v]; [discriminate|]); destruct v; [|discriminate].
Lemma kget_kput_same v i x : (i < length v)%nat -> kget (kput v i x) i = x.
Proof. intros H. unfold kget. rewrite kput_nth by assumption. rewrite Nat.eqb_refl. reflexivity. Qed.
Lemma kget_kput_other v i j x : (i < length v)%nat -> i <> j -> kget (kput v i x) j = kget v j.
Proof. intros H Hn. unfold kget. rewrite kput_nth by assumption. destruct (Nat.eqb_spec j i); [congruence|reflexivity]. Qed.
Lemma kput_twice v i x y : (i < length v)%nat -> kput (kput v i x) i y = kput v i y.
Proof.
  intros H. unfold kput. rewrite firstn_app, firstn_firstn, firstn_length, !Nat.min_l by lia.
  replace (i - i)%nat with 0%nat by lia. rewrite firstn_O, app_nil_r. f_equal. f_equal.
  rewrite skipn_app, firstn_length, Nat.min_l by lia. rewrite (skipn_all2 (firstn i v)) by (rewrite firstn_length; lia).
  replace (S i - i)%nat with 1%nat by lia. reflexivity.
Qed.
Lemma kput_comm v i j x y : (i < length v)%nat -> (j < length v)%nat -> i <> j -> kput (kput v i x) j y = kput (kput v j y) i x.
Proof.
  intros Hi Hj Hn. apply (nth_ext _ _ 0 0); [rewrite !kput_length; rewrite ?kput_length; auto|].
  intros k _. rewrite !kput_nth by (rewrite ?kput_length; auto).
  destruct (Nat.eqb_spec k i), (Nat.eqb_spec k j); congruence.
Qed.

Section G.
Variables a b c d n : nat.
Hypothesis Ha : (a < n)%nat.
Hypothesis Hb : (b < n)%nat.
Hypothesis Hc : (c < n)%nat.
Hypothesis Hd : (d < n)%nat.
Hypothesis Hab : a <> b.
Hypothesis Hac : a <> c.
Hypothesis Had : a <> d.
Hypothesis Hbc : b <> c.
Hypothesis Hbd : b <> d.
Hypothesis Hcd : c <> d.
Definition put4 (v : list Z) (q : Z * Z * Z * Z) : list Z :=
  let '(A, B, C, D) := q in kput (kput (kput (kput v a A) b B) c C) d D.
Ltac len := match goal with |- context [length (kput ?v ?i ?x)] => rewrite (kput_length v i x); len | _ => lia end.
Lemma put4_length v q : length v = n -> length (put4 v q) = n.
Proof. intros Hl. destruct q as [[[A B] C] D]. unfold put4. len. Qed.
Lemma put4_get v A B C D : length v = n -> kget (put4 v (A, B, C, D)) a = A /\ kget (put4 v (A, B, C, D)) b = B /\
  kget (put4 v (A, B, C, D)) c = C /\ kget (put4 v (A, B, C, D)) d = D.
Proof.
  intros Hl. unfold put4. splits.
  - rewrite !kget_kput_other by (try len; congruence). apply kget_kput_same; lia.
  - rewrite !kget_kput_other by (try len; congruence). apply kget_kput_same; len.
  - rewrite !kget_kput_other by (try len; congruence). apply kget_kput_same; len.
  - apply kget_kput_same; len.
Qed.
Lemma put4_put4 v q q' : length v = n -> put4 (put4 v q) q' = put4 v q'.
Proof.
  intros Hl. destruct q as [[[A B] C] D], q' as [[[A' B'] C'] D']. unfold put4.
  rewrite (kput_comm _ d a) by (len || congruence). rewrite (kput_comm _ c a) by (len || congruence). rewrite (kput_comm _ b a) by (len || congruence). rewrite (kput_twice v a) by len.
  rewrite (kput_comm _ d b) by (len || congruence). rewrite (kput_comm _ c b) by (len || congruence). rewrite (kput_twice _ b) by len.
  rewrite (kput_comm _ d c) by (len || congruence). rewrite (kput_twice _ c) by len. rewrite (kput_twice _ d) by len. reflexivity.
Qed.
Definition half_vals (q : Z * Z * Z * Z) (x r1 r2 : Z) : Z * Z * Z * Z :=
  let '(A, B, C, D) := q in
  let A := c_add 32 (c_add 32 A B) x in
  let D := c_ror 32 (Z.lxor D A) r1 in
  let C := c_add 32 C D in
  let B := c_ror 32 (Z.lxor B C) r2 in
  (A, B, C, D).
Lemma half_ok v x r1 r2 : length v = n -> b3_half_g v a b c d x r1 r2 = put4 v (half_vals (kget v a, kget v b, kget v c, kget v d) x r1 r2).
Proof.
  intros Hl. unfold b3_half_g, half_vals, put4. cbv zeta.
  set (A := c_add 32 (c_add 32 (kget v a) (kget v b)) x).
  rewrite (kget_kput_same v a A) by lia. rewrite (kget_kput_other v a d A) by (lia || congruence).
  set (D := c_ror 32 (Z.lxor (kget v d) A) r1).
  rewrite (kget_kput_same (kput v a A) d D) by len. rewrite (kget_kput_other (kput v a A) d c D) by (len || congruence).
  rewrite (kget_kput_other v a c A) by (lia || congruence).
  set (C := c_add 32 (kget v c) D).
  rewrite (kget_kput_same (kput (kput v a A) d D) c C) by len. rewrite (kget_kput_other (kput (kput v a A) d D) c b C) by (len || congruence).
  rewrite (kget_kput_other (kput v a A) d b D) by (len || congruence). rewrite (kget_kput_other v a b A) by (lia || congruence).
  set (B := c_ror 32 (Z.lxor (kget v b) C) r2).
  apply (nth_ext _ _ 0 0); [len|]. intros k _. rewrite !kput_nth by len.
  destruct (Nat.eqb_spec k a), (Nat.eqb_spec k b), (Nat.eqb_spec k c), (Nat.eqb_spec k d); congruence.
Qed.
Lemma half_half A B C D x y : half_vals (half_vals (A, B, C, D) x 16 12) y 8 7 = MIX2_vals 32 16 12 8 7 A B C D x y.
Proof.
  assert (E : forall p q r, c_add 32 (c_add 32 p q) r = c_add 32 p (c_add 32 q r)) by (intros; rewrite c_add_add, c_add_add_r; reflexivity).
  unfold half_vals, MIX2_vals. rewrite (E A B x). cbv zeta. set (A1 := c_add 32 A (c_add 32 B x)).
  set (D1 := c_ror 32 (Z.lxor D A1) 16). set (C1 := c_add 32 C D1). set (B1 := c_ror 32 (Z.lxor B C1) 12). rewrite (E A1 B1 y). reflexivity.
Qed.
Lemma g_MIX_gen v x y : length v = n -> b3_g v a b c d x y = MIX v a b c d x y /\ length (MIX v a b c d x y) = n.
Proof.
  intros Hl. unfold b3_g. rewrite (half_ok v) by assumption.
  set (q := half_vals _ x 16 12). destruct q as [[[A B] C] D] eqn:Eq. rewrite half_ok by (apply put4_length; assumption).
  destruct (put4_get v A B C D Hl) as (-> & -> & -> & ->). rewrite put4_put4 by assumption. subst q.
  assert (E : MIX v a b c d x y = put4 v (half_vals (half_vals (kget v a, kget v b, kget v c, kget v d) x 16 12) y 8 7)).
  { rewrite half_half. unfold MIX2, put4. reflexivity. }
  rewrite E, Eq. split; [reflexivity|]. apply put4_length. assumption.
Qed.
End G.
Lemma g_MIX v a b c d x y : In (a, b, c, d) quads -> length v = 16%nat -> b3_g v a b c d x y = MIX v a b c d x y /\ length (MIX v a b c d x y) = 16%nat.
Proof.
  intros Hq Hl. unfold quads in Hq. cbn [In] in Hq.
  repeat (destruct Hq as [E|Hq]; [injection E as <- <- <- <-; apply g_MIX_gen; lia|]). destruct Hq.
Qed.

Definition sched (r : nat) (m : list Z) : list Z := map (fun i => nth i m 0) (nth r MSG_SCHEDULE []).
Lemma round_fn_mix v m r : (r < 7)%nat -> length v = 16%nat ->
  round_fn v m r = mix_round 32 16 12 8 7 (sched r m) v 0.
Proof.
  intros Hr Hv.
  assert (Hs : forall j, (j < 16)%nat -> nth (nth j (nth 0 BLAKE2_sigma []) 0%nat) (sched r m) 0 = nth (nth j (nth r MSG_SCHEDULE []) 0%nat) m 0).
  { intros j Hj. do 16 (destruct j as [|j]; [do 7 (destruct r as [|r]; [reflexivity|]); lia|]). lia. }
  unfold round_fn, mix_round. cbv zeta. rewrite !Hs by lia.
  Local Ltac gstep := 
    match goal with |- context [b3_g ?v ?a ?b ?c ?d ?x ?y] =>
      lazymatch v with context [b3_g] => fail | _ => idtac end;
      let E := fresh "E" in let L := fresh "L" in
      destruct (g_MIX v a b c d x y) as (E & L); [unfold quads; cbn [In]; tauto|assumption|]; rewrite E; clear E
    end.
  do 8 gstep. reflexivity.
Qed.
Lemma sched_S r m : (r < 6)%nat -> b3_permute (sched r m) = sched (S r) m.
Proof. intros Hr. do 6 (destruct r as [|r]; [reflexivity|]). lia. Qed.
Lemma sched_0 m : length m = 16%nat -> sched 0 m = m.
Proof. intros Hm. lanes16 m. reflexivity. Qed.

Definition okw (n : nat) (l : list Z) : Prop := length l = n /\ Forall (word_ok 32) l.
Lemma b3_round_ok m v : okw 16 v ->
  mix_round 32 16 12 8 7 m v 0 = b_round blake2s_params m v 0 /\ okw 16 (b_round blake2s_params m v 0).
Proof.
  intros Hv. unfold blake2s_params. rewrite iv2s_ok.
  apply (round_ok 32 4 10 16 12 8 7 blake2s_iv); try lia; try assumption; try reflexivity.
Qed.
Lemma b3_rounds_ok m : forall n r v, (r + n = 7)%nat -> okw 16 v ->
  fold_left (fun v i => round_fn v m i) (seq r n) v = b3_rounds n (sched r m) v /\ okw 16 (b3_rounds n (sched r m) v).
Proof.
  induction n as [|n IH]; intros r v Hr Hv; [split; [reflexivity|assumption]|]. cbn [b3_rounds]. rewrite fold_seq_S.
  rewrite (round_fn_mix v m r); [|lia|apply Hv]. destruct (b3_round_ok (sched r m) v Hv) as (-> & Hv').
  destruct n as [|n]; [cbn [seq fold_left b3_rounds]; split; [reflexivity|assumption]|].
  rewrite sched_S by lia. apply IH; [lia|assumption].
Qed.

Lemma fold7 {T} (f : T -> nat -> T) v : fold_left f (seq 0 7) v = (f (f (f (f (f (f (f v 0) 1) 2) 3) 4) 5) 6)%nat.
Proof. reflexivity. Qed.
Lemma load_words32_ok n b : length b = (n * 4)%nat -> bytes_ok b -> load_words32 n b = le_words 4 b.
Proof. intros Hl Hb. unfold load_words32. exact (words_load 32 4 n b ltac:(lia) ltac:(lia) Hl Hb). Qed.
Lemma store_words32_ok ws : store_words32 ws = concat (map (to_le 4) ws).
Proof.
  unfold store_words32. f_equal. apply map_ext. intros x. cbn [map to_le]. unfold c_shr. rewrite !Z.shiftr_div_pow2 by lia.
  change (8 * 0) with 0. change (8 * 1) with 8. change (8 * 2) with 16. change (8 * 3) with 24.
  rewrite !Zdiv.Zdiv_Zdiv by lia. rewrite Z.pow_0_r, Z.div_1_r. reflexivity.
Qed.
Lemma iv_ok i : (i < 4)%nat -> kget B3_IV i = b3_iv i /\ word_ok 32 (b3_iv i).
Proof.
  intros Hi. unfold b3_iv, blake2s_params. cbn [b_IV]. rewrite iv2s_ok.
  do 4 (destruct i as [|i]; [split; [reflexivity|unfold word_ok; cbn [nth blake2s_iv]; lia]|]). lia.
Qed.

Lemma pre_ok cv blk len t flags : okw 8 cv -> zlen blk = 64 -> bytes_ok blk -> word_ok 32 len -> word_ok 32 flags -> 0 <= t ->
  compress_pre cv blk len (t mod 2 ^ 64) flags =
    b3_rounds 7 (le_words 4 blk) (cv ++ [b3_iv 0; b3_iv 1; b3_iv 2; b3_iv 3; t mod 2 ^ 32; (t / 2 ^ 32) mod 2 ^ 32; len; flags])
  /\ okw 16 (compress_pre cv blk len (t mod 2 ^ 64) flags).
Proof.
  intros (Hl & Hf) Hz Hb Hlen Hfl Ht. unfold compress_pre.
  assert (Hlb : length blk = (16 * 4)%nat) by (unfold zlen in Hz; lia).
  rewrite load_words32_ok by assumption.
  assert (E1 : (t mod 2 ^ 64) mod 2 ^ 32 = t mod 2 ^ 32) by (rewrite <- Znumtheory.Zmod_div_mod; [reflexivity|lia|lia|exists (2 ^ 32); reflexivity]).
  assert (E2 : c_shr (t mod 2 ^ 64) 32 mod 2 ^ 32 = (t / 2 ^ 32) mod 2 ^ 32).
  { unfold c_shr. rewrite Z.shiftr_div_pow2 by lia. change (2 ^ 64) with (2 ^ 32 * 2 ^ 32). rewrite Z.rem_mul_r by lia.
    rewrite (Z.mul_comm (2 ^ 32)), Z.div_add by lia. rewrite (Z.div_small (t mod 2 ^ 32)) by (apply Z.mod_pos_bound; lia). rewrite Z.add_0_l, Z.mod_mod by lia. reflexivity. }
  rewrite E1, E2.
  destruct cv as [|c0 [|c1 [|c2 [|c3 [|c4 [|c5 [|c6 [|c7 [|]]]]]]]]]; try discriminate. words.
  destruct (iv_ok 0 ltac:(lia)) as (-> & ?). destruct (iv_ok 1 ltac:(lia)) as (-> & ?). destruct (iv_ok 2 ltac:(lia)) as (-> & ?). destruct (iv_ok 3 ltac:(lia)) as (-> & ?).
  unfold kget. cbn [nth app]. set (v := [c0; _; _; _; _; _; _; _; _; _; _; _; _; _; _; _]).
  assert (Hv : okw 16 v).
  { split; [reflexivity|]. unfold v. repeat (apply Forall_cons; [first [assumption | apply word_ok_mod; lia]|]). constructor. }
  clearbody v. set (m := le_words 4 blk).
  assert (Hm : length m = 16%nat) by (unfold m; apply (le_words_ok 4 16 blk); [lia|assumption|assumption]).
  destruct (b3_rounds_ok m 7 0 v eq_refl Hv) as (E & Hok). rewrite (sched_0 m Hm) in *. rewrite fold7 in E. rewrite E. split; [reflexivity|assumption].
Qed.

(* ---- nodes ---- *)
Definition node_ok (n : node) : Prop :=
  okw 8 (nd_cv n) /\ zlen (nd_block n) = 64 /\ bytes_ok (nd_block n) /\ word_ok 32 (nd_len n) /\ 0 <= nd_t n /\ word_ok 32 (nd_flags n).
Lemma okw_xor (f g : nat -> Z) n : (forall i, word_ok 32 (f i)) -> (forall i, word_ok 32 (g i)) -> okw n (map (fun i => Z.lxor (f i) (g i)) (seq 0 n)).
Proof.
  intros Hf Hg. split; [rewrite map_length, seq_length; reflexivity|]. apply Forall_forall. intros x Hx. apply in_map_iff in Hx as (j & <- & _).
  apply word_ok_lxor; [lia|apply Hf|apply Hg].
Qed.
Lemma firstn_app_l {A} (a b : list A) n : length a = n -> firstn n (a ++ b) = a.
Proof. intros <-. rewrite firstn_app, Nat.sub_diag, firstn_all, firstn_O, app_nil_r. reflexivity. Qed.
Lemma in_place_ok n t : node_ok n -> t = nd_t n mod 2 ^ 64 -> compress_in_place (nd_cv n) (nd_block n) (nd_len n) t (nd_flags n) = node_words n /\ okw 8 (node_words n).
Proof.
  intros (Hc & Hz & Hb & Hl & Ht & Hf) ->. destruct n as [cv blk len t flags]. cbn [nd_cv nd_block nd_len nd_t nd_flags] in *.
  unfold compress_in_place, node_words, b3_compress. cbn [nd_cv nd_block nd_len nd_t nd_flags].
  destruct (pre_ok cv blk len t flags Hc Hz Hb Hl Hf Ht) as (E & Hok). rewrite <- E. set (v := compress_pre _ _ _ _ _) in *. clearbody v.
  rewrite firstn_app_l by (rewrite map_length, seq_length; reflexivity). split; [reflexivity|].
  destruct Hok as (_ & Hok). apply okw_xor; intros i; apply Forall_word_nth; (lia || assumption).
Qed.
Lemma xof_ok n i c : node_ok n -> c = Z.of_nat i mod 2 ^ 64 ->
  compress_xof (nd_cv n) (nd_block n) (nd_len n) c (Z.lor (nd_flags n) ROOT) = root_block n i /\ zlen (root_block n i) = 64.
Proof.
  intros (Hc & Hz & Hb & Hl & Ht & Hf) ->. destruct n as [cv blk len t flags]. cbn [nd_cv nd_block nd_len nd_t nd_flags] in *.
  assert (Hf' : word_ok 32 (Z.lor flags F_ROOT)) by (apply word_ok_lor; [lia|assumption|unfold word_ok, F_ROOT; lia]).
  unfold compress_xof, root_block, b3_compress. cbn [nd_cv nd_block nd_len nd_t nd_flags].
  change ROOT with F_ROOT.
  destruct (pre_ok cv blk len (Z.of_nat i) (Z.lor flags F_ROOT) Hc Hz Hb Hl Hf' ltac:(lia)) as (E & Hok). rewrite <- E. set (v := compress_pre _ _ _ _ _) in *. clearbody v.
  rewrite store_words32_ok. split; [reflexivity|]. reflexivity.
Qed.

Definition to_out (n : node) : output_t := Output (nd_cv n) (nd_t n) (nd_block n) (nd_len n) (nd_flags n).
Lemma to_le_bytes n : forall x, bytes_ok (to_le n x) /\ length (to_le n x) = n.
Proof.
  induction n as [|n IH]; intros x; [split; [constructor|reflexivity]|]. cbn [to_le length]. destruct (IH (x / 256)) as (Hb & Hl).
  split; [|lia]. constructor; [apply Z.mod_pos_bound; lia|assumption].
Qed.
Lemma words_bytes ws : bytes_ok (concat (map (to_le 4) ws)) /\ zlen (concat (map (to_le 4) ws)) = 4 * zlen ws.
Proof.
  induction ws as [|w ws (Hb & Hl)]; [split; [constructor|reflexivity]|]. cbn [map concat]. destruct (to_le_bytes 4 w) as (Hb' & Hl').
  split; [apply Forall_app; split; assumption|]. rewrite zlen_app, Hl, zlen_cons. unfold zlen at 1. lia.
Qed.
Lemma chaining_ok n : node_ok n -> nd_t n < 2 ^ 64 -> output_chaining_value (to_out n) = node_cv n /\ zlen (node_cv n) = 32 /\ bytes_ok (node_cv n).
Proof.
  intros Hn Ht. unfold output_chaining_value, to_out, node_cv. cbn [o_cv o_block o_block_len o_counter o_flags].
  assert (Et : nd_t n = nd_t n mod 2 ^ 64) by (symmetry; apply Z.mod_small; split; [apply Hn|assumption]).
  destruct (in_place_ok n (nd_t n) Hn Et) as (-> & (Hl & _)). rewrite store_words32_ok.
  destruct (words_bytes (node_words n)) as (Hb & Hz). splits; [reflexivity| |assumption]. rewrite Hz. unfold zlen. lia.
Qed.

(* ---- the extendable output ---- *)
Lemma root_loop_ok n fuel : forall i len acc, node_ok n -> 0 <= len -> (Z.to_nat len <= fuel)%nat ->
  output_root_loop fuel (to_out n) (Z.of_nat i mod 2 ^ 64) len acc = acc ++ firstn (Z.to_nat len) (concat (map (root_block n) (seq i ((Z.to_nat len + 63) / 64)))).
Proof.
  induction fuel as [|fuel IH]; intros i len acc Hn Hlen Hf.
  - cbn [output_root_loop]. replace (Z.to_nat len) with 0%nat by lia. rewrite firstn_O, app_nil_r. reflexivity.
  - cbn [output_root_loop]. destruct (len >? 0) eqn:E.
    2:{ replace (Z.to_nat len) with 0%nat by lia. rewrite firstn_O, app_nil_r. reflexivity. }
    unfold to_out at 2 3 4 5. cbn [o_cv o_block o_block_len o_counter o_flags].
    destruct (xof_ok n i _ Hn eq_refl) as (-> & Hz).
    assert (Ec : c_add 64 (Z.of_nat i mod 2 ^ 64) 1 = Z.of_nat (S i) mod 2 ^ 64) by (unfold c_add; rewrite Zplus_mod_idemp_l; f_equal; lia).
    rewrite Ec. assert (Hl : length (root_block n i) = 64%nat) by (unfold zlen in Hz; lia). clear Ec Hz.
    destruct (len >? 64) eqn:E64.
    + rewrite IH by (assumption || lia). rewrite <- app_assoc. f_equal.
      replace ((Z.to_nat len + 63) / 64)%nat with (S ((Z.to_nat (len - 64) + 63) / 64)).
      2:{ replace (Z.to_nat len + 63)%nat with (Z.to_nat (len - 64) + 63 + 1 * 64)%nat by lia. rewrite Nat.div_add by lia. lia. }
      cbn [seq map concat]. rewrite firstn_app, Hl, (firstn_all2 (root_block n i)), (firstn_all2 (root_block n i)) by lia. f_equal. f_equal. lia.
    + rewrite IH by (assumption || lia). replace (Z.to_nat (len - len)) with 0%nat by lia. rewrite firstn_O, app_nil_r. f_equal.
      replace ((Z.to_nat len + 63) / 64)%nat with 1%nat.
      2:{ apply (Nat.div_unique _ _ _ (Z.to_nat len - 1)); lia. }
      cbn [seq map concat]. rewrite app_nil_r. reflexivity.
Qed.
Lemma root_bytes_ok n len : node_ok n -> 0 <= len -> output_root_bytes (to_out n) len = root_output n (Z.to_nat len).
Proof. intros Hn Hl. unfold output_root_bytes, root_output. exact (root_loop_ok n (Z.to_nat len) 0 len [] Hn Hl ltac:(lia)). Qed.
