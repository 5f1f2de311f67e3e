(* Collisions of SHA-3 and Keccak give inner collisions, or output collisions of the permutation. *)
From Verif Require Import Prelude PreludeFacts BytesNum Word SpecBlock SpecHash SpecKeccak BlockTotal HashModel HashSpec KeccakModel Sha Keccak KeccakHash KeccakPerm HashLib MacApi SpecCollide SpecSponge Collide MdCollide SpongeCollide.

Lemma calls_split {S B} (f : S -> B -> S) l : forall h a b, In (a, b) (calls f h l) -> exists p q, l = p ++ b :: q /\ a = fold_left f p h.
Proof.
  induction l as [|x l IH]; intros h a b H; [contradiction|]. cbn [calls In] in H. destruct H as [H|H].
  - injection H as -> ->. now exists [], l.
  - destruct (IH _ _ _ H) as (p & q & -> & ->). now exists (x :: p), q.
Qed.
Lemma calls_last {S B} (f : S -> B -> S) l : forall h r a b, calls f h l = r ++ [(a, b)] -> exists p, l = p ++ [b] /\ a = fold_left f p h.
Proof.
  induction l as [|x l IH]; intros h r a b H; [now destruct r|]. cbn [calls] in H. destruct r as [|y r]; cbn [app] in H.
  - injection H as -> -> H. destruct l; [|discriminate H]. now exists [].
  - injection H as _ H. destruct (IH _ _ _ _ H) as (p & -> & ->). now exists (x :: p).
Qed.

Lemma nth_skipn_Z n : forall (l : list Z) i, nth i (skipn n l) 0 = nth (n + i) l 0.
Proof. induction n as [|n IH]; intros l i; [reflexivity|]. destruct l as [|x l]; [now destruct i|]. cbn [skipn Nat.add nth]. apply IH. Qed.

Section Inner.
Variable rsiz : Z.
Hypotheses (Hr : 0 < rsiz <= 144) (Hr8 : rsiz mod 8 = 0).
Definition blk_ok (b : bytes) : Prop := zlen b = rsiz /\ bytes_ok b.
Lemma words_len b : blk_ok b -> length (le_words 8 b) = Z.to_nat (rsiz / 8).
Proof. intros [Hl Hb]. unfold le_words. rewrite map_length. destruct (chunks_length 8 b) as (H1 & _); [lia|now rewrite Hl|]. unfold zlen in H1 at 1. rewrite Hl in H1. lia. Qed.
Lemma words_ok b : blk_ok b -> Forall (word_ok 64) (le_words 8 b).
Proof.
  intros [Hl Hb]. unfold le_words. apply Forall_map. assert (C := chunks_ok 8 b ltac:(lia) ltac:(now rewrite Hl) Hb).
  eapply Forall_impl; [|exact C]. intros c [Hc Bc]. apply word_ok_le; [exact Bc|lia].
Qed.
Lemma words_inj b b' : blk_ok b -> blk_ok b' -> le_words 8 b = le_words 8 b' -> b = b'.
Proof.
  intros [Hl Hb] [Hl' Hb'] E. rewrite <- (concat_chunks 8 b), <- (concat_chunks 8 b') by (try lia; now rewrite ?Hl, ?Hl'). f_equal.
  assert (C := chunks_ok 8 b ltac:(lia) ltac:(now rewrite Hl) Hb). assert (C' := chunks_ok 8 b' ltac:(lia) ltac:(now rewrite Hl') Hb').
  unfold le_words in E. revert C C' E. generalize (chunks 8 b) (chunks 8 b'). clear. intros l. induction l as [|c l IH]; intros [|c' l'] C C' E; try discriminate E; [reflexivity|].
  cbn [map] in E. apply Forall_cons_iff in C as [[Lc Bc] C]. apply Forall_cons_iff in C' as [[Lc' Bc'] C']. assert (E1 := f_equal (fun l => hd 0 l) E). assert (E2 := f_equal (fun l => tl l) E). cbn [hd tl] in E1, E2.
  f_equal; [|now apply IH]. apply le_inj; try assumption. unfold zlen in *. lia.
Qed.
Lemma xor_block_nth A b i : (i < 25)%nat -> nth i (xor_block A b) 0 = Z.lxor (nth i A 0) (nth i (le_words 8 b) 0).
Proof. intros Hi. unfold xor_block. cbv zeta. now rewrite (nth_map_seq (fun i => Z.lxor (nth i A 0) (nth i (le_words 8 b) 0))) by exact Hi. Qed.
Lemma xor_block_len A b : length (xor_block A b) = 25%nat.
Proof. unfold xor_block. now rewrite map_length, seq_length. Qed.
Lemma xor_block_ok A b : ok25 A -> blk_ok b -> ok25 (xor_block A b).
Proof.
  intros [HA WA] Hb. split; [apply xor_block_len|]. apply Forall_forall. intros x Hx. apply (In_nth _ _ 0) in Hx as (i & Hi & <-). rewrite xor_block_len in Hi.
  rewrite xor_block_nth by exact Hi. apply word_ok_lxor; [lia| |]; apply Forall_word_nth; try lia; [exact WA|now apply words_ok].
Qed.
Lemma xor_block_inj A b b' : blk_ok b -> blk_ok b' -> xor_block A b = xor_block A b' -> b = b'.
Proof.
  intros Hb Hb' E. apply words_inj; try assumption. assert (L := words_len b Hb). assert (L' := words_len b' Hb').
  apply (nth_ext _ _ 0 0); [lia|]. intros i Hi. assert (H25 : (i < 25)%nat).
  { rewrite L in Hi. assert (D : rsiz / 8 <= 18) by (apply Z.div_le_upper_bound; lia). lia. }
  assert (G := f_equal (fun l => nth i l 0) E). cbn beta in G. rewrite !xor_block_nth in G by exact H25. rewrite !(Z.lxor_comm (nth i A 0)) in G. now apply lxor_cancel in G.
Qed.
Lemma xor_block_capacity A b : length A = 25%nat -> blk_ok b -> capacity_part (8 * rsiz) (xor_block A b) = capacity_part (8 * rsiz) A.
Proof.
  intros HA Hb. unfold capacity_part. replace (8 * rsiz / 64) with (rsiz / 8) by (rewrite (Z.mul_comm 8 rsiz); change 64 with (8 * 8); now rewrite Z.div_mul_cancel_r by lia).
  set (n := Z.to_nat (rsiz / 8)). assert (Ln := words_len b Hb). fold n in Ln.
  apply (nth_ext _ _ 0 0); [now rewrite !skipn_length, xor_block_len, HA|]. intros i Hi. rewrite skipn_length, xor_block_len in Hi.
  rewrite !nth_skipn_Z, xor_block_nth by lia. rewrite (nth_overflow (le_words 8 b)) by lia. apply Z.lxor_0_r.
Qed.
Lemma absorbed_ok l : Forall blk_ok l -> ok25 (absorbed l).
Proof.
  intros H. unfold absorbed. assert (G : ok25 (repeat 0 25)).
  { split; [apply repeat_length|]. apply Forall_forall. intros x Hx. apply repeat_spec in Hx. subst x. unfold word_ok. lia. }
  revert G. generalize (repeat 0 25). induction H as [|b l Hb Hl IH]; intros A HA; [exact HA|]. cbn [fold_left]. apply IH. apply permutation_ok. now apply xor_block_ok.
Qed.

Lemma same_call l1 l2 p1 b1 q1 p2 b2 q2 : Forall blk_ok l1 -> Forall blk_ok l2 -> l1 = p1 ++ b1 :: q1 -> l2 = p2 ++ b2 :: q2 -> (absorbed p1, b1) <> (absorbed p2, b2) ->
  xor_block (absorbed p1) b1 = xor_block (absorbed p2) b2 -> inner_collision (8 * rsiz) l1 l2.
Proof.
  intros F1 F2 -> -> N X. apply Forall_app in F1 as [F1 G1]. apply Forall_app in F2 as [F2 G2]. apply Forall_cons_iff in G1 as [B1 _]. apply Forall_cons_iff in G2 as [B2 _].
  exists p1, (b1 :: q1), p2, (b2 :: q2). repeat split; try discriminate.
  - intros ->. apply N. f_equal. now apply (xor_block_inj (absorbed p2)).
  - rewrite <- (xor_block_capacity (absorbed p1) b1), <- (xor_block_capacity (absorbed p2) b2) by (try assumption; now apply absorbed_ok). now rewrite X.
Qed.

Lemma inner n l1 l2 : Forall blk_ok l1 -> Forall blk_ok l2 -> l1 <> [] -> l2 <> [] ->
  let f := fun A blk => keccak_f (xor_block A blk) in let g := fun A => firstn n (concat (map (to_le 8) A)) in
  collision f (repeat 0 25) l1 l2 \/ last_collision f g (repeat 0 25) l1 l2 \/ returns f (repeat 0 25) l1 l2 ->
  inner_collision (8 * rsiz) l1 l2 \/ output_collision n l1 l2.
Proof.
  intros F1 F2 N1 N2 f g [C|[C|C]].
  - left. destruct C as (a & b & a' & b' & I1 & I2 & N & E). apply calls_split in I1 as (p1 & q1 & E1 & ->). apply calls_split in I2 as (p2 & q2 & E2 & ->).
    unfold f in E, N. fold (absorbed p1) in E, N. fold (absorbed p2) in E, N.
    assert (G1 := F1). assert (G2 := F2). rewrite E1 in G1. rewrite E2 in G2. apply Forall_app in G1 as [P1 G1]. apply Forall_app in G2 as [P2 G2]. apply Forall_cons_iff in G1 as [B1 _]. apply Forall_cons_iff in G2 as [B2 _].
    apply keccak_f_inj in E; [|apply xor_block_ok; [now apply absorbed_ok|exact B1]|apply xor_block_ok; [now apply absorbed_ok|exact B2]].
    exact (same_call l1 l2 p1 b q1 p2 b' q2 F1 F2 E1 E2 N E).
  - destruct C as (r1 & r2 & a & b & a' & b' & I1 & I2 & N & E). apply calls_last in I1 as (p1 & E1 & ->). apply calls_last in I2 as (p2 & E2 & ->).
    unfold f in E, N. fold (absorbed p1) in E, N. fold (absorbed p2) in E, N.
    destruct (list_dec (xor_block (absorbed p1) b) (xor_block (absorbed p2) b')) as [X|X].
    + left. exact (same_call l1 l2 p1 b [] p2 b' [] F1 F2 E1 E2 N X).
    + right. exists p1, b, p2, b'. repeat split; assumption.
  - left. destruct C as (p & Np & Ep & D). change (absorbed p = absorbed []) in Ep. destruct D as [D|D].
    + exists p, l2, [], l2. repeat split; try assumption. now rewrite Ep.
    + exists [], l1, p, l1. repeat split; try assumption; [congruence|now rewrite Ep].
Qed.
End Inner.

Theorem sha3_inner fresh sz official o ops1 ops2 : (forall n, 0 <= n -> zlen (fresh n) = n) -> sha3_new fresh sz official = Ret o ->
  Forall hop_valid ops1 -> Forall hop_valid ops2 -> added ops1 <> added ops2 -> result_of o ops1 = result_of o ops2 ->
  let blocks m := chunks (200 - sz / 4) (sponge_input (1600 - 2 * sz) (if official then [false; true] else []) m) in
  inner_collision (1600 - 2 * sz) (blocks (added ops1)) (blocks (added ops2)) \/ output_collision (Z.to_nat (sz / 8)) (blocks (added ops1)) (blocks (added ops2)).
Proof.
  intros Hf Ho V1 V2 N E blocks. assert (C := sha3_collide fresh sz official o ops1 ops2 Hf Ho V1 V2 N E). cbv zeta in C. fold (blocks (added ops1)) in C. fold (blocks (added ops2)) in C.
  assert (Hsz : sz = 224 \/ sz = 256 \/ sz = 384 \/ sz = 512).
  { destruct (Z.eq_dec sz 224); [now left|]. destruct (Z.eq_dec sz 256); [now right; left|]. destruct (Z.eq_dec sz 384); [now right; right; left|]. destruct (Z.eq_dec sz 512); [now right; right; right|].
    exfalso. assert (X := sha3_new_other fresh sz official ltac:(lia)). rewrite Ho in X. discriminate X. }
  assert (R : 1600 - 2 * sz = 8 * (200 - sz / 4)) by (destruct Hsz as [-> |[-> |[-> | ->]]]; reflexivity).
  assert (Hr : 0 < 200 - sz / 4 <= 144) by (destruct Hsz as [-> |[-> |[-> | ->]]]; split; reflexivity || discriminate).
  assert (Hr8 : (200 - sz / 4) mod 8 = 0) by (destruct Hsz as [-> |[-> |[-> | ->]]]; reflexivity).
  set (suffix := if official then [false; true] else []) in *.
  assert (Hs : suffix = [] \/ suffix = [false; true]) by (unfold suffix; destruct official; [now right|now left]).
  assert (B : forall m, bytes_ok m -> Forall (blk_ok (200 - sz / 4)) (blocks m) /\ blocks m <> []).
  { intros m Hm. unfold blocks. rewrite R. split; [|exact (proj2 (sponge_blocks (200 - sz / 4) suffix ltac:(lia) Hs m Hm))].
    destruct (sponge_pad (200 - sz / 4) suffix ltac:(lia) Hs m Hm) as (k & Hk & Hmod & ->). apply chunks_ok; [lia|now rewrite zlen_app, kpad_len by lia|].
    apply bytes_ok_app. split; [exact Hm|]. assert (Sb : suffix_byte suffix = 1 \/ suffix_byte suffix = 6) by (destruct Hs as [-> | ->]; [now left|now right]).
    unfold kpad. destruct (k =? 1).
    - destruct Sb as [-> | ->]; apply Forall_cons; try apply Forall_nil; unfold byte_ok; cbn; lia.
    - apply bytes_ok_app. split; [apply Forall_cons; [unfold byte_ok; destruct Sb as [-> | ->]; lia|apply Forall_nil]|]. apply bytes_ok_app. split; [|apply Forall_cons; [unfold byte_ok; lia|apply Forall_nil]].
      unfold zeros. apply Forall_forall. intros x Hx. apply repeat_spec in Hx. subst x. unfold byte_ok. lia. }
  destruct (B _ (added_bytes _ V1)) as [F1 N1]. destruct (B _ (added_bytes _ V2)) as [F2 N2].
  rewrite R. exact (inner (200 - sz / 4) Hr Hr8 (Z.to_nat (sz / 8)) _ _ F1 F2 N1 N2 C).
Qed.

Lemma bytes_ok_concat l : Forall bytes_ok l -> bytes_ok (concat l).
Proof. induction 1 as [|b l Hb Hl IH]; [exact (Forall_nil _)|]. cbn [concat]. apply bytes_ok_app. now split. Qed.
Lemma same_computes o d ops1 ops2 : computes o d -> Forall hop_valid ops1 -> Forall hop_valid ops2 -> d (added ops1) = d (added ops2) -> result_of o ops1 = result_of o ops2.
Proof. intros C V1 V2 E. destruct (C ops1 V1 Logic.I) as (_ & E1 & _). destruct (C ops2 V2 Logic.I) as (_ & E2 & _). unfold result_of. rewrite E1, E2. congruence. Qed.

(* ---- an inner collision gives messages with the same digest ---- *)
Section Converse.
Variables (rsiz : Z) (suffix : list bool).
Hypotheses (Hr : 0 < rsiz <= 144) (Hr8 : rsiz mod 8 = 0) (Hs : suffix = [] \/ suffix = [false; true]).
Definition rate_bytes (A : list Z) : bytes := concat (map (to_le 8) (firstn (Z.to_nat (rsiz / 8)) A)).
Lemma rate_pos : (Z.to_nat (rsiz / 8) <= 18)%nat /\ 8 * (rsiz / 8) = rsiz.
Proof. assert (D : rsiz / 8 <= 18) by (apply Z.div_le_upper_bound; lia). assert (M := Z.div_mod rsiz 8 ltac:(lia)). lia. Qed.
Lemma to_le8_sizes (l : list Z) : Forall (fun b => zlen b = 8) (map (to_le 8) l).
Proof. apply Forall_map. apply Forall_forall. intros x _. reflexivity. Qed.
Lemma rate_bytes_ok A : ok25 A -> blk_ok rsiz (rate_bytes A) /\ le_words 8 (rate_bytes A) = firstn (Z.to_nat (rsiz / 8)) A.
Proof.
  intros [HA WA]. destruct rate_pos as [R1 R2]. assert (W : Forall (word_ok 64) (firstn (Z.to_nat (rsiz / 8)) A)) by now apply Forall_firstn.
  assert (Ll : length (firstn (Z.to_nat (rsiz / 8)) A) = Z.to_nat (rsiz / 8)) by (rewrite firstn_length; lia).
  assert (D : 0 <= rsiz / 8) by (apply Z.div_pos; lia).
  unfold rate_bytes. revert W Ll. generalize (firstn (Z.to_nat (rsiz / 8)) A). intros l W Ll. split; [split|].
  - assert (G : forall l : list Z, zlen (concat (map (to_le 8) l)) = 8 * zlen l).
    { clear. intros l. induction l as [|x l IH]; [reflexivity|]. cbn [map concat]. rewrite zlen_app, IH, zlen_cons. change (zlen (to_le 8 x)) with 8. lia. }
    rewrite G. unfold zlen. rewrite Ll. lia.
  - clear. induction l as [|x l IH]; [exact (Forall_nil _)|]. cbn [map concat]. apply bytes_ok_app. split; [apply bytes_ok_to_le|exact IH].
  - unfold le_words. rewrite chunks_concat0 by (try lia; apply to_le8_sizes). rewrite map_map. rewrite <- (map_id l) at 2. apply map_ext_in. intros x Hx.
    rewrite le_to_le. change (256 ^ Z.of_nat 8) with (2 ^ 64). apply Z.mod_small. rewrite Forall_forall in W. exact (W x Hx).
Qed.
Lemma rate_cancel A B : ok25 A -> ok25 B -> capacity_part (8 * rsiz) A = capacity_part (8 * rsiz) B -> xor_block A (rate_bytes A) = xor_block B (rate_bytes B).
Proof.
  intros HA HB E. apply (nth_ext _ _ 0 0); [now rewrite !xor_block_len|]. intros i Hi. rewrite xor_block_len in Hi. rewrite !xor_block_nth by exact Hi.
  rewrite (proj2 (rate_bytes_ok A HA)), (proj2 (rate_bytes_ok B HB)). unfold capacity_part in E.
  replace (8 * rsiz / 64) with (rsiz / 8) in E by (rewrite (Z.mul_comm 8 rsiz); change 64 with (8 * 8); now rewrite Z.div_mul_cancel_r by lia).
  set (n := Z.to_nat (rsiz / 8)) in *. destruct (Nat.lt_ge_cases i n) as [L|L].
  - rewrite !nth_firstn_lt by exact L. now rewrite !Z.lxor_nilpotent.
  - destruct HA as [LA _]. destruct HB as [LB _]. rewrite !nth_overflow with (l := firstn n _) by (rewrite firstn_length; lia). rewrite !Z.lxor_0_r.
    assert (G := f_equal (fun l => nth (i - n) l 0) E). cbn beta in G. rewrite !nth_skipn_Z in G. now replace (n + (i - n))%nat with i in G by lia.
Qed.
Definition pad_block : bytes := kpad (suffix_byte suffix) rsiz.
Lemma blocks_full l : Forall (blk_ok rsiz) l -> chunks rsiz (sponge_input (8 * rsiz) suffix (concat l)) = l ++ [pad_block].
Proof.
  intros Hl. assert (Bl : bytes_ok (concat l)) by (apply bytes_ok_concat; eapply Forall_impl; [|exact Hl]; intros b Hb; apply Hb).
  assert (Ll : Forall (fun b => zlen b = rsiz) l) by (eapply Forall_impl; [|exact Hl]; intros b Hb; apply Hb).
  destruct (sponge_pad rsiz suffix ltac:(lia) Hs (concat l) Bl) as (k & Hk & Hmod & ->).
  assert (Zl : zlen (concat l) = zlen l * rsiz).
  { clear - Ll. induction Ll as [|b l Hb Hl IH]; [reflexivity|]. cbn [concat]. rewrite zlen_app, zlen_cons, IH, Hb. lia. }
  assert (Ek : k = rsiz).
  { rewrite Zl, Z.add_comm, Z.mod_add in Hmod by lia. destruct (Z.eq_dec k rsiz); [assumption|]. rewrite Z.mod_small in Hmod by lia. lia. }
  subst k. fold pad_block. replace (concat l ++ pad_block) with (concat (l ++ [pad_block])) by (rewrite concat_app; cbn [concat]; now rewrite app_nil_r).
  apply chunks_concat0; [lia|]. apply Forall_app. split; [exact Ll|]. apply Forall_cons; [|apply Forall_nil]. apply kpad_len. lia.
Qed.
Lemma concat_blocks_inj l1 l2 : Forall (blk_ok rsiz) l1 -> Forall (blk_ok rsiz) l2 -> concat l1 = concat l2 -> l1 = l2.
Proof.
  intros H1 H2 E. assert (S1 : Forall (fun b => zlen b = rsiz) l1) by (eapply Forall_impl; [|exact H1]; intros b Hb; apply Hb).
  assert (S2 : Forall (fun b => zlen b = rsiz) l2) by (eapply Forall_impl; [|exact H2]; intros b Hb; apply Hb).
  rewrite <- (chunks_concat0 rsiz l1), <- (chunks_concat0 rsiz l2) by (try assumption; lia). now rewrite E.
Qed.
Lemma converse p1 p2 : Forall (blk_ok rsiz) p1 -> Forall (blk_ok rsiz) p2 -> p1 <> p2 -> capacity_part (8 * rsiz) (absorbed p1) = capacity_part (8 * rsiz) (absorbed p2) ->
  exists m1 m2, bytes_ok m1 /\ bytes_ok m2 /\ m1 <> m2 /\ sponge (8 * rsiz) suffix m1 = sponge (8 * rsiz) suffix m2.
Proof.
  intros H1 H2 N E. assert (A1 := absorbed_ok rsiz Hr8 p1 H1). assert (A2 := absorbed_ok rsiz Hr8 p2 H2).
  set (b1 := rate_bytes (absorbed p1)). set (b2 := rate_bytes (absorbed p2)).
  assert (F1 : Forall (blk_ok rsiz) (p1 ++ [b1])) by (apply Forall_app; split; [exact H1|apply Forall_cons; [apply rate_bytes_ok, A1|apply Forall_nil]]).
  assert (F2 : Forall (blk_ok rsiz) (p2 ++ [b2])) by (apply Forall_app; split; [exact H2|apply Forall_cons; [apply rate_bytes_ok, A2|apply Forall_nil]]).
  exists (concat (p1 ++ [b1])), (concat (p2 ++ [b2])).
  split; [apply bytes_ok_concat; eapply Forall_impl; [|exact F1]; intros b Hb; apply Hb|]. split; [apply bytes_ok_concat; eapply Forall_impl; [|exact F2]; intros b Hb; apply Hb|]. split.
  - intros C. apply concat_blocks_inj in C; try assumption. apply app_inj_tail in C. now apply N.
  - unfold sponge. replace (8 * rsiz / 8) with rsiz by (rewrite Z.mul_comm; symmetry; apply Z.div_mul; lia). rewrite !blocks_full by assumption.
    rewrite !fold_left_app. cbn [fold_left]. fold (absorbed p1). fold (absorbed p2). unfold b1, b2. now rewrite (rate_cancel _ _ A1 A2 E).
Qed.
End Converse.

Theorem sha3_converse fresh sz official o p1 p2 : (forall n, 0 <= n -> zlen (fresh n) = n) -> sha3_new fresh sz official = Ret o ->
  Forall (fun b => zlen b = 200 - sz / 4 /\ bytes_ok b) p1 -> Forall (fun b => zlen b = 200 - sz / 4 /\ bytes_ok b) p2 -> p1 <> p2 ->
  capacity_part (1600 - 2 * sz) (absorbed p1) = capacity_part (1600 - 2 * sz) (absorbed p2) ->
  exists m1 m2, bytes_ok m1 /\ bytes_ok m2 /\ m1 <> m2 /\
    forall ops1 ops2, Forall hop_valid ops1 -> Forall hop_valid ops2 -> added ops1 = m1 -> added ops2 = m2 -> result_of o ops1 = result_of o ops2.
Proof.
  intros Hf Ho F1 F2 N E.
  assert (Hsz : sz = 224 \/ sz = 256 \/ sz = 384 \/ sz = 512).
  { destruct (Z.eq_dec sz 224); [now left|]. destruct (Z.eq_dec sz 256); [now right; left|]. destruct (Z.eq_dec sz 384); [now right; right; left|]. destruct (Z.eq_dec sz 512); [now right; right; right|].
    exfalso. assert (X := sha3_new_other fresh sz official ltac:(lia)). rewrite Ho in X. discriminate X. }
  assert (R : 1600 - 2 * sz = 8 * (200 - sz / 4)) by (destruct Hsz as [-> |[-> |[-> | ->]]]; reflexivity).
  assert (Hr : 0 < 200 - sz / 4 <= 144) by (destruct Hsz as [-> |[-> |[-> | ->]]]; split; reflexivity || discriminate).
  assert (Hr8 : (200 - sz / 4) mod 8 = 0) by (destruct Hsz as [-> |[-> |[-> | ->]]]; reflexivity).
  destruct (sha3_new_ok fresh Hf sz official Hsz) as (o' & Ho' & _ & Hc). rewrite Ho in Ho'. apply (f_equal (fun r => match r with Ret x => x | _ => o end)) in Ho'. cbn in Ho'. subst o'.
  set (suffix := if official then [false; true] else []).
  assert (Hs : suffix = [] \/ suffix = [false; true]) by (unfold suffix; destruct official; [now right|now left]).
  rewrite R in E. destruct (converse (200 - sz / 4) suffix Hr Hr8 Hs p1 p2 F1 F2 N E) as (m1 & m2 & B1 & B2 & Nm & S).
  exists m1, m2. repeat split; try assumption. intros ops1 ops2 V1 V2 <- <-.
  assert (E' : keccak_digest suffix sz (added ops1) = keccak_digest suffix sz (added ops2)) by (unfold keccak_digest; now rewrite R, S).
  assert (D : forall m, (if official then sha3_spec sz else keccak_spec sz) m = keccak_digest suffix sz m) by (intros m; unfold suffix; destruct official; reflexivity).
  apply (same_computes _ _ _ _ Hc V1 V2). rewrite !D. exact E'.
Qed.

(* ---- inner collisions exist ---- *)
Lemma nodup_or (l : list nat) : NoDup l \/ exists a l1 l2 l3, l = l1 ++ a :: l2 ++ a :: l3.
Proof.
  induction l as [|x l IH]; [left; apply NoDup_nil|]. destruct IH as [IH|(a & l1 & l2 & l3 & ->)]; [|right; now exists a, (x :: l1), l2, l3].
  destruct (in_dec Nat.eq_dec x l) as [H|H]; [|left; now apply NoDup_cons]. apply in_split in H as (l2 & l3 & ->). right. now exists x, [], l2, l3.
Qed.
Lemma pigeon (N : nat) (f : nat -> nat) : (forall i, (f i < N)%nat) -> exists i j, (i < j)%nat /\ f i = f j.
Proof.
  intros H. set (l := map f (seq 0 (S N))). destruct (nodup_or l) as [D|(a & l1 & l2 & l3 & E)].
  - exfalso. assert (L : (length l <= length (seq 0 N))%nat).
    { apply (NoDup_incl_length D). intros x Hx. unfold l in Hx. apply in_map_iff in Hx as (i & <- & _). apply in_seq. specialize (H i). lia. }
    unfold l in L. rewrite map_length, !seq_length in L. lia.
  - assert (Nth : forall k, (k < S N)%nat -> nth k l 0%nat = f k) by (intros k Hk; unfold l; now rewrite (nth_map_seq f) by exact Hk).
    assert (L := f_equal (@length nat) E). unfold l in L at 1. rewrite map_length, seq_length, !app_length in L. cbn [length] in L. rewrite app_length in L. cbn [length] in L.
    exists (length l1), (length l1 + S (length l2))%nat. split; [lia|]. rewrite <- !Nth by lia. rewrite E. rewrite !app_nth2, Nat.sub_diag by lia. cbn [nth].
    replace (length l1 + S (length l2) - length l1)%nat with (S (length l2)) by lia. cbn [nth]. rewrite app_nth2, Nat.sub_diag by lia. reflexivity.
Qed.
Lemma inner_exists r rsiz : 0 < rsiz -> rsiz mod 8 = 0 -> exists p1 p2, Forall (fun b => zlen b = rsiz /\ bytes_ok b) p1 /\ Forall (fun b => zlen b = rsiz /\ bytes_ok b) p2 /\ p1 <> p2 /\
  capacity_part r (absorbed p1) = capacity_part r (absorbed p2).
Proof.
  intros Hr Hr8. assert (Hz : zlen (zeros rsiz) = rsiz /\ bytes_ok (zeros rsiz)).
  { split; [apply zlen_zeros; lia|]. unfold zeros. apply Forall_forall. intros x Hx. apply repeat_spec in Hx. subst x. unfold byte_ok. lia. }
  assert (Hb : forall n, Forall (fun b => zlen b = rsiz /\ bytes_ok b) (repeat (zeros rsiz) n)) by (intros n; apply Forall_forall; intros x Hx; apply repeat_spec in Hx; now subst x).
  set (code A := le (concat (map (to_le 8) A))).
  assert (Bc : forall A : list Z, bytes_ok (concat (map (to_le 8) A))) by (intros A; apply bytes_ok_concat, Forall_map, Forall_forall; intros x _; apply bytes_ok_to_le).
  assert (Lc : forall A : list Z, zlen (concat (map (to_le 8) A)) = 8 * zlen A).
  { clear. intros l. induction l as [|x l IH]; [reflexivity|]. cbn [map concat]. rewrite zlen_app, IH, zlen_cons. change (zlen (to_le 8 x)) with 8. lia. }
  set (st n := absorbed (repeat (zeros rsiz) n)). assert (Hst : forall n, ok25 (st n)) by (intros n; exact (absorbed_ok rsiz Hr8 _ (Hb n))).
  destruct (pigeon (Z.to_nat (256 ^ (8 * 25))) (fun n => Z.to_nat (code (st n)))) as (i & j & L & E).
  { intros n. assert (B := le_bound _ (Bc (st n))). rewrite Lc in B. unfold zlen in B. rewrite (proj1 (Hst n)) in B. change (Z.of_nat 25) with 25 in B. unfold code. lia. }
  exists (repeat (zeros rsiz) i), (repeat (zeros rsiz) j). split; [apply Hb|]. split; [apply Hb|]. split.
  - intros C. apply (f_equal (@length bytes)) in C. rewrite !repeat_length in C. lia.
  - f_equal. change (st i = st j). assert (P : forall n, 0 <= code (st n)) by (intros n; apply (le_bound _ (Bc (st n)))). assert (E' : code (st i) = code (st j)) by (assert (Pi := P i); assert (Pj := P j); lia).
    unfold code in E'. destruct (Hst i) as [Li Wi]. destruct (Hst j) as [Lj Wj].
    apply le_inj in E'; [|assert (X := Lc (st i)); assert (Y := Lc (st j)); unfold zlen in X, Y; lia|apply Bc|apply Bc].
    assert (G : forall a b : list Z, length a = length b -> Forall (word_ok 64) a -> Forall (word_ok 64) b -> concat (map (to_le 8) a) = concat (map (to_le 8) b) -> a = b).
    { clear. intros a. induction a as [|x a IH]; intros [|y b] L Wa Wb E; try discriminate L; [reflexivity|]. cbn [map concat] in E. apply app_head in E; [|reflexivity]. destruct E as [E1 E2].
      apply Forall_cons_iff in Wa as [Wx Wa]. apply Forall_cons_iff in Wb as [Wy Wb]. f_equal; [|apply IH; try assumption; now injection L].
      apply (f_equal le) in E1. rewrite !le_to_le in E1. change (256 ^ Z.of_nat 8) with (2 ^ 64) in E1. now rewrite !Z.mod_small in E1 by assumption. }
    apply G; try assumption. lia.
Qed.
