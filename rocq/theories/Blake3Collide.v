(* Collisions of BLAKE3. *)
From Verif Require Import Prelude PreludeFacts BytesNum Word SpecBlock SpecHash SpecBlake2 SpecBlake3 BlockTotal HashModel HashSpec Blake3Model Blake3Tree Blake3Hash SpecCollide SpecCollide2 Collide MdCollide SpongeCollide Blake2Collide.

Lemma node_words_length n : length (node_words n) = 8%nat.
Proof. reflexivity. Qed.
Lemma node_cv_length n : length (node_cv n) = 32%nat.
Proof. unfold node_cv. rewrite (words_out_length to_le 4 (len_to_le 4)), node_words_length. reflexivity. Qed.

Section Tree.
Variables (key : list Z) (flags : Z).
Hypothesis Hflags : flags = 0 \/ flags = F_KEYED_HASH.
Notation bnodes := (b3_block_nodes flags).
Notation bfinal := (b3_blocks flags).

Lemma bnodes_cons t cv start b c blks : bnodes t cv start (b :: c :: blks) = Node cv b 64 t (Z.lor flags start) :: bnodes t (node_words (Node cv b 64 t (Z.lor flags start))) 0 (c :: blks).
Proof. reflexivity. Qed.
Lemma bfinal_cons t cv start b c blks : bfinal t cv start (b :: c :: blks) = bfinal t (node_words (Node cv b 64 t (Z.lor flags start))) 0 (c :: blks).
Proof. reflexivity. Qed.

(* the chain of a chunk as an iteration *)
Definition step (t : Z) (s : list Z * Z) (b : bytes) : list Z * Z := (node_words (Node (fst s) b 64 t (Z.lor flags (snd s))), 0).
Definition node_of (t : Z) (c : (list Z * Z) * bytes) : node := Node (fst (fst c)) (snd c) 64 t (Z.lor flags (snd (fst c))).
Definition final (t : Z) (s : list Z * Z) (b : bytes) : node := Node (fst s) (b3_pad b) (zlen b) t (Z.lor (Z.lor flags (snd s)) F_CHUNK_END).
Lemma chain t blks : blks <> [] -> forall s,
  bnodes t (fst s) (snd s) blks = map (node_of t) (calls (step t) s (removelast blks)) ++ [bfinal t (fst s) (snd s) blks] /\
  bfinal t (fst s) (snd s) blks = final t (fold_left (step t) (removelast blks) s) (last blks []).
Proof.
  induction blks as [|b blks IH]; intros N s; [contradiction|]. destruct blks as [|c blks]; [split; reflexivity|].
  rewrite bnodes_cons, bfinal_cons. change (removelast (b :: c :: blks)) with (b :: removelast (c :: blks)). change (last (b :: c :: blks) []) with (last (c :: blks) []).
  destruct (IH ltac:(discriminate) (step t s b)) as [I1 I2]. unfold step at 1 2 3 4 in I1. cbn [fst snd] in I1. unfold step at 1 2 in I2. cbn [fst snd] in I2. split.
  - cbn [calls map app]. rewrite I1. reflexivity.
  - cbn [fold_left]. exact I2.
Qed.
Lemma start_inj a b : a = 0 \/ a = 1 -> b = 0 \/ b = 1 -> Z.lor flags a = Z.lor flags b -> a = b.
Proof. unfold F_KEYED_HASH in Hflags. intros [-> | ->] [-> | ->] E; try reflexivity; destruct Hflags as [-> | ->]; discriminate E. Qed.
Lemma start_inj_end a b : a = 0 \/ a = 1 -> b = 0 \/ b = 1 -> Z.lor (Z.lor flags a) F_CHUNK_END = Z.lor (Z.lor flags b) F_CHUNK_END -> a = b.
Proof. unfold F_KEYED_HASH in Hflags. intros [-> | ->] [-> | ->] E; try reflexivity; destruct Hflags as [-> | ->]; discriminate E. Qed.
Definition sok (s : list Z * Z) : Prop := snd s = 0 \/ snd s = 1.
Lemma step_ok t s b : sok (step t s b).
Proof. now left. Qed.
Lemma fold_ok t l : forall s, sok s -> sok (fold_left (step t) l s).
Proof. induction l as [|b l IH]; intros s H; [exact H|]. cbn [fold_left]. apply IH, step_ok. Qed.
Lemma fold_snd t l : forall s, l <> [] -> snd (fold_left (step t) l s) = 0.
Proof. induction l as [|b l IH]; intros s N; [contradiction|]. cbn [fold_left]. destruct l as [|c l]; [reflexivity|]. now apply IH. Qed.

Definition chunk_nodes (t : Z) (m : bytes) : list node := bnodes t key F_CHUNK_START (match m with [] => [[]] | _ => chunks 64 m end).
Notation blocks m := (match m%list with [] => [[]] | _ => chunks 64 m%list end).
Lemma blk_concat m : concat (blocks m) = m.
Proof. destruct m as [|x m]; [reflexivity|]. now apply chunks_any. Qed.
Lemma blk_nonempty m : blocks m <> [].
Proof. destruct m as [|x m]; [discriminate|]. intros E. apply (f_equal (@concat Z)) in E. rewrite chunks_any in E by reflexivity. discriminate E. Qed.

Lemma removelast_snoc {A} (l : list A) x : removelast (l ++ [x]) = l.
Proof. apply removelast_last. Qed.
Lemma chunk_collide t m1 m2 : chunk_node key flags t m1 = chunk_node key flags t m2 -> m1 = m2 \/ b3_collision (chunk_nodes t m1) (chunk_nodes t m2).
Proof.
  intros E. unfold chunk_node in E. destruct (chain t _ (blk_nonempty m1) (key, F_CHUNK_START)) as [N1 F1]. destruct (chain t _ (blk_nonempty m2) (key, F_CHUNK_START)) as [N2 F2].
  cbn [fst snd] in N1, N2, F1, F2. rewrite F1, F2 in E. set (l1 := removelast (blocks m1)) in *. set (l2 := removelast (blocks m2)) in *. set (iv := (key, F_CHUNK_START)) in *.
  assert (IV : sok iv) by now right. unfold final in E.
  assert (Ecv := f_equal nd_cv E). assert (Eb := f_equal nd_block E). assert (El := f_equal nd_len E). assert (Ef := f_equal nd_flags E). cbn [nd_cv nd_block nd_len nd_flags] in Ecv, Eb, El, Ef.
  apply start_inj_end in Ef; [|apply fold_ok, IV|apply fold_ok, IV].
  assert (Es : fold_left (step t) l1 iv = fold_left (step t) l2 iv) by (apply injective_projections; assumption).
  assert (Sd : forall x y : list Z * Z, {x = y} + {x <> y}) by (decide equality; [apply Z.eq_dec|apply list_dec]).
  destruct (walk_any (step t) (fun _ => []) Sd list_dec l1 l2 iv Es) as [Eq|[(a & b & a' & b' & I1 & I2 & N & C)|(p & Np & Ep & _)]].
  - left. unfold b3_pad in Eb. apply app_head in Eb; [|unfold zlen in El; lia]. destruct Eb as [Eb _].
    rewrite <- (blk_concat m1), <- (blk_concat m2). rewrite (app_removelast_last [] (blk_nonempty m1)), (app_removelast_last [] (blk_nonempty m2)). fold l1 l2. now rewrite Eq, Eb.
  - right. exists (node_of t (a, b)), (node_of t (a', b')). unfold chunk_nodes. rewrite N1, N2, !removelast_snoc.
    split; [now apply in_map|]. split; [now apply in_map|]. split.
    + intros En. apply N. assert (Oa := calls_inv (step t) sok (fun s x _ => step_ok t s x) l1 iv a b IV I1). assert (Oa' := calls_inv (step t) sok (fun s x _ => step_ok t s x) l2 iv a' b' IV I2).
      assert (X1 := f_equal nd_cv En). assert (X2 := f_equal nd_block En). assert (X3 := f_equal nd_flags En). unfold node_of in X1, X2, X3. cbn [nd_cv nd_block nd_flags fst snd] in X1, X2, X3.
      apply start_inj in X3; try assumption. f_equal; [apply injective_projections; assumption|exact X2].
    + apply (f_equal fst) in C. unfold step in C. cbn [fst] in C. unfold node_cv, node_of. cbn [fst snd]. now rewrite C.
  - exfalso. apply (f_equal snd) in Ep. rewrite fold_snd in Ep by exact Np. discriminate Ep.
Qed.
Lemma chunk_nodes_root t m : exists p, chunk_nodes t m = p ++ [chunk_node key flags t m].
Proof. destruct (chain t _ (blk_nonempty m) (key, F_CHUNK_START)) as [N _]. eexists. exact N. Qed.
Lemma chunk_flags t m l r : chunk_node key flags t m <> parent_node key flags l r.
Proof.
  intros E. apply (f_equal nd_flags) in E. unfold chunk_node in E. destruct (chain t _ (blk_nonempty m) (key, F_CHUNK_START)) as [_ F]. cbn [fst snd] in F. rewrite F in E.
  unfold final, parent_node in E. cbn [nd_flags] in E. assert (O := fold_ok t (removelast (blocks m)) (key, F_CHUNK_START) (or_intror eq_refl)). unfold sok in O. unfold F_KEYED_HASH in Hflags.
  destruct O as [O|O]; rewrite O in E; destruct Hflags as [-> | ->]; discriminate E.
Qed.

Lemma nodes_small f t m : zlen m <= 1024 -> b3_nodes key flags f t m = chunk_nodes t m /\ tree key flags f t m = chunk_node key flags t m.
Proof. intros H. destruct f as [|f]; [split; reflexivity|]. cbn [b3_nodes tree]. assert ((zlen m <=? 1024) = true) as -> by lia. split; reflexivity. Qed.
Lemma nodes_big f t m : 1024 < zlen m -> let n := left_bytes (zlen m) in
  b3_nodes key flags (S f) t m = b3_nodes key flags f t (firstn (Z.to_nat n) m) ++ b3_nodes key flags f (t + n / 1024) (skipn (Z.to_nat n) m) ++ [tree key flags (S f) t m] /\
  tree key flags (S f) t m = parent_node key flags (tree key flags f t (firstn (Z.to_nat n) m)) (tree key flags f (t + n / 1024) (skipn (Z.to_nat n) m)).
Proof. intros H n. cbn [b3_nodes tree]. assert ((zlen m <=? 1024) = false) as -> by lia. split; reflexivity. Qed.
Lemma nodes_root f t m : exists p, b3_nodes key flags f t m = p ++ [tree key flags f t m].
Proof.
  destruct (Z.le_gt_cases (zlen m) 1024) as [H|H]; [destruct (nodes_small f t m H) as [-> ->]; apply chunk_nodes_root|].
  destruct f as [|f]; [apply chunk_nodes_root|]. destruct (nodes_big f t m ltac:(lia)) as [-> _]. rewrite app_assoc. eexists. reflexivity.
Qed.
Lemma in_removelast {A} (l : list A) x : In x (removelast l) -> In x l.
Proof. destruct l as [|a l]; [intros []|]. intros H. rewrite (app_removelast_last a (l := a :: l)) by discriminate. apply in_or_app. now left. Qed.

(* the same subtree, or a collision below, when the nodes are compressed to the same value *)
Lemma sub_collide (l1 l2 : list node) (n1 n2 : node) (P : Prop) : In n1 l1 -> In n2 l2 -> node_cv n1 = node_cv n2 -> (n1 = n2 -> P \/ b3_collision l1 l2) ->
  P \/ exists x y, In x l1 /\ In y l2 /\ x <> y /\ node_cv x = node_cv y.
Proof.
  intros I1 I2 E H. assert (D : n1 = n2 \/ n1 <> n2).
  { assert (Nd : forall x y : node, {x = y} + {x <> y}) by (decide equality; try apply Z.eq_dec; try apply list_dec). destruct (Nd n1 n2); [now left|now right]. }
  destruct D as [D|D]; [|right; exists n1, n2; auto]. destruct (H D) as [p|(x & y & Ix & Iy & N & C)]; [now left|]. right. exists x, y. repeat split; try assumption; now apply in_removelast.
Qed.
Lemma tree_collide f1 : forall f2 t m1 m2, (length m1 <= f1)%nat -> (length m2 <= f2)%nat -> tree key flags f1 t m1 = tree key flags f2 t m2 ->
  m1 = m2 \/ b3_collision (b3_nodes key flags f1 t m1) (b3_nodes key flags f2 t m2).
Proof.
  induction f1 as [|f1 IH]; intros f2 t m1 m2 L1 L2 E.
  - assert (S1 : zlen m1 <= 1024) by (unfold zlen; lia). destruct (nodes_small 0 t m1 S1) as [N1 T1]. rewrite N1. rewrite T1 in E.
    destruct (Z.le_gt_cases (zlen m2) 1024) as [S2|S2]; [destruct (nodes_small f2 t m2 S2) as [N2 T2]; rewrite N2; rewrite T2 in E; now apply chunk_collide|].
    destruct f2 as [|f2]; [unfold zlen in S2; lia|]. destruct (nodes_big f2 t m2 ltac:(lia)) as [_ T2]. rewrite T2 in E. exfalso. exact (chunk_flags _ _ _ _ E).
  - destruct (Z.le_gt_cases (zlen m1) 1024) as [S1|S1].
    + destruct (nodes_small (S f1) t m1 S1) as [N1 T1]. rewrite N1. rewrite T1 in E.
      destruct (Z.le_gt_cases (zlen m2) 1024) as [S2|S2]; [destruct (nodes_small f2 t m2 S2) as [N2 T2]; rewrite N2; rewrite T2 in E; now apply chunk_collide|].
      destruct f2 as [|f2]; [unfold zlen in S2; lia|]. destruct (nodes_big f2 t m2 ltac:(lia)) as [_ T2]. rewrite T2 in E. exfalso. exact (chunk_flags _ _ _ _ E).
    + destruct (nodes_big f1 t m1 ltac:(lia)) as [N1 T1]. rewrite N1. rewrite T1 in E.
      destruct (Z.le_gt_cases (zlen m2) 1024) as [S2|S2]; [destruct (nodes_small f2 t m2 S2) as [N2 T2]; rewrite T2 in E; exfalso; exact (chunk_flags _ _ _ _ (eq_sym E))|].
      destruct f2 as [|f2]; [unfold zlen in S2; lia|]. destruct (nodes_big f2 t m2 ltac:(lia)) as [N2 T2]. rewrite N2. rewrite T2 in E. clear N1 N2 T1 T2.
      assert (B1 := left_bytes_bounds (zlen m1) ltac:(lia)). assert (B2 := left_bytes_bounds (zlen m2) ltac:(lia)).
      set (k1 := left_bytes (zlen m1)) in *. set (k2 := left_bytes (zlen m2)) in *. clearbody k1 k2.
      apply (f_equal nd_block) in E. cbn [nd_block parent_node] in E. apply app_head in E; [|now rewrite !node_cv_length]. destruct E as [El Er].
      rewrite !app_assoc. unfold b3_collision. rewrite !removelast_snoc. unfold zlen in *.
      set (a1 := firstn (Z.to_nat k1) m1) in *. set (a2 := firstn (Z.to_nat k2) m2) in *. set (b1 := skipn (Z.to_nat k1) m1) in *. set (b2 := skipn (Z.to_nat k2) m2) in *.
      assert (La1 : length a1 = Z.to_nat k1) by (unfold a1; rewrite firstn_length; lia). assert (La2 : length a2 = Z.to_nat k2) by (unfold a2; rewrite firstn_length; lia).
      assert (Lb1 : length b1 = (length m1 - Z.to_nat k1)%nat) by (unfold b1; apply skipn_length). assert (Lb2 : length b2 = (length m2 - Z.to_nat k2)%nat) by (unfold b2; apply skipn_length).
      assert (Inr : forall f t m, In (tree key flags f t m) (b3_nodes key flags f t m)) by (intros f t' m; destruct (nodes_root f t' m) as (p & ->); apply in_or_app; right; now left).
      destruct (sub_collide _ _ _ _ (a1 = a2) (Inr f1 t a1) (Inr f2 t a2) El (IH f2 t a1 a2 ltac:(lia) ltac:(lia))) as [Ea|(x & y & Ix & Iy & N & C)].
      2: { right. exists x, y. repeat split; try assumption; apply in_or_app; now left. }
      assert (Ek : k1 = k2) by (rewrite Ea in La1; lia). subst k2.
      destruct (sub_collide _ _ _ _ (b1 = b2) (Inr f1 (t + k1 / 1024) b1) (Inr f2 (t + k1 / 1024) b2) Er (IH f2 (t + k1 / 1024) b1 b2 ltac:(lia) ltac:(lia))) as [Eb|(x & y & Ix & Iy & N & C)].
      2: { right. exists x, y. repeat split; try assumption; apply in_or_app; now right. }
      left. rewrite <- (firstn_skipn (Z.to_nat k1) m1), <- (firstn_skipn (Z.to_nat k1) m2). fold a1 a2 b1 b2. now rewrite Ea, Eb.
Qed.
Lemma root_collide len m1 m2 : m1 <> m2 -> root_output (b3_root key flags m1) len = root_output (b3_root key flags m2) len ->
  b3_collision (b3_nodes key flags (length m1) 0 m1) (b3_nodes key flags (length m2) 0 m2) \/ b3_root_collision len (b3_nodes key flags (length m1) 0 m1) (b3_nodes key flags (length m2) 0 m2).
Proof.
  intros N E. unfold b3_root in E. assert (Nd : forall x y : node, {x = y} + {x <> y}) by (decide equality; try apply Z.eq_dec; try apply list_dec).
  destruct (Nd (tree key flags (length m1) 0 m1) (tree key flags (length m2) 0 m2)) as [D|D].
  - left. destruct (tree_collide (length m1) (length m2) 0 m1 m2 (le_n _) (le_n _) D) as [C|C]; [contradiction|exact C].
  - right. destruct (nodes_root (length m1) 0 m1) as (p1 & E1). destruct (nodes_root (length m2) 0 m2) as (p2 & E2). exists p1, p2, (tree key flags (length m1) 0 m1), (tree key flags (length m2) 0 m2). split; [exact E1|]. split; [exact E2|]. split; [exact D|exact E].
Qed.
End Tree.

Theorem blake3_collide key sz o ops1 ops2 : bytes_ok key -> blake3_obj key sz = Ret o ->
  Forall hop_valid ops1 -> Forall hop_valid ops2 -> zlen (added ops1) < 2 ^ 64 -> zlen (added ops2) < 2 ^ 64 -> added ops1 <> added ops2 -> result_of o ops1 = result_of o ops2 ->
  b3_collision (b3_all key (added ops1)) (b3_all key (added ops2)) \/ b3_root_collision (Z.to_nat (sz / 8)) (b3_all key (added ops1)) (b3_all key (added ops2)).
Proof.
  intros Hk Ho V1 V2 H1 H2 N E.
  assert (D : (0 < sz /\ sz mod 8 = 0 /\ (zlen key = 0 \/ zlen key = 32)) \/ ~ (0 < sz /\ sz mod 8 = 0 /\ (zlen key = 0 \/ zlen key = 32))) by lia. destruct D as [(Hsz & Hm & Hl)|D].
  2: { exfalso. assert (X := blake3_other key sz D). rewrite X in Ho. discriminate Ho. }
  destruct (blake3_ok key sz Hsz Hm Hl Hk) as (o' & Ho' & _ & Hc). rewrite Ho in Ho'. apply (f_equal (fun r => match r with Ret x => x | _ => o end)) in Ho'. cbn in Ho'. subst o'.
  destruct (Hc ops1 V1 H1) as (_ & E1 & _). destruct (Hc ops2 V2 H2) as (_ & E2 & _). unfold result_of in E. rewrite E1, E2 in E.
  assert (E' : blake3_spec key (sz / 8) (added ops1) = blake3_spec key (sz / 8) (added ops2)) by congruence. clear E E1 E2.
  unfold b3_all. apply root_collide; [unfold b3_flags; destruct key; [now left|now right]|exact N|]. unfold blake3_spec in E'. unfold b3_key, b3_flags. destruct key; exact E'.
Qed.
