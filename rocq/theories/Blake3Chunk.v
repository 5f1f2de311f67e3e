(* BLAKE3: the state of one chunk, and the chaining values of whole chunks. *)
From Verif Require Import Prelude PreludeFacts BytesNum SpecBlock BlockTotal Word WordIO SpecHash HashModel HashSpec HashFacts MdModel MdHash ShaModel Sha KeccakModel Keccak
  SpecBlake2 Blake2Model Blake2 SpecBlake3 Blake3Model Blake3.

Section Chunk.
Variables (key : list Z) (flags : Z).
Hypothesis Hkey : okw 8 key.
Hypothesis Hflags : word_ok 32 flags.

(* the chaining value after whole blocks, and the start flag of the next one *)
Fixpoint cvs (t : Z) (cv : list Z) (start : Z) (blks : list bytes) : list Z :=
  match blks with
  | [] => cv
  | b :: blks => cvs t (node_words (Node cv b 64 t (Z.lor flags start))) 0 blks
  end.
Definition next (start : Z) (blks : list bytes) : Z := match blks with [] => start | _ => 0 end.
Lemma blocks_snoc t b : forall blks cv start,
  b3_blocks flags t cv start (blks ++ [b]) = Node (cvs t cv start blks) (b3_pad b) (zlen b) t (Z.lor (Z.lor flags (next start blks)) F_CHUNK_END).
Proof.
  induction blks as [|x blks IH]; intros cv start; [reflexivity|].
  cbn [app cvs next]. destruct (blks ++ [b]) as [|y r] eqn:E; [destruct blks; discriminate|].
  cbn [b3_blocks]. cbn [b3_blocks] in IH. rewrite IH. destruct blks; reflexivity.
Qed.
Lemma cvs_snoc t b : forall blks cv start, cvs t cv start (blks ++ [b]) = node_words (Node (cvs t cv start blks) b 64 t (Z.lor flags (next start blks))).
Proof.
  induction blks as [|x blks IH]; intros cv start; [reflexivity|]. cbn [app cvs next]. rewrite IH. destruct blks; reflexivity.
Qed.
Lemma ok_start s : s = 1 \/ s = 0 -> word_ok 32 (Z.lor flags s).
Proof. intros H. apply word_ok_lor; [lia|assumption|]. unfold word_ok. lia. Qed.
Lemma cvs_ok t : 0 <= t -> forall blks cv start, start = 1 \/ start = 0 -> okw 8 cv -> Forall (fun b => zlen b = 64) blks -> Forall bytes_ok blks -> okw 8 (cvs t cv start blks).
Proof.
  intros Ht. induction blks as [|x blks IH]; intros cv start Hs Hc Hl Hb; [assumption|]. apply Forall_cons_iff in Hl as (Hl1 & Hl2), Hb as (Hb1 & Hb2).
  cbn [cvs]. apply IH; try assumption; [right; reflexivity|]. eapply in_place_ok; [|reflexivity].
  unfold node_ok. cbn [nd_cv nd_block nd_len nd_t nd_flags]. splits; try assumption; [unfold word_ok; lia|apply ok_start; assumption].
Qed.
Lemma pad_ok b : zlen b <= 64 -> bytes_ok b -> zlen (b3_pad b) = 64 /\ bytes_ok (b3_pad b).
Proof.
  intros Hl Hb. unfold b3_pad. split; [rewrite zlen_app, zlen_zeros by lia; lia|]. apply Forall_app. split; [assumption|apply bytes_ok_zeros].
Qed.
Lemma pad_full b : zlen b = 64 -> b3_pad b = b.
Proof. intros H. unfold b3_pad. rewrite H. cbn. apply app_nil_r. Qed.

(* blks ++ [tail]: the content of a chunk *)
Record parts (c : bytes) (blks : list bytes) (tail : bytes) : Prop := {
  pa_c : c = concat blks ++ tail;
  pa_len : Forall (fun b => zlen b = 64) blks;
  pa_ok : Forall bytes_ok blks;
  pa_tail : zlen tail <= 64;
  pa_tok : bytes_ok tail }.
Definition cs_of (t : Z) (blks : list bytes) (tail : bytes) : chunk_state :=
  CS (cvs t key F_CHUNK_START blks) t (b3_pad tail) (zlen tail) (zlen blks) flags.
Definition cs_inv (t : Z) (c : bytes) (s : chunk_state) : Prop :=
  exists blks tail, parts c blks tail /\ (tail = [] -> blks = []) /\ s = cs_of t blks tail.

Lemma zlen_concat64 n blks : Forall (fun b : bytes => zlen b = n) blks -> zlen (concat blks) = n * zlen blks.
Proof.
  induction 1 as [|b blks Hb _ IH]; [cbn; unfold zlen; cbn; lia|]. cbn [concat]. rewrite zlen_app, zlen_cons. lia.
Qed.
Lemma parts_len c blks tail : parts c blks tail -> zlen c = 64 * zlen blks + zlen tail.
Proof. intros [-> Hl _ _ _]. rewrite zlen_app, (zlen_concat64 64) by assumption. reflexivity. Qed.
Lemma parts_chunk t c blks tail : parts c blks tail -> (tail = [] -> blks = []) -> chunk_node key flags t c = b3_blocks flags t key F_CHUNK_START (blks ++ [tail]).
Proof.
  intros [-> Hl _ Ht _] Hz. unfold chunk_node. f_equal. destruct tail as [|x tail].
  - rewrite (Hz eq_refl). reflexivity.
  - rewrite chunks_concat, chunks_short by (assumption || lia || rewrite zlen_cons in *; pose proof (zlen_nonneg tail); lia).
    destruct blks as [|b blks]; [reflexivity|]. cbn [concat app]. destruct b as [|y b]; [|reflexivity].
    apply Forall_cons_iff in Hl as (Hl & _). cbn in Hl. lia.
Qed.
Lemma start_flag t blks tail : maybe_start_flag (cs_of t blks tail) = next F_CHUNK_START blks.
Proof. unfold maybe_start_flag, cs_of. cbn [cs_blocks]. destruct blks; [reflexivity|]. rewrite zlen_cons. pose proof (zlen_nonneg blks). assert ((1 + zlen blks =? 0) = false) as -> by lia. reflexivity. Qed.
Lemma next_flag blks : next F_CHUNK_START blks = 1 \/ next F_CHUNK_START blks = 0.
Proof. destruct blks; [left|right]; reflexivity. Qed.

Lemma chunk_output_ok t c s : 0 <= t -> cs_inv t c s -> chunk_state_output s = to_out (chunk_node key flags t c) /\ node_ok (chunk_node key flags t c) /\ nd_t (chunk_node key flags t c) = t.
Proof.
  intros Ht (blks & tail & Hp & Hz & ->). rewrite (parts_chunk _ _ _ _ Hp Hz), blocks_snoc. unfold chunk_state_output. rewrite start_flag. destruct Hp as [-> Hl Hok Hlt Hbt].
  splits; [reflexivity| |reflexivity]. destruct (pad_ok tail Hlt Hbt) as (Hp1 & Hp2). unfold node_ok. cbn [nd_cv nd_block nd_len nd_t nd_flags]. splits.
  - apply cvs_ok; (assumption || (left; reflexivity)).
  - assumption.
  - assumption.
  - pose proof (zlen_nonneg tail). unfold word_ok. lia.
  - assumption.
  - apply word_ok_lor; [lia|apply ok_start, next_flag|unfold word_ok, F_CHUNK_END; lia].
Qed.

Definition minz (a b : Z) := if a >? b then b else a.
Lemma fill_ok t blks tail d : zlen tail <= 64 ->
  chunk_state_fill_buf (cs_of t blks tail) d =
    Ret (cs_of t blks (tail ++ firstn (Z.to_nat (minz (64 - zlen tail) (zlen d))) d), skipn (Z.to_nat (minz (64 - zlen tail) (zlen d))) d).
Proof.
  intros Ht. unfold chunk_state_fill_buf, cs_of. cbn [cs_cv cs_counter cs_buf cs_buf_len cs_blocks cs_flags].
  fold (minz (64 - zlen tail) (zlen d)). set (k := minz (64 - zlen tail) (zlen d)).
  assert (Hk : 0 <= k <= 64 - zlen tail /\ k <= zlen d) by (unfold k, minz; pose proof (zlen_nonneg d); destruct (64 - zlen tail >? zlen d) eqn:E; lia).
  assert (Hf : zlen (firstn (Z.to_nat k) d) = k) by (rewrite zlen_firstn; lia).
  pose proof (zlen_nonneg tail). rewrite c_memcpy_ok; [|assumption|rewrite Hf; unfold b3_pad; rewrite zlen_app, zlen_zeros; lia].
  cbn [obind]. do 2 f_equal. f_equal.
  - unfold b3_pad. rewrite splice_app_mid by reflexivity. rewrite <- app_assoc. f_equal. f_equal. rewrite zlen_app, Hf. unfold zeros, zlen in *.
    rewrite Hf || idtac. assert (length (firstn (Z.to_nat k) d) = Z.to_nat k) as -> by lia.
    replace (Z.to_nat (64 - Z.of_nat (length tail))) with (Z.to_nat k + Z.to_nat (64 - (Z.of_nat (length tail) + k)))%nat by lia.
    rewrite repeat_app, skipn_app, skipn_all2 by (rewrite repeat_length; lia). rewrite repeat_length, Nat.sub_diag. reflexivity.
  - rewrite zlen_app, Hf. unfold c_add. apply Z.mod_small. lia.
Qed.

Lemma node64_ok t blks b : 0 <= t < 2 ^ 64 -> Forall (fun b => zlen b = 64) blks -> Forall bytes_ok blks -> zlen b = 64 -> bytes_ok b ->
  compress_in_place (cvs t key F_CHUNK_START blks) b 64 t (Z.lor flags (next F_CHUNK_START blks)) = cvs t key F_CHUNK_START (blks ++ [b]).
Proof.
  intros Ht Hl Hok Hb Hbok. rewrite cvs_snoc.
  refine (proj1 (in_place_ok (Node (cvs t key F_CHUNK_START blks) b 64 t (Z.lor flags (next F_CHUNK_START blks))) t _ _)).
  2:{ cbn [nd_t]. symmetry. apply Z.mod_small. assumption. }
  unfold node_ok. cbn [nd_cv nd_block nd_len nd_t nd_flags]. splits; try assumption.
  - apply cvs_ok; (assumption || lia || (left; reflexivity)).
  - unfold word_ok. lia.
  - lia.
  - apply ok_start, next_flag.
Qed.

Lemma bytes_ok_split (d : bytes) n : bytes_ok d -> bytes_ok (firstn n d) /\ bytes_ok (skipn n d).
Proof. intros H. rewrite <- (firstn_skipn n d) in H. apply Forall_app in H. exact H. Qed.

(* the loop over whole blocks of the input, at most 1024 bytes in all *)
Lemma chunk_loop_ok t fuel : 0 <= t < 2 ^ 64 -> forall c blks d, parts c blks [] -> bytes_ok d -> zlen c + zlen d <= 1024 -> (length d < fuel)%nat -> d <> [] ->
  exists blks' d', chunk_update_loop fuel (cs_of t blks []) d = Ret (cs_of t blks' [], d') /\ parts (c ++ d) blks' d' /\ d' <> [].
Proof.
  intros Ht. induction fuel as [|fuel IH]; intros c blks d Hp Hd Hl Hf Hne; [lia|]. cbn [chunk_update_loop]. destruct (zlen d >? 64) eqn:E.
  - assert (Hz : zlen (firstn 64 d) = 64) by (rewrite zlen_firstn; lia).
    destruct (bytes_ok_split d 64 Hd) as (Hb1 & Hb2). destruct Hp as [Hc Hlen Hok Htail Htok]. rewrite app_nil_r in Hc. subst c.
    rewrite start_flag. unfold cs_of at 1 2 3 4 5 6 7. cbn [cs_cv cs_counter cs_buf cs_buf_len cs_blocks cs_flags].
    rewrite node64_ok by assumption.
    rewrite (zlen_concat64 64) in Hl by assumption.
    assert (Ec : c_add 8 (zlen blks) 1 = zlen (blks ++ [firstn 64 d])).
    { rewrite zlen_app. change (zlen [firstn 64 d]) with 1. unfold c_add. apply Z.mod_small. pose proof (zlen_nonneg blks). lia. }
    rewrite Ec. change (CS (cvs t key F_CHUNK_START (blks ++ [firstn 64 d])) t (b3_pad []) (zlen (@nil Z)) (zlen (blks ++ [firstn 64 d])) flags) with (cs_of t (blks ++ [firstn 64 d]) []).
    destruct (IH (concat blks ++ firstn 64 d) (blks ++ [firstn 64 d]) (skipn 64 d)) as (blks' & d' & E1 & E2 & E3).
    + constructor; [rewrite concat_app; cbn [concat]; rewrite !app_nil_r; reflexivity| | |cbn; lia|constructor].
      * apply Forall_app. split; [assumption|]. repeat constructor. assumption.
      * apply Forall_app. split; [assumption|]. apply Forall_cons; [assumption|constructor].
    + assumption.
    + rewrite zlen_app, (zlen_concat64 64), Hz, zlen_skipn by assumption. lia.
    + rewrite skipn_length. unfold zlen in E. lia.
    + intros E0. apply (f_equal zlen) in E0. rewrite zlen_skipn in E0. cbn in E0. lia.
    + exists blks', d'. rewrite <- app_assoc, firstn_skipn in E2. auto.
  - exists blks, d. splits; [reflexivity| |assumption]. destruct Hp as [-> Hlen Hok Htail Htok]. constructor; try assumption; [rewrite app_nil_r; reflexivity|lia].
Qed.
Lemma chunk_loop_nil t blks tail fuel : chunk_update_loop (S fuel) (cs_of t blks tail) [] = Ret (cs_of t blks tail, []).
Proof. reflexivity. Qed.

Lemma chunk_update_ok t c s d : 0 <= t < 2 ^ 64 -> cs_inv t c s -> bytes_ok d -> zlen c + zlen d <= 1024 ->
  exists s', chunk_state_update s d = Ret s' /\ cs_inv t (c ++ d) s'.
Proof.
  intros Ht (blks & tail & Hp & Hz & ->) Hd Hlen. pose proof (parts_len _ _ _ Hp) as Hlc. pose proof Hp as [Hc Hl Hok Hlt Htok].
  unfold chunk_state_update. change (cs_buf_len (cs_of t blks tail)) with (zlen tail).
  assert (Hnil : forall blks tail c', parts c' blks tail -> (tail = [] -> blks = []) -> exists s' : chunk_state, (olet si := chunk_update_loop (S (length (@nil Z))) (cs_of t blks tail) [] in let '(s, input) := si in olet si := chunk_state_fill_buf s input in Ret (fst si)) = Ret s' /\ cs_inv t c' s').
  { intros b tl c' Hp' Hz'. rewrite chunk_loop_nil. cbn [obind]. rewrite fill_ok by (apply (pa_tail _ _ _ Hp')). cbn [obind fst].
    rewrite firstn_nil, app_nil_r. eexists. split; [reflexivity|]. exists b, tl. auto. }
  assert (Hcons : forall blks c' d, parts c' blks [] -> bytes_ok d -> zlen c' + zlen d <= 1024 -> d <> [] ->
     exists s' : chunk_state, (olet si := chunk_update_loop (S (length d)) (cs_of t blks []) d in let '(s, input) := si in olet si := chunk_state_fill_buf s input in Ret (fst si)) = Ret s' /\ cs_inv t (c' ++ d) s').
  { intros b c' d0 Hp' Hd0 Hl0 Hne. destruct (chunk_loop_ok t (S (length d0)) Ht c' b d0 Hp' Hd0 Hl0 ltac:(lia) Hne) as (b' & d' & -> & Hp2 & Hne2).
    cbn [obind]. rewrite fill_ok by (cbn; lia). cbn [obind fst app].
    assert (firstn (Z.to_nat (minz (64 - zlen (@nil Z)) (zlen d'))) d' = d') as ->.
    { apply firstn_all2. pose proof (pa_tail _ _ _ Hp2). unfold minz, zlen in *. cbn [length] in *. destruct (64 - Z.of_nat 0 >? Z.of_nat (length d')) eqn:E2; lia. }
    eexists. split; [reflexivity|]. exists b', d'. splits; [assumption|intros ->; congruence|reflexivity]. }
  destruct (zlen tail >? 0) eqn:E.
  - rewrite fill_ok by assumption. set (k := minz (64 - zlen tail) (zlen d)).
    assert (Hk : 0 <= k <= 64 - zlen tail /\ k <= zlen d /\ (k = zlen d \/ k = 64 - zlen tail)) by (unfold k, minz; pose proof (zlen_nonneg d); destruct (64 - zlen tail >? zlen d) eqn:E1; lia).
    clearbody k. cbn [obind]. set (tail' := tail ++ firstn (Z.to_nat k) d).
    destruct (bytes_ok_split d (Z.to_nat k) Hd) as (Hb1 & Hb2).
    assert (Ht' : zlen tail' = zlen tail + k) by (unfold tail'; rewrite zlen_app, zlen_firstn; lia).
    assert (Hp' : parts (c ++ firstn (Z.to_nat k) d) blks tail').
    { constructor; try assumption; [unfold tail'; rewrite Hc, app_assoc; reflexivity|lia|]. apply Forall_app. split; assumption. }
    destruct (zlen (skipn (Z.to_nat k) d) >? 0) eqn:E1.
    + rewrite zlen_skipn in E1. rewrite start_flag. unfold cs_of at 1 2 3 4 5 6 7. cbn [cs_cv cs_counter cs_buf cs_buf_len cs_blocks cs_flags].
      assert (H64 : zlen tail' = 64) by lia. rewrite pad_full by assumption.
      rewrite node64_ok by (assumption || apply (pa_tok _ _ _ Hp')).
      assert (Ec : c_add 8 (zlen blks) 1 = zlen (blks ++ [tail'])).
      { rewrite zlen_app. change (zlen [tail']) with 1. unfold c_add. apply Z.mod_small. pose proof (zlen_nonneg blks). lia. }
      rewrite Ec. change (CS (cvs t key F_CHUNK_START (blks ++ [tail'])) t (zeros 64) 0 (zlen (blks ++ [tail'])) flags) with (cs_of t (blks ++ [tail']) []).
      cbn [obind].
      replace (c ++ d) with ((c ++ firstn (Z.to_nat k) d) ++ skipn (Z.to_nat k) d) by (rewrite <- app_assoc, firstn_skipn; reflexivity).
      apply Hcons.
      * constructor; [rewrite concat_app; cbn [concat]; rewrite !app_nil_r; unfold tail'; rewrite Hc, app_assoc; reflexivity| | |cbn; lia|constructor].
        -- apply Forall_app. split; [assumption|]. apply Forall_cons; [assumption|constructor].
        -- apply Forall_app. split; [assumption|]. apply Forall_cons; [apply (pa_tok _ _ _ Hp')|constructor].
      * assumption.
      * rewrite zlen_app, zlen_firstn, zlen_skipn. lia.
      * intros E0. apply (f_equal zlen) in E0. rewrite zlen_skipn in E0. cbn in E0. lia.
    + cbn [obind]. rewrite zlen_skipn in E1. assert (Hkd : k = zlen d) by lia.
      assert (Hs : skipn (Z.to_nat k) d = []) by (apply skipn_all2; unfold zlen in *; lia).
      assert (Hfn : firstn (Z.to_nat k) d = d) by (apply firstn_all2; unfold zlen in *; lia).
      rewrite Hs. rewrite Hfn in Hp'. apply Hnil; [assumption|]. intros E0. apply (f_equal zlen) in E0. cbn in E0. lia.
  - assert (tail = []) as -> by (apply zlen_0; pose proof (zlen_nonneg tail); lia). rewrite (Hz eq_refl) in *. cbn [obind].
    destruct d as [|x d]; [rewrite app_nil_r; apply Hnil; [assumption|auto]|]. apply Hcons; (assumption || congruence).
Qed.

Lemma chunk_init_ok t : cs_inv t [] (chunk_state_init key t flags).
Proof. exists [], []. splits; [|reflexivity|reflexivity]. constructor; try constructor. cbn. lia. Qed.
Lemma chunk_len_ok t c s : cs_inv t c s -> chunk_state_len s = zlen c.
Proof. intros (blks & tail & Hp & _ & ->). rewrite (parts_len _ _ _ Hp). reflexivity. Qed.
Lemma chunk_bytes_ok t c s : cs_inv t c s -> bytes_ok c.
Proof. intros (blks & tail & [-> _ Hok _ Htok] & _). apply Forall_app. split; [|assumption]. induction Hok as [|b l Hb _ IH]; [constructor|]. apply Forall_app. split; assumption. Qed.
Lemma chunk_fields t c s : cs_inv t c s -> cs_counter s = t /\ cs_flags s = flags.
Proof. intros (blks & tail & _ & _ & ->). split; reflexivity. Qed.

(* ---- whole chunks at once ---- *)
Lemma hash_one_loop_ok t blks : 0 <= t < 2 ^ 64 -> blks <> [] -> Forall (fun b => zlen b = 64) blks -> Forall bytes_ok blks -> forall cv start, okw 8 cv -> start = 1 \/ start = 0 ->
  hash_one_loop (length blks) (concat blks) cv t flags (Z.lor flags start) F_CHUNK_END = node_words (b3_blocks flags t cv start blks).
Proof.
  intros Ht. induction blks as [|b blks IH]; intros Hne Hl Hok cv start Hcv Hs; [congruence|]. apply Forall_cons_iff in Hl as (Hl1 & Hl2), Hok as (Hok1 & Hok2).
  cbn [length hash_one_loop concat]. assert (Eb : length b = 64%nat) by (unfold zlen in Hl1; lia).
  rewrite (firstn_app_l b) by assumption. rewrite skipn_app, skipn_all2, Eb, Nat.sub_diag by lia. cbn [app skipn].
  assert (Em : t = t mod 2 ^ 64) by (symmetry; apply Z.mod_small; assumption).
  assert (H64 : word_ok 32 64) by (unfold word_ok; lia).
  destruct blks as [|b' blks].
  - cbn [length Nat.eqb hash_one_loop b3_blocks]. rewrite pad_full, Hl1 by assumption.
    refine (proj1 (in_place_ok (Node cv b 64 t (Z.lor (Z.lor flags start) F_CHUNK_END)) t _ Em)).
    unfold node_ok. cbn [nd_cv nd_block nd_len nd_t nd_flags]. splits; try assumption; [lia|].
    apply word_ok_lor; [lia|apply ok_start; assumption|unfold word_ok, F_CHUNK_END; lia].
  - cbn [length Nat.eqb]. 
    assert (Hn : node_ok (Node cv b 64 t (Z.lor flags start))).
    { unfold node_ok. cbn [nd_cv nd_block nd_len nd_t nd_flags]. splits; try assumption; [lia|]. apply ok_start; assumption. }
    destruct (in_place_ok _ t Hn Em) as (E & Hw). cbn [nd_cv nd_block nd_len nd_t nd_flags] in E. rewrite E.
    replace flags with (Z.lor flags 0) at 3 by apply Z.lor_0_r.
    cbn [length] in IH. rewrite IH; [reflexivity|discriminate|assumption|assumption|assumption|right; reflexivity].
Qed.
Lemma hash_one_ok t c : 0 <= t < 2 ^ 64 -> zlen c = 1024 -> bytes_ok c ->
  hash_one c 16 key t flags CHUNK_START CHUNK_END = node_cv (chunk_node key flags t c).
Proof.
  intros Ht Hl Hb. unfold hash_one, node_cv. rewrite store_words32_ok. refine (f_equal (fun w => concat (map (to_le 4) w)) _).
  destruct (split_blocks 64 c ltac:(lia)) as (blks & tail & E & H1 & H2 & H3 & H4). destruct (H4 Hb) as (H5 & _). rewrite Hl in H3. change (1024 mod 64) with 0 in H3. apply zlen_0 in H3. subst tail.
  rewrite app_nil_r in E. assert (Hz : zlen blks = 16) by (apply (f_equal zlen) in E; rewrite (zlen_concat64 64) in E by assumption; lia).
  assert (Hn : length blks = 16%nat) by (unfold zlen in Hz; lia).
  unfold chunk_node. destruct c as [|x c'] eqn:Ec; [cbn in Hl; lia|]. rewrite <- Ec in *. clear Ec x c'. rewrite E, (chunks_concat0 64) by (assumption || lia).
  rewrite <- Hn. apply hash_one_loop_ok; try assumption; [destruct blks; [discriminate|discriminate]|left; reflexivity].
Qed.
End Chunk.
