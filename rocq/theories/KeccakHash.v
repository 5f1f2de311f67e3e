(* Buffering and padding of keccak.c; the SHA-3 and Keccak objects. *)
From Verif Require Import Prelude PreludeFacts BytesNum SpecBlock BlockTotal Word HashModel HashSpec HashFacts MdModel ShaModel KeccakModel SpecHash SpecKeccak MdHash Sha Keccak.

(* ---- padding, bits to bytes ---- *)
Definition bits8 (b : Z) : list bool := map (fun i => Z.testbit b (Z.of_nat i)) (seq 0 8).
Definition value8 (b0 b1 b2 b3 b4 b5 b6 b7 : bool) : Z :=
  Z.b2z b0 + 2 * Z.b2z b1 + 4 * Z.b2z b2 + 8 * Z.b2z b3 + 16 * Z.b2z b4 + 32 * Z.b2z b5 + 64 * Z.b2z b6 + 128 * Z.b2z b7.
Lemma value_bits b : byte_ok b ->
  value8 (Z.testbit b 0) (Z.testbit b 1) (Z.testbit b 2) (Z.testbit b 3) (Z.testbit b 4) (Z.testbit b 5) (Z.testbit b 6) (Z.testbit b 7) = b.
Proof.
  intros H. assert (F : forallb (fun n => let b := Z.of_nat n in value8 (Z.testbit b 0) (Z.testbit b 1) (Z.testbit b 2) (Z.testbit b 3) (Z.testbit b 4) (Z.testbit b 5) (Z.testbit b 6) (Z.testbit b 7) =? b) (seq 0 256) = true) by (vm_compute; reflexivity).
  rewrite forallb_forall in F. specialize (F (Z.to_nat b)). rewrite in_seq in F. unfold byte_ok in H. specialize (F ltac:(lia)). cbv zeta in F. rewrite Z2Nat.id in F by lia. apply Z.eqb_eq. exact F.
Qed.
Lemma bytes_of_bits f m l : bytes_ok m -> bytes_of (length m + f) (bits_of m ++ l) = m ++ bytes_of f l.
Proof.
  induction m as [|b m IH]; intros H; [reflexivity|]. apply Forall_cons_iff in H as (Hb & Hm).
  change (bits_of (b :: m)) with (bits8 b ++ bits_of m). rewrite <- app_assoc. unfold bits8. cbn [length Nat.add seq map app bytes_of]. rewrite IH by assumption.
  f_equal. apply (value_bits b Hb).
Qed.
Lemma bytes_of_falses f n l : bytes_of (n + f) (repeat false (8 * n) ++ l) = repeat 0 n ++ bytes_of f l.
Proof.
  induction n as [|n IH]; [reflexivity|]. replace (8 * S n)%nat with (S (S (S (S (S (S (S (S (8 * n)))))))))%nat by lia.
  cbn [repeat app Nat.add bytes_of]. rewrite IH. reflexivity.
Qed.
Lemma bytes_of_fuel f : forall l g, (length l <= 8 * f)%nat -> (length l <= 8 * g)%nat -> bytes_of f l = bytes_of g l.
Proof.
  induction f as [|f IH]; intros l g Hf Hg.
  - destruct l; [|cbn in Hf; lia]. destruct g; reflexivity.
  - destruct g as [|g]; [destruct l; [reflexivity|cbn in Hg; lia]|]. cbn [bytes_of].
    do 8 (destruct l as [|? l]; [reflexivity|]). f_equal. cbn [length] in Hf, Hg. apply IH; lia.
Qed.

(* the last bytes, after n bytes of the last block *)
Definition suffix_byte (suffix : list bool) : Z := match suffix with [] => 1 | _ => 6 end.
Lemma zlen_bits m : Z.of_nat (length (bits_of m)) = 8 * zlen m.
Proof. unfold bits_of. induction m as [|b m IH]; [reflexivity|]. cbn [map concat]. rewrite app_length, zlen_cons, Nat2Z.inj_add, IH. cbn [map seq length]. lia. Qed.

Lemma sponge_input_ok rsiz suffix m k : suffix = [] \/ suffix = [false; true] -> bytes_ok m -> 0 < k <= rsiz -> (zlen m + k) mod rsiz = 0 ->
  sponge_input (8 * rsiz) suffix m = m ++ (if k =? 1 then [Z.lor (suffix_byte suffix) 128] else [suffix_byte suffix] ++ zeros (k - 2) ++ [128]).
Proof.
  intros Hs Hm Hk Hmod. unfold sponge_input. cbv zeta. set (s := Z.of_nat (length suffix)).
  assert (Hsl : s = 0 \/ s = 2) by (unfold s; destruct Hs as [-> | ->]; cbn; lia).
  assert (Em : (- Z.of_nat (length (bits_of m ++ suffix)) - 2) mod (8 * rsiz) = 8 * k - s - 2).
  { rewrite app_length, Nat2Z.inj_add, zlen_bits. fold s. apply Z.mod_divide in Hmod; [|lia]. destruct Hmod as (q & Hq).
    symmetry. apply Z.mod_unique_pos with (- q); lia. }
  unfold pad101. rewrite Em. rewrite <- app_assoc.
  set (tl := suffix ++ [true] ++ repeat false (Z.to_nat (8 * k - s - 2)) ++ [true]).
  assert (Hlt : length tl = Z.to_nat (8 * k)).
  { unfold tl. rewrite !app_length, repeat_length. cbn [length]. unfold s in *. lia. }
  rewrite (bytes_of_fuel _ _ (length m + Z.to_nat k)).
  2,3: rewrite !app_length; pose proof (zlen_bits m); unfold zlen in *; lia.
  rewrite bytes_of_bits by assumption. f_equal. clear Em.
  destruct (Z.eqb_spec k 1) as [->|].
  - destruct Hs as [-> | ->]; vm_compute; reflexivity.
  - assert (Et : exists j, (repeat false (Z.to_nat (8 * k - s - 2)) = repeat false j ++ repeat false (8 * Z.to_nat (k - 2)) ++ repeat false 7)%nat /\ j = Z.to_nat (8 - s - 1)).
    { exists (Z.to_nat (8 - s - 1)). split; [|reflexivity]. rewrite <- !repeat_app. f_equal. lia. }
    destruct Et as (j & Et & Ej). unfold tl. rewrite Et. clear Et Hlt tl.
    replace (Z.to_nat k) with (S (Z.to_nat (k - 2) + 1)) by lia.
    assert (Hj : exists b0 b1 b2 b3 b4 b5 b6 b7, suffix ++ [true] ++ repeat false j = [b0; b1; b2; b3; b4; b5; b6; b7] /\ value8 b0 b1 b2 b3 b4 b5 b6 b7 = suffix_byte suffix).
    { subst j s. destruct Hs as [-> | ->]; cbn; repeat eexists. }
    destruct Hj as (b0 & b1 & b2 & b3 & b4 & b5 & b6 & b7 & E1 & E2).
    replace (suffix ++ [true] ++ (repeat false j ++ repeat false (8 * Z.to_nat (k - 2)) ++ repeat false 7) ++ [true])
      with ((suffix ++ [true] ++ repeat false j) ++ repeat false (8 * Z.to_nat (k - 2)) ++ repeat false 7 ++ [true]) by (rewrite <- !app_assoc; reflexivity).
    rewrite E1. cbn [app bytes_of]. fold (value8 b0 b1 b2 b3 b4 b5 b6 b7). rewrite E2. f_equal. rewrite bytes_of_falses. reflexivity.
Qed.

Section Sponge.
Variables rsiz hsiz : Z.
Hypothesis Hr : 0 < rsiz <= 144.
Hypothesis Hr8 : rsiz mod 8 = 0.
Let absorb A blk := keccak_f (xor_block A blk).
Let st0 := repeat 0 25.

Lemma block_ok A b : ok25 A -> zlen b = rsiz -> bytes_ok b -> KeccakAbsorb A b = absorb A b /\ ok25 (absorb A b).
Proof. intros HA Hb Hok. apply absorb_ok; [assumption|rewrite Hb; assumption|lia|assumption]. Qed.

Definition k_inv (c : k_ctx) (msg : bytes) : Prop :=
  bytes_ok msg /\ exists blks tail junk, msg = concat blks ++ tail /\ Forall (fun b => zlen b = rsiz) blks /\ zlen tail < rsiz /\
    ok25 (fold_left absorb blks st0) /\ k_state c = fold_left absorb blks st0 /\ k_num c = zlen tail /\
    k_buf c = tail ++ junk /\ zlen (tail ++ junk) = 144 /\ k_rsiz c = rsiz /\ k_hsiz c = hsiz.

Lemma k_blocks_ok fuel : forall blks buf data, (length data < fuel)%nat ->
  ok25 (fold_left absorb blks st0) -> Forall (fun b => zlen b = rsiz) blks -> zlen buf = 144 -> bytes_ok data ->
  exists blks' tail junk, k_blocks fuel rsiz (fold_left absorb blks st0) buf data = Ret (fold_left absorb blks' st0, zlen tail, tail ++ junk) /\
    concat blks ++ data = concat blks' ++ tail /\ Forall (fun b => zlen b = rsiz) blks' /\ zlen tail < rsiz /\
    ok25 (fold_left absorb blks' st0) /\ zlen (tail ++ junk) = 144.
Proof.
  induction fuel as [|fuel IH]; intros blks buf data Hf Hok Hbl Hbuf Hb; [lia|]. cbn [k_blocks].
  pose proof (zlen_nonneg data) as Hd. destruct (zlen data >=? rsiz) eqn:E.
  - assert (H1 : zlen (firstn (Z.to_nat rsiz) data) = rsiz) by (rewrite zlen_firstn; lia).
    destruct (block_ok (fold_left absorb blks st0) (firstn (Z.to_nat rsiz) data) Hok H1 (Forall_firstn _ _ _ Hb)) as (-> & Hok').
    destruct (IH (blks ++ [firstn (Z.to_nat rsiz) data]) buf (skipn (Z.to_nat rsiz) data)) as (blks' & tail & junk & E1 & E2 & H3).
    { rewrite skipn_length. unfold zlen in *. lia. }
    { rewrite fold_left_app. assumption. }
    { apply Forall_app; split; [assumption|]. repeat constructor; assumption. }
    { assumption. } { apply Forall_skipn; assumption. }
    rewrite fold_left_app in E1. cbn [fold_left] in E1. exists blks', tail, junk. split; [exact E1|]. split; [|assumption].
    rewrite <- E2, concat_app. cbn [concat]. rewrite app_nil_r, <- app_assoc, firstn_skipn. reflexivity.
  - assert (Ebuf : (if zlen data >? 0 then c_memcpy buf 0 data else Ret buf) = Ret (data ++ skipn (length data) buf)).
    { destruct (zlen data >? 0) eqn:E0; [rewrite c_memcpy_ok by lia; rewrite splice_0; reflexivity|].
      assert (data = []) as -> by (apply zlen_0; lia). reflexivity. }
    rewrite Ebuf. cbn [obind]. exists blks, data, (skipn (length data) buf). repeat split; try assumption; try lia.
    + apply Hok. + apply Hok.
    + rewrite zlen_app, zlen_skipn. unfold zlen in *. lia.
Qed.

Lemma k_absorb_ok c msg data : k_inv c msg -> bytes_ok data ->
  exists c', SHA3_absorb c data = Ret c' /\ k_inv c' (msg ++ data).
Proof.
  intros (Hbm & blks & tail & junk & Em & Hbl & Ht & Hok & Es & En & Ebuf & Hlen & Er & Eh) Hb.
  pose proof (zlen_nonneg data) as Hd. pose proof (zlen_nonneg tail) as Htl.
  unfold SHA3_absorb.
  assert (Hbm' : bytes_ok (msg ++ data)) by (apply bytes_ok_app; split; assumption).
  rewrite En, Ebuf, Es, Er, Eh. assert (Hbtail : bytes_ok tail) by (rewrite Em in Hbm; apply bytes_ok_app in Hbm; apply Hbm).
  destruct (zlen tail =? 0) eqn:E0; cbn [negb].
  - assert (tail = []) as -> by (apply zlen_0; lia). cbn [app] in *.
    destruct (k_blocks_ok (S (length data)) blks junk data) as (blks' & tail' & junk' & -> & E2 & H4 & H5 & H6 & H7);
      [lia|assumption|assumption|assumption|assumption|]. cbn [obind]. eexists. split; [reflexivity|].
    split; [assumption|]. exists blks', tail', junk'. cbn [k_state k_num k_buf k_rsiz k_hsiz].
    splits; try assumption; try reflexivity. rewrite Em, app_nil_r. assumption.
  - destruct (zlen data <? rsiz - zlen tail) eqn:E1.
    + rewrite c_memcpy_ok by lia. cbn [obind]. eexists. split; [reflexivity|]. rewrite splice_app_mid by reflexivity.
      split; [assumption|]. exists blks, (tail ++ data), (skipn (length data) junk). cbn [k_state k_num k_buf k_rsiz k_hsiz].
      rewrite <- app_assoc, !zlen_app, zlen_skipn. rewrite zlen_app in Hlen.
      splits; try assumption; try reflexivity; try lia.
      * rewrite Em, app_assoc; reflexivity.
      * clear - E1 Hlen Htl Hr. unfold zlen in *. lia.
    + set (d1 := firstn (Z.to_nat (rsiz - zlen tail)) data). set (d2 := skipn (Z.to_nat (rsiz - zlen tail)) data).
      assert (Ed : data = d1 ++ d2) by (symmetry; apply firstn_skipn).
      assert (Hd1 : zlen d1 = rsiz - zlen tail) by (unfold d1; rewrite zlen_firstn; lia).
      rewrite c_memcpy_ok by lia. cbn [obind]. rewrite splice_app_mid by reflexivity.
      assert (Hbd : bytes_ok d1 /\ bytes_ok d2) by (apply bytes_ok_app; rewrite <- Ed; assumption).
      assert (Hblk : zlen (tail ++ d1) = rsiz) by (rewrite zlen_app; lia).
      assert (Ef : firstn (Z.to_nat rsiz) (tail ++ d1 ++ skipn (length d1) junk) = tail ++ d1).
      { rewrite app_assoc, firstn_app, firstn_all2 by (unfold zlen in *; lia).
        replace (Z.to_nat rsiz - length (tail ++ d1))%nat with O by (unfold zlen in *; lia). apply app_nil_r. }
      rewrite Ef.
      destruct (block_ok (fold_left absorb blks st0) (tail ++ d1) Hok Hblk) as (-> & Hok').
      { apply bytes_ok_app. split; [assumption|apply Hbd]. }
      destruct (k_blocks_ok (S (length d2)) (blks ++ [tail ++ d1]) (tail ++ d1 ++ skipn (length d1) junk) d2) as (blks' & tail' & junk' & E4 & E5 & H4 & H5 & H6 & H7).
      { lia. } { rewrite fold_left_app. assumption. } { apply Forall_app; split; [assumption|repeat constructor; assumption]. }
      { rewrite !zlen_app, zlen_skipn. rewrite zlen_app in Hlen. unfold zlen in *. lia. } { apply Hbd. }
      rewrite fold_left_app in E4. cbn [fold_left] in E4. rewrite E4. cbn [obind]. eexists. split; [reflexivity|].
      split; [assumption|]. exists blks', tail', junk'. cbn [k_state k_num k_buf k_rsiz k_hsiz].
      splits; try assumption; try reflexivity. rewrite <- E5, Em, concat_app. cbn [concat].
      rewrite app_nil_r, <- !app_assoc. rewrite <- Ed. reflexivity.
Qed.

Lemma k_extract_ok suffix c msg : suffix = [] \/ suffix = [false; true] -> k_inv c msg ->
  exists c' st, ok25 st /\ st = sponge (8 * rsiz) suffix msg /\
    SHA3_extract (suffix_byte suffix) c = (let o := k_output st hsiz in if zlen o >? hsiz then Undef else Ret (c', o)).
Proof.
  intros Hs (Hbm & blks & tail & junk & Em & Hbl & Ht & Hok & Es & En & Ebuf & Hlen & Er & Eh).
  pose proof (zlen_nonneg tail) as Htl. unfold SHA3_extract. rewrite En, Ebuf, Es, Er, Eh.
  assert (Hbtail : bytes_ok tail) by (rewrite Em in Hbm; apply bytes_ok_app in Hbm; apply Hbm).
  set (sb := suffix_byte suffix) in *. assert (Hsb : byte_ok sb /\ byte_ok (Z.lor sb 128)) by (unfold sb; destruct Hs as [-> | ->]; cbn; unfold byte_ok; lia).
  rewrite zlen_app in Hlen.
  rewrite c_memcpy_ok by (rewrite ?zlen_app; change (zlen [sb]) with 1; lia). cbn [obind]. rewrite splice_app_mid by reflexivity. cbn [length].
  set (k := rsiz - zlen tail).
  assert (Hc : exists q, zlen (concat blks) = q * rsiz).
  { clear - Hbl. induction Hbl as [|b l Hb Hl IH]; [exists 0; reflexivity|]. destruct IH as (q & IH).
    exists (q + 1). cbn [concat]. rewrite zlen_app, IH, Hb. lia. }
  destruct Hc as (q & Hq).
  set (lst := if k =? 1 then [Z.lor sb 128] else [sb] ++ zeros (k - 2) ++ [128]).
  assert (Hlst : zlen lst = k).
  { unfold lst. destruct (Z.eqb_spec k 1); [cbn; lia|]. rewrite !zlen_app, zlen_zeros by lia. change (zlen [sb]) with 1. change (zlen [128]) with 1. lia. }
  assert (HS : sponge (8 * rsiz) suffix msg = absorb (fold_left absorb blks st0) (tail ++ lst)).
  { unfold sponge. rewrite (sponge_input_ok rsiz suffix msg k Hs Hbm).
    - fold sb. fold lst. replace (8 * rsiz / 8) with rsiz by (rewrite Z.mul_comm; symmetry; apply Z.div_mul; lia).
      rewrite Em, <- app_assoc, chunks_concat by (assumption || lia). rewrite fold_left_app.
      rewrite (chunks_short rsiz (tail ++ lst)) by (rewrite zlen_app; lia). reflexivity.
    - unfold k. lia.
    - rewrite Em, zlen_app, Hq. replace (q * rsiz + zlen tail + k) with ((q + 1) * rsiz) by (unfold k; lia). apply Z.mod_mul. lia. }
  rewrite c_memset0_ok by (rewrite ?zlen_app, ?zlen_skipn; change (zlen [sb]) with 1; unfold zlen in *; lia). cbn [obind].
  rewrite app_assoc, splice_app_mid by (rewrite zlen_app; reflexivity).
  set (buf2 := (tail ++ [sb]) ++ zeros (rsiz - (zlen tail + 1)) ++ skipn (length (zeros (rsiz - (zlen tail + 1)))) (skipn 1 junk)).
  set (rest := skipn (length (zeros (rsiz - (zlen tail + 1)))) (skipn 1 junk)) in *.
  assert (Hrest : zlen rest = 144 - rsiz).
  { unfold rest. rewrite !zlen_skipn. unfold zeros. rewrite repeat_length. cbn [length]. unfold zlen in *. lia. }
  assert (Hbuf2 : zlen buf2 = 144) by (unfold buf2; rewrite !zlen_app, zlen_zeros by lia; change (zlen [sb]) with 1; lia).
  rewrite c_memcpy_ok by (change (zlen [_]) with 1; lia). cbn [obind].
  set (x := nth (Z.to_nat (rsiz - 1)) buf2 0).
  assert (E3 : splice buf2 (rsiz - 1) [Z.lor x 128] = (tail ++ lst) ++ rest).
  { unfold lst. destruct (Z.eqb_spec k 1) as [Ek|Ek].
    - assert (Ez : zeros (rsiz - (zlen tail + 1)) = []) by (replace (rsiz - (zlen tail + 1)) with 0 by (unfold k in Ek; lia); reflexivity).
      unfold buf2, x, buf2. rewrite Ez. cbn [app]. rewrite <- app_assoc.
      rewrite app_nth2 by (unfold k, zlen in *; lia). replace (Z.to_nat (rsiz - 1) - length tail)%nat with O by (unfold k, zlen in *; lia). cbn [nth app].
      rewrite splice_app_mid by (unfold k in Ek; lia). rewrite <- app_assoc. reflexivity.
    - assert (Ez : zeros (rsiz - (zlen tail + 1)) = zeros (k - 2) ++ [0]).
      { unfold zeros. replace (Z.to_nat (rsiz - (zlen tail + 1))) with (Z.to_nat (k - 2) + 1)%nat by (unfold k in *; lia). apply repeat_app. }
      unfold x, buf2. rewrite Ez. replace ((tail ++ [sb]) ++ (zeros (k - 2) ++ [0]) ++ rest) with (((tail ++ [sb]) ++ zeros (k - 2)) ++ [0] ++ rest) by (rewrite <- !app_assoc; reflexivity).
      assert (Hpre : zlen ((tail ++ [sb]) ++ zeros (k - 2)) = rsiz - 1) by (rewrite !zlen_app, zlen_zeros by lia; change (zlen [sb]) with 1; unfold k; lia).
      rewrite app_nth2 by (unfold zlen in *; lia). replace (Z.to_nat (rsiz - 1) - length ((tail ++ [sb]) ++ zeros (k - 2)))%nat with O by (unfold zlen in *; lia). cbn [nth app].
      rewrite splice_app_mid by lia. change (Z.lor 0 128) with 128. cbn [length skipn app]. rewrite <- !app_assoc. cbn [app]. rewrite <- ?app_assoc. reflexivity. }
  rewrite E3. assert (Ef : firstn (Z.to_nat rsiz) ((tail ++ lst) ++ rest) = tail ++ lst).
  { assert (zlen (tail ++ lst) = rsiz) by (rewrite zlen_app; unfold k in *; lia).
    rewrite firstn_app, firstn_all2 by (unfold zlen in *; lia).
    replace (Z.to_nat rsiz - length (tail ++ lst))%nat with O by (unfold zlen in *; lia). apply app_nil_r. }
  rewrite Ef.
  destruct (block_ok (fold_left absorb blks st0) (tail ++ lst) Hok) as (-> & Hok').
  { rewrite zlen_app. unfold k in *; lia. }
  { apply bytes_ok_app. split; [assumption|]. unfold lst. destruct (k =? 1); [repeat constructor; apply Hsb|].
    apply bytes_ok_app. split; [repeat constructor; apply Hsb|]. apply bytes_ok_app. split; [apply bytes_ok_zeros|]. repeat constructor; unfold byte_ok; lia. }
  rewrite <- HS. rewrite <- HS in Hok'. eexists. exists (sponge (8 * rsiz) suffix msg). split; [assumption|]. split; [reflexivity|]. reflexivity.
Qed.
End Sponge.

Lemma to_le8 x : to_le 8 x = map (fun k => Z.shiftr x (8 * k) mod 256) [0; 1; 2; 3; 4; 5; 6; 7].
Proof. cbn [to_le map]. rewrite !Z.shiftr_div_pow2 by lia. rewrite !Z.div_div by lia. rewrite Z.div_1_r. reflexivity. Qed.

Lemma k_output_ok st hsiz : length st = 25%nat -> 0 <= hsiz <= 100 -> hsiz mod 4 = 0 ->
  k_output st hsiz = firstn (Z.to_nat hsiz) (concat (map (to_le 8) st)) /\ zlen (k_output st hsiz) = hsiz.
Proof.
  intros Hl Hh H4. assert (E : 4 * ((hsiz + 3) / 4) = hsiz).
  { pose proof (Z.div_mod hsiz 4). rewrite H4 in H. replace (hsiz + 3) with (3 + hsiz / 4 * 4) by lia. rewrite Z.div_add by lia. change (3 / 4) with 0. lia. }
  unfold k_output. cbv zeta. rewrite E.
  set (n := Z.to_nat ((hsiz + 7) / 8)). assert (Hn : (n <= 25)%nat /\ (Z.to_nat hsiz <= 8 * n)%nat).
  { pose proof (Z.div_mod (hsiz + 7) 8). pose proof (Z.mod_pos_bound (hsiz + 7) 8). unfold n. lia. }
  assert (EM : map (fun i => map (fun k => Z.shiftr (kget st i) (8 * k) mod 256) [0; 1; 2; 3; 4; 5; 6; 7]) (seq 0 n) = firstn n (map (to_le 8) st)).
  { apply (nth_ext _ _ [] []).
    - rewrite map_length, seq_length, firstn_length, map_length. lia.
    - intros i Hi. rewrite map_length, seq_length in Hi. rewrite nth_map_seq by assumption.
      assert (Hfl : length (firstn n (map (to_le 8) st)) = n) by (rewrite firstn_length, map_length; lia).
      transitivity (nth i (map (to_le 8) st) []).
      + rewrite (nth_indep _ [] (to_le 8 0)) by (rewrite map_length; lia). rewrite map_nth. rewrite <- to_le8. reflexivity.
      + transitivity (nth i (firstn n (map (to_le 8) st) ++ skipn n (map (to_le 8) st)) []); [rewrite firstn_skipn; reflexivity|]. apply app_nth1. lia. }
  rewrite EM. clear EM.
  assert (HF : Forall (fun x : bytes => length x = 8%nat) (map (to_le 8) st)) by (apply Forall_map, Forall_forall; intros; apply length_to_le).
  rewrite <- (concat_firstn (map (to_le 8) st) 8 n HF). rewrite firstn_firstn. replace (Nat.min (Z.to_nat hsiz) (n * 8)) with (Z.to_nat hsiz) by lia.
  split; [reflexivity|]. rewrite zlen_firstn.
  assert (length (concat (map (to_le 8) st)) = 200%nat).
  { clear - HF Hl. rewrite <- (map_length (to_le 8)) in Hl. revert Hl HF. generalize (map (to_le 8) st). intros l Hl HF.
    transitivity (length l * 8)%nat; [|rewrite Hl; reflexivity]. clear Hl. induction HF as [|x l Hx HF IH]; [reflexivity|]. cbn [concat]. rewrite app_length, IH, Hx. cbn [length]. lia. }
  unfold zlen. lia.
Qed.

Definition sha3_R (sz : Z) (c : option k_ctx) (m : bytes) : Prop :=
  exists k, c = Some k /\ k_inv (200 - 2 * (sz / 8)) (sz / 8) k m.
Lemma sha3_himpl sz official : sz = 224 \/ sz = 256 \/ sz = 384 \/ sz = 512 ->
  himpl (fun _ => True) (sha3_class sz official) (fun m => Ret (if official then sha3_spec sz m else keccak_spec sz m)) (sha3_R sz).
Proof.
  intros Hsz. assert (Hr : 0 < 200 - 2 * (sz / 8) <= 144 /\ (200 - 2 * (sz / 8)) mod 8 = 0 /\ 0 <= sz / 8 <= 100 /\ (sz / 8) mod 4 = 0 /\ 8 * (200 - 2 * (sz / 8)) = 1600 - 2 * sz).
  { destruct Hsz as [-> | [-> | [-> | ->]]]; vm_compute; intuition congruence. }
  destruct Hr as (Hr1 & Hr2 & Hh & Hh4 & Hrr).
  apply c_hash_himpl; [trivial| |].
  - intros k m d (c & -> & Hc) Hb _ _. destruct (k_absorb_ok _ _ Hr1 Hr2 c m d Hc Hb) as (c' & E & Hc'). exists (Some c'). unfold sha3_upd. rewrite E. split; [reflexivity|].
    exists c'. split; [reflexivity|assumption].
  - intros k m (c & -> & Hc) _. unfold sha3_fin. set (suffix := if official then [false; true] else [] : list bool).
    assert (Hs : suffix = [] \/ suffix = [false; true]) by (unfold suffix; destruct official; auto).
    replace (if official then 6 else 1) with (suffix_byte suffix) by (unfold suffix; destruct official; reflexivity).
    destruct (k_extract_ok _ _ Hr1 Hr2 suffix c m Hs Hc) as (c' & st & Hst & Est & ->). cbv zeta.
    destruct (k_output_ok st (sz / 8) (proj1 Hst) Hh Hh4) as (E1 & E2). rewrite E2.
    assert (sz / 8 >? sz / 8 = false) as -> by lia. cbn [snd]. rewrite E1, Est, Hrr. unfold suffix. destruct official; reflexivity.
Qed.
Lemma sha3_new_ok fresh : (forall n, 0 <= n -> zlen (fresh n) = n) -> forall sz official, sz = 224 \/ sz = 256 \/ sz = 384 \/ sz = 512 ->
  exists o, sha3_new fresh sz official = Ret o /\ h_size (ho_class o) = sz / 8 /\ computes o (if official then sha3_spec sz else keccak_spec sz).
Proof.
  intros Hf sz official Hsz. eexists. split; [|split; [|eapply (himpl_computes _ _ _ _ _ (himpl_ext _ _ _ _ _ (sha3_himpl sz official Hsz) _))]].
  - unfold sha3_new. assert ((sz =? 224) || (sz =? 256) || (sz =? 384) || (sz =? 512) = true) as -> by lia. reflexivity.
  - reflexivity.
  - exists (SHA3_init sz (fresh 144)). split; [reflexivity|]. split; [constructor|]. exists [], [], (fresh 144).
    cbn [SHA3_init k_state k_num k_buf k_rsiz k_hsiz concat app fold_left].
    assert (0 < 200 - 2 * (sz / 8)) by (destruct Hsz as [-> | [-> | [-> | ->]]]; vm_compute; reflexivity).
    splits; try reflexivity; try assumption; try (constructor; fail).
    + split; [reflexivity|]. apply Forall_forall. intros x Hx. apply repeat_spec in Hx. subst x. unfold word_ok. lia.
    + apply Hf. lia.
  Unshelve. intros s m _ _. destruct official; reflexivity.
Qed.
Lemma sha3_new_other fresh sz official : ~ (sz = 224 \/ sz = 256 \/ sz = 384 \/ sz = 512) -> sha3_new fresh sz official = Raise (Error Wrong_key_size).
Proof. intros H. unfold sha3_new. destruct ((sz =? 224) || (sz =? 256) || (sz =? 384) || (sz =? 512)) eqn:E; [lia|reflexivity]. Qed.
