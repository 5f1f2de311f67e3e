(* Memory safety of hash and MAC objects for any sequence of calls, wipe included *)
From Verif Require Import Prelude PreludeFacts BytesNum SpecTransducer TransformModel BlockModel CipherModel HashModel MacModel MdModel ShaModel Sha RipemdModel
  Blake2Model SipModel KeccakModel Keccak Blake3Model CipherSpec SpecWipe WipeSafe WipeCipher.

Lemma ret_inj {A} (a b : A) : Ret a = Ret b -> a = b.
Proof. congruence. Qed.
Definition h_good (w : bool) (H : hash) (I : h_st H -> Prop) : Prop :=
  forall s o, I s -> hop_possible o -> w = true \/ o <> HWipe -> I (fst (h_step H s o)) /\ snd (h_step H s o) <> OUndef.
Definition unwiped_hash_safe (H : hash) (s : h_st H) : Prop :=
  forall l, Forall hop_possible l -> ~ In HWipe l -> ~ In OUndef (snd (h_run H s l)).
Lemma h_good_run w H I : h_good w H I -> forall l s, I s -> Forall hop_possible l -> w = true \/ ~ In HWipe l -> I (fst (h_run H s l)) /\ ~ In OUndef (snd (h_run H s l)).
Proof.
  intros HG. induction l as [|o l IH]; intros s Hs Hl Hw; cbn [h_run]; [now split|]. inversion Hl; subst.
  destruct (HG s o Hs) as (G1 & G2); [assumption|destruct Hw as [Hw|Hw]; [now left|right; intros ->; apply Hw; now left]|].
  destruct (h_step H s o) as [s1 ob]. cbn [fst snd] in *.
  destruct (IH s1 G1) as (I1 & I2); [assumption|destruct Hw as [Hw|Hw]; [now left|right; intros E; apply Hw; now right]|].
  destruct (h_run H s1 l) as [s2 obs]. cbn [fst snd] in *. split; [exact I1|]. intros [E|E]; [now apply G2|now apply I2].
Qed.
Lemma h_good_safe H I s : h_good true H I -> I s -> hash_memory_safe H s.
Proof. intros HG Hs l Hl. apply (h_good_run true H I HG l); auto. Qed.
Lemma h_good_unwiped w H I s : h_good w H I -> I s -> unwiped_hash_safe H s.
Proof. intros HG Hs l Hl Hw. apply (h_good_run w H I HG l); auto. Qed.

Lemma c_hash_good (w : bool) K size upd fin wipe (I : K -> Prop) :
  (forall k d, I k -> upd k d <> Undef /\ forall k', upd k d = Ret k' -> I k') ->
  (forall k, I k -> good I (fin k)) -> (w = true -> forall k, I k -> I (wipe k)) -> h_good w (c_hash K size upd fin wipe) I.
Proof.
  intros Hu Hf Hw s o Hs Hp Ho.
  assert (forall src ofs len, in_range src ofs len = true -> good I (c_update upd s src ofs len)) as Hc.
  { intros src ofs len Hr. unfold c_update. rewrite Hr. destruct (Hu s (sub src ofs len) Hs) as (A & B).
    destruct (upd s (sub src ofs len)) as [k'|e| |]; [|now apply good_raise|now destruct A|split; [exact Hs|discriminate]]. apply good_ret. now apply B. }
  assert (forall src, good I (c_update upd s src 0 (zlen src))) as Hc0.
  { intros src. apply Hc. apply in_range_true. pose proof (zlen_nonneg src). lia. }
  destruct o as [b ofs len|str|c|n| |]; cbn [h_step].
  - apply unit_obs_good. cbn [c_hash h_add_substring]. destruct (_ || _) eqn:E; [now apply good_raise|]. apply Hc. apply in_range_true. lia.
  - apply unit_obs_good. apply Hc0.
  - apply unit_obs_good. apply Hc0.
  - apply unit_obs_good. apply Hc0.
  - apply bytes_obs_good. now apply Hf.
  - apply unit_obs_good. apply good_ret. destruct Ho as [Ho|Ho]; [now apply Hw|now destruct Ho].
Qed.

(* a call of memcpy or memset in range *)
Lemma memcpy_in dst ofs src : 0 <= ofs -> ofs + zlen src <= zlen dst -> exists r, c_memcpy dst ofs src = Ret r /\ zlen r = zlen dst.
Proof.
  intros H1 H2. pose proof (zlen_nonneg src). unfold c_memcpy. rewrite (proj2 (in_range_true _ _ _)) by lia. eexists. split; [reflexivity|]. apply zlen_splice; lia.
Qed.
Lemma memset_in dst ofs n : 0 <= ofs -> 0 <= n -> ofs + n <= zlen dst -> exists r, c_memset0 dst ofs n = Ret r /\ zlen r = zlen dst.
Proof.
  intros H1 H2 H3. unfold c_memset0. rewrite (proj2 (in_range_true _ _ _)) by lia. eexists. split; [reflexivity|]. apply zlen_splice; rewrite ?zlen_zeros; lia.
Qed.
Lemma zlen_firstn_le {A} n (l : list A) : zlen (firstn n l) <= Z.of_nat n /\ zlen (firstn n l) <= zlen l.
Proof. unfold zlen. rewrite firstn_length. lia. Qed.

(* ---------------- SHA-1, SHA-2, RIPEMD-160 ---------------- *)
Section Md.
Variables B W : Z.
Variable compress : list Z -> bytes -> list Z.
Variable enc_length : Z -> Z -> bytes.
Hypothesis B_pos : 0 < B.
Hypothesis L_ok : 0 <= 2 * (W / 8) /\ 2 * (W / 8) < B.
Hypothesis enc_len : forall a b, zlen (enc_length a b) = 2 * (W / 8).
Definition md_inv (c : md_ctx) : Prop := zlen (md_buf c) = B /\ 0 <= md_num c < B.
Lemma md_blocks_good fuel : forall st buf data, zlen buf = B ->
  md_blocks B compress fuel st buf data <> Undef /\ forall s n b, md_blocks B compress fuel st buf data = Ret (s, n, b) -> zlen b = B /\ 0 <= n < B.
Proof.
  induction fuel as [|f IH]; intros st buf data Hb; cbn [md_blocks]; [split; discriminate|]. rewrite Z.geb_leb. destruct (Z.leb_spec B (zlen data)) as [L|L].
  - pose proof (zlen_firstn_le (Z.to_nat B) data). destruct (memcpy_in buf 0 (firstn (Z.to_nat B) data)) as (r & -> & Lr); try lia. cbn [obind]. apply IH. lia.
  - pose proof (zlen_nonneg data). destruct (memcpy_in buf 0 data) as (r & -> & Lr); try lia. cbn [obind]. split; [discriminate|]. intros s n b E. injection E as <- <- <-. lia.
Qed.
Lemma md_add_good c d : md_inv c -> md_add_data B W compress c d <> Undef /\ forall c', md_add_data B W compress c d = Ret c' -> md_inv c'.
Proof.
  intros (H1 & H2). unfold md_add_data. destruct (md_add_length W (md_hi c) (md_lo c) (zlen d)) as [hi lo].
  assert (forall st buf data, zlen buf = B ->
    (olet r := md_blocks B compress (S (length data)) st buf data in let '(st, num, buf) := r in Ret (MD st hi lo num buf)) <> Undef /\
    forall c', (olet r := md_blocks B compress (S (length data)) st buf data in let '(st, num, buf) := r in Ret (MD st hi lo num buf)) = Ret c' -> md_inv c') as Hr.
  { intros st buf data Hb. destruct (md_blocks_good (S (length data)) st buf data Hb) as (A1 & A2).
    destruct (md_blocks B compress (S (length data)) st buf data) as [[[s n] b]|e| |]; cbn [obind]; try (split; discriminate); [|now destruct A1].
    split; [discriminate|]. intros c' E. injection E as <-. unfold md_inv. cbn [md_buf md_num]. now apply (A2 s n b). }
  pose proof (zlen_nonneg d) as Hd.
  destruct (Z.eqb_spec (md_num c) 0) as [E0|E0]; cbn [negb]; [now apply Hr|].
  destruct (Z.ltb_spec (zlen d) (B - md_num c)) as [L|L].
  - destruct (memcpy_in (md_buf c) (md_num c) d) as (r & -> & Lr); try lia. cbn [obind]. split; [discriminate|]. intros c' E. injection E as <-. unfold md_inv. cbn [md_buf md_num]. lia.
  - pose proof (zlen_firstn_le (Z.to_nat (B - md_num c)) d). destruct (memcpy_in (md_buf c) (md_num c) (firstn (Z.to_nat (B - md_num c)) d)) as (r & -> & Lr); try lia.
    cbn [obind]. apply Hr. lia.
Qed.
Lemma md_final_good output c : md_inv c -> good md_inv (md_final B W compress enc_length output c).
Proof.
  intros (H1 & H2). unfold md_final, md_finish. cbv zeta. set (L := 2 * (W / 8)) in *.
  destruct (memcpy_in (md_buf c) (md_num c) [128]) as (r & -> & Lr); try (change (zlen [128]) with 1; lia). cbn [obind].
  rewrite Z.gtb_ltb. destruct (Z.ltb_spec (B - L) (md_num c + 1)) as [G|G].
  - destruct (memset_in r (md_num c + 1) (B - (md_num c + 1))) as (r2 & -> & L2); try lia. cbn [obind].
    destruct (memset_in r2 0 (B - L - 0)) as (r3 & -> & L3); try lia. cbn [obind].
    destruct (memcpy_in r3 (B - L) (enc_length (md_hi c) (md_lo c))) as (r4 & -> & L4); try (rewrite ?enc_len; subst L; lia). cbn [obind].
    apply good_ret. unfold md_inv. cbn [md_buf md_num]. lia.
  - cbn [obind]. destruct (memset_in r (md_num c + 1) (B - L - (md_num c + 1))) as (r3 & -> & L3); try lia. cbn [obind].
    destruct (memcpy_in r3 (B - L) (enc_length (md_hi c) (md_lo c))) as (r4 & -> & L4); try (rewrite ?enc_len; subst L; lia). cbn [obind].
    apply good_ret. unfold md_inv. cbn [md_buf md_num]. lia.
Qed.
Lemma md_wipe_good c : md_inv c -> md_inv (md_wipe c).
Proof. intros (H1 & H2). unfold md_inv, md_wipe. cbn [md_buf md_num]. rewrite zlen_zeros by lia. lia. Qed.
Lemma md_hash_good size output : h_good true (c_hash md_ctx size (md_add_data B W compress) (md_final B W compress enc_length output) md_wipe) md_inv.
Proof.
  apply c_hash_good; [intros; now apply md_add_good|intros; now apply md_final_good|intros _; apply md_wipe_good].
Qed.
Lemma md_init_good fresh iv : (forall n, 0 <= n -> zlen (fresh n) = n) -> md_inv (md_init iv (fresh B)).
Proof. intros F. unfold md_inv, md_init. cbn [md_buf md_num]. rewrite F by lia. lia. Qed.
End Md.

(* ---------------- BLAKE2 ---------------- *)
Section Blake2.
Variables (w : Z) (rounds : nat) (r1 r2 r3 r4 : Z) (iv : list Z).
Local Notation B := (16 * (w / 8)).
Local Notation add := (b2_add_data w rounds r1 r2 r3 r4 iv).
Local Notation blocks := (b2_blocks w rounds r1 r2 r3 r4 iv).
Hypothesis B_pos : 0 < w / 8.
Definition b2_inv (c : b2_ctx) : Prop := zlen (b2_buf c) = B /\ 0 <= b2_num c <= B.
Lemma b2_blocks_good fuel : forall h l0 l1 buf data, zlen buf = B -> blocks fuel h l0 l1 buf data <> Undef /\ forall c, blocks fuel h l0 l1 buf data = Ret c -> b2_inv c.
Proof.
  induction fuel as [|f IH]; intros h l0 l1 buf data Hb; cbn [b2_blocks]; [split; discriminate|]. rewrite Z.gtb_ltb. destruct (Z.ltb_spec B (zlen data)) as [L|L].
  - destruct (b2_compress _ _ _ _ _ _ _ _ _ _ _ _ _) as [[h' l0'] l1']. now apply IH.
  - pose proof (zlen_nonneg data). destruct (memcpy_in buf 0 data) as (r & -> & Lr); try lia. cbn [obind]. split; [discriminate|]. intros c E. injection E as <-. unfold b2_inv. cbn [b2_buf b2_num]. lia.
Qed.
Lemma b2_add_good c d : b2_inv c -> add c d <> Undef /\ forall c', add c d = Ret c' -> b2_inv c'.
Proof.
  intros (H1 & H2). unfold b2_add_data. cbv zeta. pose proof (zlen_nonneg d) as Hd. rewrite Z.gtb_ltb. destruct (Z.ltb_spec 0 (b2_num c)) as [P|P]; [|now apply b2_blocks_good].
  destruct (Z.leb_spec (zlen d) (B - b2_num c)) as [L|L].
  - destruct (memcpy_in (b2_buf c) (b2_num c) d) as (r & -> & Lr); try lia. cbn [obind]. split; [discriminate|]. intros c' E. injection E as <-. unfold b2_inv. cbn [b2_buf b2_num]. lia.
  - pose proof (zlen_firstn_le (Z.to_nat (B - b2_num c)) d). destruct (memcpy_in (b2_buf c) (b2_num c) (firstn (Z.to_nat (B - b2_num c)) d)) as (r & -> & Lr); try lia.
    cbn [obind]. destruct (b2_compress _ _ _ _ _ _ _ _ _ _ _ _ _) as [[h' l0'] l1']. apply b2_blocks_good. lia.
Qed.
Lemma b2_final_good n c : b2_inv c -> good b2_inv (b2_final w rounds r1 r2 r3 r4 iv n c).
Proof.
  intros (H1 & H2). unfold b2_final. destruct (memset_in (b2_buf c) (b2_num c) (B - b2_num c)) as (r & -> & Lr); try lia.
  destruct (b2_compress _ _ _ _ _ _ _ _ _ _ _ _ _) as [[h' l0'] l1']. apply good_ret. unfold b2_inv. cbn [b2_buf b2_num]. lia.
Qed.
Lemma b2_hash_good sz : h_good true (blake2_class w rounds r1 r2 r3 r4 iv sz) b2_inv.
Proof.
  apply c_hash_good; [intros; now apply b2_add_good|intros; now apply b2_final_good|].
  intros _ c (H1 & H2). unfold b2_inv, b2_wipe. cbn [b2_buf b2_num]. rewrite zlen_zeros by lia. lia.
Qed.
Lemma b2_new_good fresh sz key o : (forall n, 0 <= n -> zlen (fresh n) = n) -> w <= 2 ^ 20 -> w = 8 * (w / 8) -> blake2_new w rounds r1 r2 r3 r4 iv fresh sz key = Ret o -> hash_memory_safe (ho_class o) (ho_st o).
Proof.
  intros F _ Hw. unfold blake2_new. destruct (_ && _) eqn:E; [|discriminate]. unfold b2_init. cbv zeta. pose proof (F B ltac:(lia)) as FB.
  rewrite Z.gtb_ltb. destruct (Z.ltb_spec 0 (zlen key)).
  - destruct (memset_in (fresh B) 0 B) as (r & -> & Lr); try lia. cbn [obind].
    destruct (memcpy_in r 0 key) as (r' & -> & Lr'); try lia. cbn [obind]. intros Eo. apply ret_inj in Eo. subst o. cbn [ho_class ho_st].
    apply (h_good_safe (blake2_class w rounds r1 r2 r3 r4 iv sz) b2_inv); [apply b2_hash_good|]. unfold b2_inv. cbn [b2_buf b2_num]. lia.
  - cbn [obind]. intros Eo. apply ret_inj in Eo. subst o. cbn [ho_class ho_st].
    apply (h_good_safe (blake2_class w rounds r1 r2 r3 r4 iv sz) b2_inv); [apply b2_hash_good|]. unfold b2_inv. cbn [b2_buf b2_num]. lia.
Qed.
End Blake2.

(* ---------------- SipHash ---------------- *)
Definition sip_inv (s : sip) : Prop := zlen (sbuf s) = 8 /\ 0 <= sused s < 8.
Lemma sip_loop_good fuel : forall v buf p, zlen buf = 8 -> c_sip_loop fuel v buf p <> Undef /\ forall v' b u, c_sip_loop fuel v buf p = Ret (v', b, u) -> zlen b = 8 /\ 0 <= u < 8.
Proof.
  induction fuel as [|f IH]; intros v buf p Hb; cbn [c_sip_loop]; [split; discriminate|]. rewrite Z.geb_leb. destruct (Z.leb_spec 8 (zlen p)) as [L|L]; [now apply IH|].
  pose proof (zlen_nonneg p). destruct (zlen p >? 0).
  - destruct (memcpy_in buf 0 p) as (r & -> & Lr); try lia. cbn [obind]. split; [discriminate|]. intros v' b u E. injection E as <- <- <-. lia.
  - cbn [obind]. split; [discriminate|]. intros v' b u E. injection E as <- <- <-. lia.
Qed.
Lemma sip_add_good s p : sip_inv s -> c_sip_add s p <> Undef /\ forall s', c_sip_add s p = Ret s' -> sip_inv s'.
Proof.
  intros (H1 & H2). unfold c_sip_add. cbv zeta. pose proof (zlen_nonneg p) as Hp. destruct (Z.ltb_spec (zlen p) (8 - sused s)) as [L|L].
  - destruct (memcpy_in (sbuf s) (sused s) p) as (r & -> & Lr); try lia. cbn [obind]. split; [discriminate|]. intros s' E. injection E as <-. unfold sip_inv. cbn [sbuf sused]. lia.
  - assert (exists v b q, (if sused s >? 0 then olet b := c_memcpy (sbuf s) (sused s) (firstn (Z.to_nat (8 - sused s)) p) in
                 Ret (c_sip_mix (sv s) (sip_load b), b, skipn (Z.to_nat (8 - sused s)) p)
               else Ret (sv s, sbuf s, p)) = Ret (v, b, q) /\ zlen b = 8) as (v & b & q & -> & Lb).
    { destruct (sused s >? 0); [|now exists (sv s), (sbuf s), p]. pose proof (zlen_firstn_le (Z.to_nat (8 - sused s)) p).
      destruct (memcpy_in (sbuf s) (sused s) (firstn (Z.to_nat (8 - sused s)) p)) as (r & -> & Lr); try lia. cbn [obind]. eexists _, r, _. split; [reflexivity|lia]. }
    cbn [obind]. destruct (sip_loop_good (S (length q)) v b q Lb) as (A1 & A2). destruct (c_sip_loop (S (length q)) v b q) as [[[v' b'] u]|e| |]; cbn [obind]; try (split; discriminate); [|now destruct A1].
    split; [discriminate|]. intros s' E. injection E as <-. unfold sip_inv. cbn [sbuf sused]. now apply (A2 v' b' u).
Qed.
Lemma sip_final_good n s : sip_inv s -> good sip_inv (c_sip_final n s).
Proof.
  intros H. unfold c_sip_final. destruct (c_sip_mix _ _) as [[[v0 v1] v2] v3]. cbv zeta. destruct (c_final_rounds _) as [[[[a b] c] d] x].
  destruct (n =? 16); [destruct (c_final_rounds _) as [v y]|]; apply good_ret; exact H.
Qed.
Lemma sip_good fresh sz key o : (forall n, 0 <= n -> zlen (fresh n) = n) -> siphash_new fresh sz key = Ret o -> hash_memory_safe (ho_class o) (ho_st o).
Proof.
  intros F. unfold siphash_new. destruct (_ && _); [|discriminate]. intros E. injection E as <-. cbn [ho_class ho_st].
  apply (h_good_safe (siphash_class sz) sip_inv).
  - apply c_hash_good; [intros; now apply sip_add_good|intros; now apply sip_final_good|]. intros _ s _. unfold sip_inv. cbn [sbuf sused]. rewrite zlen_zeros; lia.
  - unfold sip_inv, c_sip_init. cbn [sbuf sused]. rewrite F; lia.
Qed.

(* ---------------- SHA-3: until wipe ---------------- *)
Definition k_inv (o : option k_ctx) : Prop :=
  match o with None => False | Some c => zlen (k_buf c) = 144 /\ 0 <= k_num c < k_rsiz c /\ k_rsiz c <= 144 /\ 0 <= k_hsiz c /\ k_hsiz c mod 4 = 0 end.
Lemma k_blocks_good fuel rsiz : 0 < rsiz <= 144 -> forall st buf data, zlen buf = 144 ->
  k_blocks fuel rsiz st buf data <> Undef /\ forall s n b, k_blocks fuel rsiz st buf data = Ret (s, n, b) -> zlen b = 144 /\ 0 <= n < rsiz.
Proof.
  intros Hr. induction fuel as [|f IH]; intros st buf data Hb; cbn [k_blocks]; [split; discriminate|]. rewrite Z.geb_leb. destruct (Z.leb_spec rsiz (zlen data)) as [L|L]; [now apply IH|].
  pose proof (zlen_nonneg data). destruct (zlen data >? 0).
  - destruct (memcpy_in buf 0 data) as (r & -> & Lr); try lia. cbn [obind]. split; [discriminate|]. intros s n b E. injection E as <- <- <-. lia.
  - cbn [obind]. split; [discriminate|]. intros s n b E. injection E as <- <- <-. lia.
Qed.
Lemma sha3_upd_good c d : k_inv c -> sha3_upd c d <> Undef /\ forall c', sha3_upd c d = Ret c' -> k_inv c'.
Proof.
  destruct c as [c|]; [|intros []]. intros (H1 & H2 & H3 & H4 & H5). cbn [sha3_upd].
  enough (SHA3_absorb c d <> Undef /\ forall c', SHA3_absorb c d = Ret c' -> k_inv (Some c')) as (A1 & A2).
  { destruct (SHA3_absorb c d) as [x|e| |]; cbn [obind]; try (split; discriminate); [|now destruct A1]. split; [discriminate|]. intros c' E. injection E as <-. now apply A2. }
  unfold SHA3_absorb. assert (forall st buf data, zlen buf = 144 ->
    (olet r := k_blocks (S (length data)) (k_rsiz c) st buf data in let '(st, num, buf) := r in Ret (KC st buf num (k_rsiz c) (k_hsiz c))) <> Undef /\
    forall c', (olet r := k_blocks (S (length data)) (k_rsiz c) st buf data in let '(st, num, buf) := r in Ret (KC st buf num (k_rsiz c) (k_hsiz c))) = Ret c' -> k_inv (Some c')) as Hr.
  { intros st buf data Hb. destruct (k_blocks_good (S (length data)) (k_rsiz c) ltac:(lia) st buf data Hb) as (A1 & A2).
    destruct (k_blocks (S (length data)) (k_rsiz c) st buf data) as [[[s n] b]|e| |]; cbn [obind]; try (split; discriminate); [|now destruct A1].
    split; [discriminate|]. intros c' E. injection E as <-. unfold k_inv. cbn [k_buf k_num k_rsiz k_hsiz]. destruct (A2 s n b eq_refl). repeat split; try assumption; lia. }
  pose proof (zlen_nonneg d) as Hd. cbv zeta. destruct (Z.eqb_spec (k_num c) 0) as [E0|E0]; cbn [negb]; [now apply Hr|].
  destruct (Z.ltb_spec (zlen d) (k_rsiz c - k_num c)) as [L|L].
  - destruct (memcpy_in (k_buf c) (k_num c) d) as (r & -> & Lr); try lia. cbn [obind]. split; [discriminate|]. intros c' E. injection E as <-.
    unfold k_inv. cbn [k_buf k_num k_rsiz k_hsiz]. repeat split; try assumption; lia.
  - pose proof (zlen_firstn_le (Z.to_nat (k_rsiz c - k_num c)) d). destruct (memcpy_in (k_buf c) (k_num c) (firstn (Z.to_nat (k_rsiz c - k_num c)) d)) as (r & -> & Lr); try lia.
    cbn [obind]. apply Hr. lia.
Qed.
Lemma sha3_fin_good b c : k_inv c -> good k_inv (sha3_fin b c).
Proof.
  destruct c as [c|]; [|intros []]. intros (H1 & H2 & H3 & H4 & H5). cbn [sha3_fin]. set (p := if b then 6 else 1). unfold SHA3_extract. cbv zeta.
  destruct (memcpy_in (k_buf c) (k_num c) [p]) as (r & -> & Lr); try (change (zlen [p]) with 1; lia). cbn [obind].
  destruct (memset_in r (k_num c + 1) (k_rsiz c - (k_num c + 1))) as (r2 & -> & L2); try lia. cbn [obind].
  set (q := [Z.lor _ 128]). destruct (memcpy_in r2 (k_rsiz c - 1) q) as (r3 & -> & L3); try (change (zlen q) with 1; lia). cbn [obind].
  set (o := k_output _ _). assert (zlen o <= k_hsiz c) as Lo.
  { unfold o, k_output. cbv zeta. pose proof (zlen_firstn_le (Z.to_nat (4 * ((k_hsiz c + 3) / 4))) (concat (map (fun i =>
      map (fun k => Z.shiftr (kget (KeccakAbsorb (k_state c) (firstn (Z.to_nat (k_rsiz c)) r3)) i) (8 * k) mod 256) [0; 1; 2; 3; 4; 5; 6; 7]) (seq 0 (Z.to_nat ((k_hsiz c + 7) / 8)))))) as (A & _).
    eapply Z.le_trans; [exact A|]. pose proof (Z.div_mod (k_hsiz c) 4 ltac:(lia)). replace ((k_hsiz c + 3) / 4) with (k_hsiz c / 4); [lia|].
    replace (k_hsiz c + 3) with (3 + (k_hsiz c / 4) * 4) by lia. rewrite Z.div_add by lia. reflexivity. }
  rewrite Z.gtb_ltb. destruct (Z.ltb_spec (k_hsiz c) (zlen o)); [lia|]. apply good_ret. unfold k_inv. cbn [k_buf k_num k_rsiz k_hsiz]. repeat split; try assumption; lia.
Qed.
Lemma sha3_good fresh sz b o : (forall n, 0 <= n -> zlen (fresh n) = n) -> sha3_new fresh sz b = Ret o -> unwiped_hash_safe (ho_class o) (ho_st o).
Proof.
  intros F. unfold sha3_new. destruct (_ || _) eqn:Es; [|discriminate]. intros E. injection E as <-. cbn [ho_class ho_st].
  apply (h_good_unwiped false (sha3_class sz b) k_inv).
  - apply c_hash_good; [intros; now apply sha3_upd_good|intros; now apply sha3_fin_good|discriminate].
  - unfold k_inv, SHA3_init. cbn [k_buf k_num k_rsiz k_hsiz]. rewrite F by lia.
    assert (sz = 224 \/ sz = 256 \/ sz = 384 \/ sz = 512) as [-> | [-> | [-> | ->]]] by lia; vm_compute; repeat split; discriminate.
Qed.

(* ---------------- the objects of modules Hash and MAC ---------------- *)
Lemma zlen_words_be n (l : list Z) : 0 < n -> zlen (copy_and_swap n (store_words n l)) = n * zlen l.
Proof.
  intros Hn. rewrite store_words_be by assumption. induction l as [|x l IH]; [cbn; lia|]. cbn [map concat]. rewrite zlen_app, zlen_to_be, IH, zlen_cons. lia.
Qed.
Lemma zlen_words_le n (l : list Z) : 0 < n -> zlen (store_words n l) = n * zlen l.
Proof.
  intros Hn. unfold store_words. induction l as [|x l IH]; [cbn; lia|]. cbn [map concat]. rewrite zlen_app, IH, zlen_cons, zlen_to_le. lia.
Qed.
Section Objs.
Variable fresh : Z -> bytes.
Hypothesis fresh_len : forall n, 0 <= n -> zlen (fresh n) = n.
(* short R: results have at most R bytes *)
Definition short (H : hash) (I : h_st H -> Prop) (R : Z) : Prop := forall s r, I s -> snd (h_result H s) = Ret r -> zlen r <= R.
Definition obj_good (R : Z) (o : hobj) : Prop := exists I, h_good true (ho_class o) I /\ I (ho_st o) /\ short (ho_class o) I R.
Lemma obj_good_safe R o : obj_good R o -> hash_memory_safe (ho_class o) (ho_st o).
Proof. intros (I & G & Hs & _). now apply (h_good_safe _ I). Qed.
Lemma md_short B W compress enc_length output (I : md_ctx -> Prop) R : (forall st, zlen (output st) <= R) ->
  forall s r, I s -> snd (md_final B W compress enc_length output s) = Ret r -> zlen r <= R.
Proof. intros H s r _. unfold md_final. destruct (md_finish _ _ _ _ s); cbn [snd]; try discriminate. intros E. injection E as <-. apply H. Qed.
Lemma firstn_bound n k (l : list Z) m : 0 < n -> n * Z.of_nat k <= m -> n * zlen (firstn k l) <= m.
Proof. intros Hn H. pose proof (zlen_firstn_le k l). nia. Qed.
Lemma md_obj_good B W compress enc_length output size iv R : 0 < B -> 0 <= 2 * (W / 8) /\ 2 * (W / 8) < B -> (forall a b, zlen (enc_length a b) = 2 * (W / 8)) ->
  (forall st, zlen (output st) <= R) ->
  obj_good R (HObj (c_hash md_ctx size (md_add_data B W compress) (md_final B W compress enc_length output) md_wipe) (md_init iv (fresh B))).
Proof.
  intros H1 H2 H3 H4. exists (md_inv B). cbn [ho_class ho_st]. split; [now apply md_hash_good|split; [now apply (md_init_good B W compress enc_length)|]].
  intros s r. now apply md_short.
Qed.
Lemma sha1_good : obj_good 20 (sha1_obj fresh).
Proof.
  apply md_obj_good; [lia|vm_compute; split; congruence| |].
  - intros a b. unfold enc_length_be. rewrite zlen_words_be by lia. reflexivity.
  - intros st. rewrite zlen_words_be by lia. apply firstn_bound; lia.
Qed.
Lemma sha224_good : obj_good 28 (sha224_obj fresh).
Proof.
  apply md_obj_good; [lia|vm_compute; split; congruence| |].
  - intros a b. unfold enc_length_be. rewrite zlen_words_be by lia. reflexivity.
  - intros st. unfold sha2_output. change (32 / 8) with 4. rewrite zlen_words_be by lia. apply firstn_bound; lia.
Qed.
Lemma sha256_good : obj_good 32 (sha256_obj fresh).
Proof.
  apply md_obj_good; [lia|vm_compute; split; congruence| |].
  - intros a b. unfold enc_length_be. rewrite zlen_words_be by lia. reflexivity.
  - intros st. unfold sha2_output. change (32 / 8) with 4. rewrite zlen_words_be by lia. apply firstn_bound; lia.
Qed.
Lemma sha384_good : obj_good 48 (sha384_obj fresh).
Proof.
  apply md_obj_good; [lia|vm_compute; split; congruence| |].
  - intros a b. unfold enc_length_be. rewrite zlen_words_be by lia. reflexivity.
  - intros st. unfold sha2_output. change (64 / 8) with 8. rewrite zlen_words_be by lia. apply firstn_bound; lia.
Qed.
Lemma sha512_good : obj_good 64 (sha512_obj fresh).
Proof.
  apply md_obj_good; [lia|vm_compute; split; congruence| |].
  - intros a b. unfold enc_length_be. rewrite zlen_words_be by lia. reflexivity.
  - intros st. unfold sha2_output. change (64 / 8) with 8. rewrite zlen_words_be by lia. apply firstn_bound; lia.
Qed.
Lemma ripemd_good : obj_good 20 (ripemd160_obj fresh).
Proof.
  apply md_obj_good; [lia|vm_compute; split; congruence| |].
  - intros a b. unfold enc_length_le. rewrite zlen_words_le by lia. reflexivity.
  - intros st. rewrite zlen_words_le by lia. apply firstn_bound; lia.
Qed.
Lemma sha2_good sz o : sha2_obj fresh sz = Ret o -> obj_good 64 o.
Proof.
  assert (forall R, R <= 64 -> forall o, obj_good R o -> obj_good 64 o) as Hw.
  { intros R HR x (I & A & B & D). exists I. split; [exact A|split; [exact B|]]. intros s r Hs Hr. specialize (D s r Hs Hr). lia. }
  unfold sha2_obj. intros E. repeat (match type of E with (if ?b then _ else _) = _ => destruct b end); try discriminate E; apply ret_inj in E; subst o.
  - apply (Hw 28); [lia|apply sha224_good].
  - apply (Hw 32); [lia|apply sha256_good].
  - apply (Hw 48); [lia|apply sha384_good].
  - apply (Hw 64); [lia|apply sha512_good].
Qed.

(* HMAC *)
Section Hmac.
Variable H : hash.
Variable I : h_st H -> Prop.
Variable new : h_st H.
Variable B : Z.
Hypothesis G : h_good true H I.
Hypothesis new_ok : I new.
Hypothesis B_ok : 0 < B <= 2 ^ 20.
Hypothesis R_ok : short H I B.
Lemma of_unit (r : h_st H * out unit) : I (fst (unit_obs r)) /\ snd (unit_obs r) <> OUndef -> good I r.
Proof. destruct r as [s' o]. intros (A1 & A2). split; [exact A1|]. cbn in *. intros ->. now apply A2. Qed.
Lemma of_bytes (r : h_st H * out bytes) : I (fst (bytes_obs r)) /\ snd (bytes_obs r) <> OUndef -> good I r.
Proof. destruct r as [s' o]. intros (A1 & A2). split; [exact A1|]. cbn in *. intros ->. now apply A2. Qed.
Lemma g_substring s b : I s -> zlen b <= 2 ^ 20 -> good I (h_add_substring H s b 0 (zlen b)).
Proof. intros Hs Hb. pose proof (zlen_nonneg b). apply of_unit. apply (G s (AddSubstring b 0 (zlen b)) Hs); [|now left]. cbn. unfold max_string_length, is_int. lia. Qed.
Lemma g_string s b : I s -> zlen b <= max_string_length -> good I (h_add_string H s b).
Proof. intros Hs Hb. apply of_unit. apply (G s (AddString b) Hs); [|now left]. exact Hb. Qed.
Lemma g_result s : I s -> good I (h_result H s).
Proof. intros Hs. apply of_bytes. apply (G s Result Hs); [exact Logic.I|now left]. Qed.
Lemma g_wipe s : I s -> good I (h_wipe H s).
Proof. intros Hs. apply of_unit. apply (G s HWipe Hs); [exact Logic.I|now left]. Qed.
Lemma hash_string_good s b : I s -> zlen b <= max_string_length -> snd (hash_string H s b) <> Undef /\ forall r, snd (hash_string H s b) = Ret r -> zlen r <= B.
Proof.
  intros Hs Hb. unfold hash_string. destruct (g_string s b Hs Hb) as (A1 & A2). destruct (h_add_string H s b) as [s1 [u|e| |]]; cbn [bind fst snd] in *; try (split; discriminate); [|now destruct A2].
  destruct (g_result s1 A1) as (B1 & B2). pose proof (R_ok s1) as HR. destruct (h_result H s1) as [s2 [r|e| |]]; cbn [bind fst snd] in *; try (split; discriminate); [|now destruct B2].
  destruct (g_wipe s2 B1) as (D1 & D2). destruct (h_wipe H s2) as [s3 [v|e| |]]; cbn [bind fst snd] in *; try (split; discriminate); [|now destruct D2].
  split; [discriminate|]. intros r' E. injection E as <-. now apply HR.
Qed.
Lemma hmac_pad_good key x : zlen key <= max_string_length -> hmac_pad H new B key x <> Undef /\ forall b, hmac_pad H new B key x = Ret b -> zlen b = B.
Proof.
  intros Hk. unfold hmac_pad. rewrite Z.gtb_ltb. destruct (Z.ltb_spec B (zlen key)) as [L|L].
  - destruct (hash_string_good new key new_ok Hk) as (A1 & A2). destruct (snd (hash_string H new key)) as [r|e| |]; cbn [obind]; try (split; discriminate); [|now destruct A1].
    specialize (A2 r eq_refl). pose proof (zlen_nonneg r).
    destruct (xor_bytes_safe r 0 (repeat x (Z.to_nat B)) 0 (zlen r)) as (y & -> & Ly); rewrite ?zlen_repeat in *; try lia. split; [discriminate|]. intros b E. injection E as <-. lia.
  - cbn [obind]. pose proof (zlen_nonneg key).
    destruct (xor_bytes_safe key 0 (repeat x (Z.to_nat B)) 0 (zlen key)) as (y & -> & Ly); rewrite ?zlen_repeat in *; try lia. split; [discriminate|]. intros b E. injection E as <-. lia.
Qed.
Lemma hmac_result_good key s : zlen key <= max_string_length -> I s -> good I (hmac_result H new B key s).
Proof.
  intros Hk Hs. assert (forall A e, good I (s, @Raise A e)) as Hr by (intros; now apply good_raise).
  unfold hmac_result. destruct (hmac_pad_good key 0x5C Hk) as (A1 & A2). destruct (hmac_pad H new B key 0x5C) as [b|e| |]; [|apply Hr|now destruct A1|split; [exact Hs|discriminate]].
  specialize (A2 b eq_refl). destruct (g_substring new b new_ok ltac:(lia)) as (B1 & B2). destruct (h_add_substring H new b 0 (zlen b)) as [h1 [u|e| |]]; cbn [fst snd] in *;
    [|apply Hr|now destruct B2|split; [exact Hs|discriminate]].
  apply good_bind; [now apply g_result|]. intros s1 r Er Hs1. assert (zlen r <= B) as Lr by (apply (R_ok s r Hs); rewrite Er; reflexivity).
  assert (forall A e, good I (s1, @Raise A e)) as Hr1 by (intros; now apply good_raise).
  destruct (g_string h1 r B1) as (D1 & D2); [unfold max_string_length; lia|]. destruct (h_add_string H h1 r) as [h2 [v|e| |]]; cbn [fst snd] in *; [|apply Hr1|now destruct D2|split; [exact Hs1|discriminate]].
  destruct (g_result h2 D1) as (E1 & E2). destruct (h_result H h2) as [h3 [r2|e| |]]; cbn [fst snd] in *; [|apply Hr1|now destruct E2|split; [exact Hs1|discriminate]].
  destruct (g_wipe h3 E1) as (F1 & F2). destruct (h_wipe H h3) as [h4 [w|e| |]]; cbn [fst snd] in *; [|apply Hr1|now destruct F2|split; [exact Hs1|discriminate]].
  now apply good_ret.
Qed.
Lemma hmac_class_good key : zlen key <= max_string_length -> h_good true (hmac_class H new B key) I.
Proof.
  intros Hk s o Hs Hp Hw. destruct o as [b ofs len|str|c|n| |]; cbn [h_step hmac_class h_add_substring h_add_string h_add_char h_add_byte h_result h_wipe].
  - now apply (G s (AddSubstring b ofs len) Hs).
  - now apply (G s (AddString str) Hs).
  - now apply (G s (AddChar c) Hs).
  - now apply (G s (AddByte n) Hs).
  - apply bytes_obs_good. now apply hmac_result_good.
  - now apply (G s HWipe Hs).
Qed.
Lemma hmac_new_good key o : zlen key <= max_string_length -> hmac_new H new B key = Ret o -> hash_memory_safe (ho_class o) (ho_st o).
Proof.
  intros Hk. unfold hmac_new. destruct (hmac_pad_good key 0x36 Hk) as (A1 & A2). destruct (hmac_pad H new B key 0x36) as [b|e| |]; cbn [obind]; try discriminate.
  specialize (A2 b eq_refl). destruct (g_substring new b new_ok ltac:(lia)) as (B1 & B2). destruct (h_add_substring H new b 0 (zlen b)) as [h1 [u|e| |]]; cbn [fst snd obind] in *; try discriminate.
  intros E. apply ret_inj in E. subst o. cbn [ho_class ho_st]. apply (h_good_safe (hmac_class H new B key) I); [now apply hmac_class_good|exact B1].
Qed.
End Hmac.
Lemma hmac_of_good R o B key m : obj_good R o -> 0 < B <= 2 ^ 20 -> R <= B -> zlen key <= max_string_length -> hmac_of o B key = Ret m -> hash_memory_safe (ho_class m) (ho_st m).
Proof.
  intros (I & A & D & E) HB HR Hk. apply (hmac_new_good (ho_class o) I); try assumption. intros s r Hs Hr. specialize (E s r Hs Hr). lia.
Qed.
End Objs.

(* ---------------- after wipe, SHA-3 and BLAKE3 dereference NULL ---------------- *)
Lemma null_update K size upd fin (k : option K) b : upd None b = Undef ->
  snd (h_run (c_hash (option K) size upd fin (fun _ => None)) k [HWipe; AddString b]) = [OUnit; OUndef].
Proof.
  intros H. cbn [h_run h_step c_hash h_wipe h_add_string]. unfold unit_obs. cbn [fst snd]. unfold c_update.
  rewrite (proj2 (in_range_true _ _ _)) by (pose proof (zlen_nonneg b); lia). rewrite sub_0_all by reflexivity. rewrite H. reflexivity.
Qed.
Lemma null_result K size upd fin (k : option K) : snd (fin None) = Undef ->
  snd (h_run (c_hash (option K) size upd fin (fun _ => None)) k [HWipe; Result]) = [OUnit; OUndef].
Proof. intros H. cbn. destruct (fin None) as [k1 o]. cbn [fst snd] in *. now subst o. Qed.
Lemma sha3_null fresh sz b o m : sha3_new fresh sz b = Ret o ->
  snd (h_run (ho_class o) (ho_st o) [HWipe; AddString m]) = [OUnit; OUndef] /\ snd (h_run (ho_class o) (ho_st o) [HWipe; Result]) = [OUnit; OUndef].
Proof.
  unfold sha3_new. destruct (_ || _); [|discriminate]. intros E. apply ret_inj in E. subst o. cbn [ho_class ho_st]. split; [now apply null_update|now apply null_result].
Qed.
Lemma blake3_null key sz o m : blake3_obj key sz = Ret o ->
  snd (h_run (ho_class o) (ho_st o) [HWipe; AddString m]) = [OUnit; OUndef] /\ snd (h_run (ho_class o) (ho_st o) [HWipe; Result]) = [OUnit; OUndef].
Proof.
  unfold blake3_obj. destruct (_ && _); [|discriminate]. intros E. apply ret_inj in E. subst o. cbn [ho_class ho_st]. split; [now apply null_update|now apply null_result].
Qed.
