(* aesni.c computes FIPS 197. *)
From Verif Require Import Prelude PreludeFacts BytesNum SpecBlock SpecModes BlockTotal
  SpecAes AesField AesModel AesniModel Aes.
From Verif Require Import SpecTransducer TransformModel BlockModel BlockCipher Modes CipherModel CipherApi.

(* ---- the next word of the key schedule, from the last n words ---- *)
Lemma next_word_last n i j W L : length L = n -> (j < n)%nat -> length W = (n * i + j)%nat ->
  next_word n (W ++ L) = xorb (nth 0 L [])
    (if (j =? 0)%nat then xorb (SubWord (RotWord (nth (n - 1) L []))) (Rcon (S i))
     else if (6 <? n)%nat && (j =? 4)%nat then SubWord (nth (n - 1) L []) else nth (n - 1) L []).
Proof.
  intros HL Hj HW. unfold next_word. rewrite app_length, HL, HW.
  replace (n * i + j + n)%nat with (j + S i * n)%nat by lia. rewrite Nat.mod_add, Nat.div_add, Nat.mod_small, Nat.div_small by lia.
  rewrite !app_nth2 by lia. replace (j + S i * n - n - length W)%nat with 0%nat by lia. replace (j + S i * n - 1 - length W)%nat with (n - 1)%nat by lia.
  reflexivity.
Qed.
Definition key_t (d : bytes) (i : nat) : bytes := xorb (SubWord (RotWord d)) (Rcon i).
Lemma snoc_shift {A} (W : list A) a l x : (W ++ a :: l) ++ [x] = (W ++ [a]) ++ l ++ [x].
Proof. rewrite <- !app_assoc. reflexivity. Qed.
Lemma expand_step n i j k W a l : length (a :: l) = n -> (j < n)%nat -> length W = (n * i + j)%nat ->
  expand n (S k) (W ++ a :: l) = expand n k ((W ++ [a]) ++ l ++ [xorb a
    (if (j =? 0)%nat then key_t (last (a :: l) []) (S i)
     else if (6 <? n)%nat && (j =? 4)%nat then SubWord (last (a :: l) []) else last (a :: l) [])]).
Proof.
  intros HL Hj HW. cbn [expand]. rewrite (next_word_last n i j W (a :: l) HL Hj HW), snoc_shift. cbn [nth].
  rewrite (last_nth (a :: l) (n - 1)) by lia. reflexivity.
Qed.
Ltac expand_one n i j := rewrite (expand_step n i j) by (try reflexivity; rewrite ?app_length; cbn [length]; lia);
  cbn [last Nat.eqb Nat.ltb Nat.leb andb app].
Lemma expand_128 k i W a b c d : length W = (4 * i)%nat ->
  expand 4 (4 + k) (W ++ [a; b; c; d]) =
    (let a' := xorb a (key_t d (S i)) in let b' := xorb b a' in let c' := xorb c b' in
     expand 4 k ((W ++ [a; b; c; d]) ++ [a'; b'; c'; xorb d c'])).
Proof.
  intros L. change (4 + k)%nat with (S (S (S (S k)))).
  expand_one 4%nat i 0%nat. expand_one 4%nat i 1%nat. expand_one 4%nat i 2%nat. expand_one 4%nat i 3%nat.
  cbn zeta. rewrite <- !app_assoc. reflexivity.
Qed.
Lemma expand_192a k i W a b c d e f : length W = (6 * i)%nat ->
  expand 6 (4 + k) (W ++ [a; b; c; d; e; f]) =
    (let a' := xorb a (key_t f (S i)) in let b' := xorb b a' in let c' := xorb c b' in
     expand 6 k ((W ++ [a; b; c; d]) ++ [e; f; a'; b'; c'; xorb d c'])).
Proof.
  intros L. change (4 + k)%nat with (S (S (S (S k)))).
  expand_one 6%nat i 0%nat. expand_one 6%nat i 1%nat. expand_one 6%nat i 2%nat. expand_one 6%nat i 3%nat.
  cbn zeta. rewrite <- !app_assoc. reflexivity.
Qed.
Lemma expand_192b k i W a b c d e f : length W = (6 * i + 4)%nat ->
  expand 6 (2 + k) (W ++ [a; b; c; d; e; f]) =
    (let a' := xorb a f in let b' := xorb b a' in
     expand 6 k ((W ++ [a; b]) ++ [c; d; e; f; a'; b'])).
Proof.
  intros L. change (2 + k)%nat with (S (S k)).
  expand_one 6%nat i 4%nat. expand_one 6%nat i 5%nat. cbn zeta. rewrite <- !app_assoc. reflexivity.
Qed.
Lemma expand_256a k i W a b c d e f g h : length W = (8 * i)%nat ->
  expand 8 (4 + k) (W ++ [a; b; c; d; e; f; g; h]) =
    (let a' := xorb a (key_t h (S i)) in let b' := xorb b a' in let c' := xorb c b' in
     expand 8 k ((W ++ [a; b; c; d]) ++ [e; f; g; h; a'; b'; c'; xorb d c'])).
Proof.
  intros L. change (4 + k)%nat with (S (S (S (S k)))).
  expand_one 8%nat i 0%nat. expand_one 8%nat i 1%nat. expand_one 8%nat i 2%nat. expand_one 8%nat i 3%nat.
  cbn zeta. rewrite <- !app_assoc. reflexivity.
Qed.
Lemma expand_256b k i W a b c d e f g h : length W = (8 * i + 4)%nat ->
  expand 8 (4 + k) (W ++ [a; b; c; d; e; f; g; h]) =
    (let a' := xorb a (SubWord h) in let b' := xorb b a' in let c' := xorb c b' in
     expand 8 k ((W ++ [a; b; c; d]) ++ [e; f; g; h; a'; b'; c'; xorb d c'])).
Proof.
  intros L. change (4 + k)%nat with (S (S (S (S k)))).
  expand_one 8%nat i 4%nat. expand_one 8%nat i 5%nat. expand_one 8%nat i 6%nat. expand_one 8%nat i 7%nat.
  cbn zeta. rewrite <- !app_assoc. reflexivity.
Qed.

(* ---- the assist functions ---- *)
Ltac word4 H := let L := fresh in destruct H as (L & _);
  match type of L with length ?w = _ => do 4 (destruct w as [|? w]; [discriminate L|]); destruct w; [clear L|discriminate L] end.
Ltac bytewise := repeat match goal with |- _ :: _ = _ :: _ => f_equal end; try reflexivity; lxors.
Lemma assist_words a b c d t x : wordb a -> wordb b -> wordb c -> wordb d -> wordb x -> t = x ++ x ++ x ++ x ->
  xorb (xor_shifts (a ++ b ++ c ++ d)) t =
  (let a' := xorb a x in let b' := xorb b a' in let c' := xorb c b' in a' ++ b' ++ c' ++ xorb d c').
Proof.
  intros Ha Hb Hc Hd Hx ->. word4 Ha. word4 Hb. word4 Hc. word4 Hd. word4 Hx.
  unfold xor_shifts, mm_slli_si128. cbn [app repeat firstn Nat.sub]. unfold xorb. cbn zeta; cbn [combine map fst snd app]. bytewise.
Qed.
Lemma shuffle_ff a b c d : wordb a -> wordb b -> wordb c -> wordb d -> mm_shuffle_epi32 (a ++ b ++ c ++ d) 0xff = d ++ d ++ d ++ d.
Proof. intros Ha Hb Hc Hd. word4 Ha. word4 Hb. word4 Hc. word4 Hd. reflexivity. Qed.
Lemma shuffle_55 a b c d : wordb a -> wordb b -> wordb c -> wordb d -> mm_shuffle_epi32 (a ++ b ++ c ++ d) 0x55 = b ++ b ++ b ++ b.
Proof. intros Ha Hb Hc Hd. word4 Ha. word4 Hb. word4 Hc. word4 Hd. reflexivity. Qed.
Lemma shuffle_aa a b c d : wordb a -> wordb b -> wordb c -> wordb d -> mm_shuffle_epi32 (a ++ b ++ c ++ d) 0xaa = c ++ c ++ c ++ c.
Proof. intros Ha Hb Hc Hd. word4 Ha. word4 Hb. word4 Hc. word4 Hd. reflexivity. Qed.
Lemma rot_sub w : wordb w -> RotWord (SubWord w) = SubWord (RotWord w).
Proof. intros H. word4 H. reflexivity. Qed.
Lemma wordb_rot w : wordb w -> wordb (RotWord w).
Proof. revert w. apply wordb_elim. intros. split; [reflexivity|]. cbn [RotWord app]. bytes_intro; assumption. Qed.
Lemma wordb_rcon i : wordb (Rcon i).
Proof. split; [reflexivity|]. assert (byte_ok 0) by small. unfold Rcon. bytes_intro; try assumption. apply iter_xtime_ok. small. Qed.
Lemma wordb_key_t w i : wordb w -> wordb (key_t w i).
Proof. intros H. apply wordb_xor; [apply wordb_sub, wordb_rot; exact H|apply wordb_rcon]. Qed.
(* the value of the i-th round constant *)
Definition rc_val (i : nat) : Z := Nat.iter (i - 1) xtime 1.
Lemma keygen_words a b c d i : wordb a -> wordb b -> wordb c -> wordb d ->
  mm_aeskeygenassist (a ++ b ++ c ++ d) (rc_val i) = SubWord b ++ key_t b i ++ SubWord d ++ key_t d i.
Proof.
  intros Ha Hb Hc Hd. unfold mm_aeskeygenassist.
  assert (E : dword (a ++ b ++ c ++ d) 1 = b /\ dword (a ++ b ++ c ++ d) 3 = d) by (word4 Ha; word4 Hb; word4 Hc; word4 Hd; split; reflexivity).
  destruct E as (-> & ->). rewrite !rot_sub by assumption. reflexivity.
Qed.
Lemma keygen_0 a b c d : wordb a -> wordb b -> wordb c -> wordb d ->
  exists x y, mm_aeskeygenassist (a ++ b ++ c ++ d) 0 = SubWord b ++ x ++ SubWord d ++ y /\ wordb x /\ wordb y.
Proof.
  intros Ha Hb Hc Hd. unfold mm_aeskeygenassist.
  assert (E : dword (a ++ b ++ c ++ d) 1 = b /\ dword (a ++ b ++ c ++ d) 3 = d) by (word4 Ha; word4 Hb; word4 Hc; word4 Hd; split; reflexivity).
  destruct E as (-> & ->). rewrite !rot_sub by assumption. do 2 eexists. split; [reflexivity|].
  assert (wordb [0; 0; 0; 0]) by (split; [reflexivity|]; assert (byte_ok 0) by small; bytes_intro; assumption).
  split; apply wordb_xor; try assumption; apply wordb_sub, wordb_rot; assumption.
Qed.

(* ---- the key schedule ---- *)
Definition len16 (l : list bytes) : Prop := Forall (fun b => zlen b = 16) l.
Lemma len_words4 a b c d : wordb a -> wordb b -> wordb c -> wordb d -> zlen (a ++ b ++ c ++ d) = 16.
Proof. intros (La & _) (Lb & _) (Lc & _) (Ld & _). unfold zlen. rewrite !app_length. lia. Qed.
Lemma concat_app_words (W : list bytes) a b c d : concat (W ++ [a; b; c; d]) = concat W ++ a ++ b ++ c ++ d.
Proof. rewrite concat_app. cbn [concat]. rewrite app_nil_r. reflexivity. Qed.
Lemma ni_128_ok m : forall i W a b c d, length W = (4 * i)%nat -> wordb a -> wordb b -> wordb c -> wordb d ->
  let ks := ni_128 (a ++ b ++ c ++ d) (map rc_val (seq (S i) m)) in
  len16 ks /\ concat (expand 4 (4 * m) (W ++ [a; b; c; d])) = concat (W ++ [a; b; c; d]) ++ concat ks.
Proof.
  induction m as [|m IH]; intros i W a b c d L Ha Hb Hc Hd.
  - cbn [seq map ni_128 Nat.mul expand concat]. split; [constructor|]. rewrite app_nil_r. reflexivity.
  - cbn zeta. cbn [seq map ni_128]. unfold aesni_128_assist. rewrite keygen_words by assumption.
    pose proof (wordb_key_t d (S i) Hd) as Ht. pose proof (wordb_key_t b (S i) Hb) as Ht'.
    rewrite shuffle_ff by (try apply wordb_sub; assumption).
    rewrite (assist_words a b c d _ (key_t d (S i))) by (assumption || reflexivity). cbn zeta.
    replace (4 * S m)%nat with (4 + 4 * m)%nat by lia. rewrite (expand_128 _ i) by exact L. cbn zeta.
    set (a' := xorb a (key_t d (S i))). set (b' := xorb b a'). set (c' := xorb c b'). set (d' := xorb d c').
    assert (Ha' : wordb a') by (apply wordb_xor; assumption). assert (Hb' : wordb b') by (apply wordb_xor; assumption).
    assert (Hc' : wordb c') by (apply wordb_xor; assumption). assert (Hd' : wordb d') by (apply wordb_xor; assumption).
    destruct (IH (S i) (W ++ [a; b; c; d]) a' b' c' d') as (I1 & I2); try assumption; [rewrite app_length; cbn [length]; lia|].
    split; [constructor; [apply len_words4; assumption|exact I1]|].
    rewrite I2. rewrite concat_app_words. cbn [concat]. rewrite <- !app_assoc. reflexivity.
Qed.
Lemma assist_t3 t3 x e f : wordb e -> wordb f -> wordb x -> (exists g h, wordb g /\ wordb h /\ t3 = e ++ f ++ g ++ h) ->
  exists g h, wordb g /\ wordb h /\ xorb (xorb t3 (mm_slli_si128 t3 4)) (x ++ x ++ x ++ x) = xorb e x ++ xorb f (xorb e x) ++ g ++ h.
Proof.
  intros He Hf Hx (g & h & Hg & Hh & ->).
  exists (xorb (xorb g f) x), (xorb (xorb h g) x). split; [repeat apply wordb_xor; assumption|]. split; [repeat apply wordb_xor; assumption|].
  word4 He. word4 Hf. word4 Hg. word4 Hh. word4 Hx. unfold mm_slli_si128, xorb. cbn [app repeat firstn Nat.sub combine map fst snd]. bytewise.
Qed.
Lemma half_pd0 e f g h a b c d : wordb e -> wordb f -> wordb g -> wordb h -> wordb a -> wordb b -> wordb c -> wordb d ->
  mm_shuffle_pd (e ++ f ++ g ++ h) (a ++ b ++ c ++ d) 0 = e ++ f ++ a ++ b.
Proof. intros H1 H2 H3 H4 H5 H6 H7 H8. word4 H1. word4 H2. word4 H3. word4 H4. word4 H5. word4 H6. word4 H7. word4 H8. reflexivity. Qed.
Lemma half_pd1 e f g h a b c d : wordb e -> wordb f -> wordb g -> wordb h -> wordb a -> wordb b -> wordb c -> wordb d ->
  mm_shuffle_pd (a ++ b ++ c ++ d) (e ++ f ++ g ++ h) 1 = c ++ d ++ e ++ f.
Proof. intros H1 H2 H3 H4 H5 H6 H7 H8. word4 H1. word4 H2. word4 H3. word4 H4. word4 H5. word4 H6. word4 H7. word4 H8. reflexivity. Qed.
(* one assist: six new words *)
Lemma assist_192 a b c d e f t3 i : wordb a -> wordb b -> wordb c -> wordb d -> wordb e -> wordb f ->
  (exists g h, wordb g /\ wordb h /\ t3 = e ++ f ++ g ++ h) ->
  let a' := xorb a (key_t f (S i)) in let b' := xorb b a' in let c' := xorb c b' in let d' := xorb d c' in
  let e' := xorb e d' in let f' := xorb f e' in
  wordb a' /\ wordb b' /\ wordb c' /\ wordb d' /\ wordb e' /\ wordb f' /\
  exists t3', aesni_192_assist (a ++ b ++ c ++ d) (mm_aeskeygenassist t3 (rc_val (S i))) t3 = (a' ++ b' ++ c' ++ d', t3') /\
    exists g h, wordb g /\ wordb h /\ t3' = e' ++ f' ++ g ++ h.
Proof.
  intros Ha Hb Hc Hd He Hf (g & h & Hg & Hh & ->) a' b' c' d' e' f'.
  pose proof (wordb_key_t f (S i) Hf) as Ht. pose proof (wordb_key_t h (S i) Hh) as Ht'.
  assert (Ha' : wordb a') by (apply wordb_xor; assumption). assert (Hb' : wordb b') by (apply wordb_xor; assumption).
  assert (Hc' : wordb c') by (apply wordb_xor; assumption). assert (Hd' : wordb d') by (apply wordb_xor; assumption).
  assert (He' : wordb e') by (apply wordb_xor; assumption). assert (Hf' : wordb f') by (apply wordb_xor; assumption).
  repeat (split; [assumption|]). unfold aesni_192_assist. rewrite keygen_words by assumption.
  rewrite shuffle_55 by (try apply wordb_sub; assumption). rewrite (assist_words a b c d _ (key_t f (S i))) by (assumption || reflexivity). cbn zeta.
  fold a'. fold b'. fold c'. fold d'. rewrite shuffle_ff by assumption. eexists. split; [reflexivity|].
  unfold f', e'. apply assist_t3; try assumption. exists g, h. auto.
Qed.
Lemma ni_192_ok m : forall i W a b c d e f t3, length W = (6 * (2 * i))%nat -> wordb a -> wordb b -> wordb c -> wordb d -> wordb e -> wordb f ->
  (exists g h, wordb g /\ wordb h /\ t3 = e ++ f ++ g ++ h) ->
  let ks := ni_192 (a ++ b ++ c ++ d) t3 (map (fun j => (rc_val (S (2 * j)), rc_val (S (S (2 * j))))) (seq i (S m))) in
  len16 ks /\ concat (expand 6 (12 * m + 10) (W ++ [a; b; c; d; e; f])) = concat (W ++ [a; b; c; d]) ++ concat ks.
Proof.
  induction m as [|m IH]; intros i W a b c d e f t3 L Ha Hb Hc Hd He Hf Ht3.
  - cbn zeta. cbn [seq map ni_192].
    destruct (assist_192 a b c d e f t3 (2 * i) Ha Hb Hc Hd He Hf Ht3) as (Ha' & Hb' & Hc' & Hd' & He' & Hf' & t3' & -> & Ht3'). cbn zeta in Ht3'.
    change (12 * 0 + 10)%nat with (4 + (2 + 4))%nat. rewrite (expand_192a _ (2 * i)) by exact L. cbn zeta.
    set (a' := xorb a (key_t f (S (2 * i)))) in *. set (b' := xorb b a') in *. set (c' := xorb c b') in *. set (d' := xorb d c') in *. set (e' := xorb e d') in *. set (f' := xorb f e') in *.
    rewrite (expand_192b _ (2 * i)) by (rewrite app_length; cbn [length]; lia). cbn zeta. fold e'. fold f'.
    destruct (assist_192 a' b' c' d' e' f' t3' (S (2 * i)) Ha' Hb' Hc' Hd' He' Hf' Ht3') as (Ha2 & Hb2 & Hc2 & Hd2 & He2 & Hf2 & t32 & -> & Ht32). cbn zeta.
    change (expand 6 4) with (expand 6 (4 + 0)).
    rewrite (expand_192a _ (S (2 * i))) by (rewrite !app_length; cbn [length]; lia). cbn zeta. cbn [expand].
    destruct Ht3 as (g & h & Hg & Hh & ->), Ht3' as (g' & h' & Hg' & Hh' & ->).
    rewrite half_pd0, half_pd1 by assumption.
    split; [repeat constructor; apply len_words4; assumption|].
    rewrite !concat_app. cbn [concat]. rewrite <- ?app_assoc. cbn [app]. rewrite ?app_nil_r, <- ?app_assoc. reflexivity.
  - cbn zeta. change (seq i (S (S m))) with (i :: seq (S i) (S m)). cbn [map].
    cbn [ni_192].
    destruct (assist_192 a b c d e f t3 (2 * i) Ha Hb Hc Hd He Hf Ht3) as (Ha' & Hb' & Hc' & Hd' & He' & Hf' & t3' & -> & Ht3'). cbn zeta in Ht3'.
    replace (12 * S m + 10)%nat with (4 + (2 + (4 + (2 + (12 * m + 10)))))%nat by lia. rewrite (expand_192a _ (2 * i)) by exact L. cbn zeta.
    set (a' := xorb a (key_t f (S (2 * i)))) in *. set (b' := xorb b a') in *. set (c' := xorb c b') in *. set (d' := xorb d c') in *. set (e' := xorb e d') in *. set (f' := xorb f e') in *.
    rewrite (expand_192b _ (2 * i)) by (rewrite app_length; cbn [length]; lia). cbn zeta. fold e'. fold f'.
    destruct (assist_192 a' b' c' d' e' f' t3' (S (2 * i)) Ha' Hb' Hc' Hd' He' Hf' Ht3') as (Ha2 & Hb2 & Hc2 & Hd2 & He2 & Hf2 & t32 & -> & Ht32). cbn zeta in Ht32.
    rewrite (expand_192a _ (S (2 * i))) by (rewrite !app_length; cbn [length]; lia). cbn zeta.
    set (a2 := xorb a' (key_t f' (S (S (2 * i))))) in *. set (b2 := xorb b' a2) in *. set (c2 := xorb c' b2) in *. set (d2 := xorb d' c2) in *. set (e2 := xorb e' d2) in *. set (f2 := xorb f' e2) in *.
    rewrite (expand_192b _ (S (2 * i))) by (rewrite !app_length; cbn [length]; lia). cbn zeta. fold e2. fold f2.
    destruct Ht3 as (g & h & Hg & Hh & ->), Ht3' as (g' & h' & Hg' & Hh' & ->).
    rewrite half_pd0, half_pd1 by assumption.
    destruct (IH (S i) (((((W ++ [a; b; c; d]) ++ [e; f]) ++ [a'; b'; c'; d'])) ++ [e'; f']) a2 b2 c2 d2 e2 f2 t32) as (I1 & I2); try assumption; [rewrite !app_length; cbn [length]; lia|].
    split; [repeat (constructor; [apply len_words4; assumption|]); exact I1|].
    rewrite I2. clear I2. rewrite !concat_app. cbn [concat]. rewrite <- ?app_assoc. cbn [app]. rewrite ?app_nil_r, <- ?app_assoc. reflexivity.
Qed.
Lemma ni_256_cons t1 t3 rc rc' rcs : ni_256 t1 t3 (rc :: rc' :: rcs) =
  (let t1 := aesni_256_assist_1 t1 (mm_aeskeygenassist t3 rc) in let t3 := aesni_256_assist_2 t1 t3 in t1 :: t3 :: ni_256 t1 t3 (rc' :: rcs)).
Proof. reflexivity. Qed.
Lemma ni_256_ok m : forall i W a b c d e f g h, length W = (8 * i)%nat ->
  wordb a -> wordb b -> wordb c -> wordb d -> wordb e -> wordb f -> wordb g -> wordb h ->
  let ks := ni_256 (a ++ b ++ c ++ d) (e ++ f ++ g ++ h) (map rc_val (seq (S i) (S m))) in
  len16 ks /\ concat (expand 8 (8 * m + 4) (W ++ [a; b; c; d; e; f; g; h])) = concat (W ++ [a; b; c; d; e; f; g; h]) ++ concat ks.
Proof.
  induction m as [|m IH]; intros i W a b c d e f g h L Ha Hb Hc Hd He Hf Hg Hh.
  - cbn zeta. cbn [seq map ni_256]. unfold aesni_256_assist_1. rewrite keygen_words by assumption.
    pose proof (wordb_key_t h (S i) Hh) as Ht. pose proof (wordb_key_t f (S i) Hf) as Ht'.
    rewrite shuffle_ff by (try apply wordb_sub; assumption). rewrite (assist_words a b c d _ (key_t h (S i))) by (assumption || reflexivity). cbn zeta.
    change (8 * 0 + 4)%nat with (4 + 0)%nat. rewrite (expand_256a _ i) by exact L. cbn zeta. cbn [expand].
    split; [constructor; [apply len_words4; repeat (first [assumption | apply wordb_xor])|constructor]|].
    rewrite !concat_app. cbn [concat]. rewrite <- ?app_assoc. cbn [app]. rewrite ?app_nil_r, <- ?app_assoc. reflexivity.
  - cbn zeta. change (seq (S i) (S (S m))) with (S i :: S (S i) :: seq (S (S (S i))) m). cbn [map]. rewrite ni_256_cons.
    unfold aesni_256_assist_1. rewrite keygen_words by assumption.
    pose proof (wordb_key_t h (S i) Hh) as Ht. pose proof (wordb_key_t f (S i) Hf) as Ht'.
    rewrite shuffle_ff by (try apply wordb_sub; assumption). rewrite (assist_words a b c d _ (key_t h (S i))) by (assumption || reflexivity). cbn zeta.
    replace (8 * S m + 4)%nat with (4 + (4 + (8 * m + 4)))%nat by lia. rewrite (expand_256a _ i) by exact L. cbn zeta.
    set (a' := xorb a (key_t h (S i))) in *. set (b' := xorb b a') in *. set (c' := xorb c b') in *. set (d' := xorb d c') in *.
    assert (Ha' : wordb a') by (apply wordb_xor; assumption). assert (Hb' : wordb b') by (apply wordb_xor; assumption).
    assert (Hc' : wordb c') by (apply wordb_xor; assumption). assert (Hd' : wordb d') by (apply wordb_xor; assumption).
    rewrite (expand_256b _ i) by (rewrite app_length; cbn [length]; lia). cbn zeta.
    assert (Hs : wordb (SubWord d')) by (apply wordb_sub; assumption).
    assert (E3 : aesni_256_assist_2 (a' ++ b' ++ c' ++ d') (e ++ f ++ g ++ h) =
      (let e' := xorb e (SubWord d') in let f' := xorb f e' in let g' := xorb g f' in e' ++ f' ++ g' ++ xorb h g')).
    { unfold aesni_256_assist_2. destruct (keygen_0 a' b' c' d') as (x & y & -> & Hx & Hy); try assumption.
      rewrite shuffle_aa by (try apply wordb_sub; assumption). apply assist_words; (assumption || reflexivity). }
    rewrite E3. cbn zeta.
    set (e' := xorb e (SubWord d')) in *. set (f' := xorb f e') in *. set (g' := xorb g f') in *. set (h' := xorb h g') in *.
    assert (He' : wordb e') by (apply wordb_xor; assumption). assert (Hf' : wordb f') by (apply wordb_xor; assumption).
    assert (Hg' : wordb g') by (apply wordb_xor; assumption). assert (Hh' : wordb h') by (apply wordb_xor; assumption).
    destruct (IH (S i) ((W ++ [a; b; c; d]) ++ [e; f; g; h]) a' b' c' d' e' f' g' h') as (I1 & I2); try assumption; [rewrite !app_length; cbn [length]; lia|].
    split.
    + constructor; [apply len_words4; assumption|]. constructor; [apply len_words4; assumption|]. exact I1.
    + rewrite I2. clear I2. change (seq (S (S i)) (S m)) with (S (S i) :: seq (S (S (S i))) m). cbn [map].
      generalize (ni_256 (a' ++ b' ++ c' ++ d') (e' ++ f' ++ g' ++ h') (rc_val (S (S i)) :: map rc_val (seq (S (S (S i))) m))). intros tl.
      rewrite !concat_app. cbn [concat]. rewrite <- ?app_assoc. cbn [app]. rewrite ?app_nil_r, <- ?app_assoc. reflexivity.
Qed.
(* cutting a key in words *)
Lemma cut_words (l : bytes) (n : nat) : length l = (4 * n)%nat -> bytes_ok l -> exists W, length W = n /\ Forall wordb W /\ l = concat W.
Proof.
  revert l. induction n as [|n IH]; intros l L B; [exists []; split; [reflexivity|]; split; [constructor|destruct l; [reflexivity|discriminate L]]|].
  destruct (IH (skipn 4 l)) as (W & W1 & W2 & W3); [rewrite skipn_length; lia| |].
  - rewrite <- (firstn_skipn 4 l) in B. apply bytes_ok_app in B. apply B.
  - exists (firstn 4 l :: W). cbn [length concat]. rewrite <- W3, firstn_skipn. split; [lia|]. split; [|reflexivity]. constructor; [|exact W2].
    split; [rewrite firstn_length; lia|]. rewrite <- (firstn_skipn 4 l) in B. apply bytes_ok_app in B. apply B.
Qed.
Ltac words_of W H1 H2 := repeat (let x := fresh "w" in destruct W as [|x W]; [discriminate H1|]); destruct W; [clear H1|discriminate H1].
Lemma loadu_words a b c d l : wordb a -> wordb b -> wordb c -> wordb d -> loadu (a ++ b ++ c ++ d ++ l) 0 = a ++ b ++ c ++ d.
Proof. intros H1 H2 H3 H4. word4 H1. word4 H2. word4 H3. word4 H4. reflexivity. Qed.
Lemma loadu_words16 a b c d e f g h l : wordb a -> wordb b -> wordb c -> wordb d -> wordb e -> wordb f -> wordb g -> wordb h ->
  loadu (a ++ b ++ c ++ d ++ e ++ f ++ g ++ h ++ l) 16 = e ++ f ++ g ++ h.
Proof. intros H1 H2 H3 H4 H5 H6 H7 H8. word4 H1. word4 H2. word4 H3. word4 H4. word4 H5. word4 H6. word4 H7. word4 H8. reflexivity. Qed.
Lemma chunks_words W : Forall wordb W -> chunks 4 (concat W) = W.
Proof. intros H. apply chunks_concat0; [lia|]. eapply Forall_impl; [|exact H]. intros w (L & _). unfold zlen. lia. Qed.
Lemma ni_keys ks key : len16 ks -> concat (key_expansion key) = concat ks -> ks = round_keys key.
Proof. intros L E. unfold round_keys. rewrite E. symmetry. apply chunks_concat0; [lia|exact L]. Qed.
Lemma aesni_key_expansion_ok key : aes_key_size key -> bytes_ok key ->
  aesni_key_expansion key (8 * zlen key) = Some (round_keys key, Z.of_nat (rounds key)).
Proof.
  intros K B. unfold aesni_key_expansion, rounds, key_words. cbn zeta. destruct K as [K|[K|K]]; rewrite K.
  - change (8 * 16 =? 128) with true. cbn iota. f_equal. f_equal. apply ni_keys; change (ni_128 _ _) with (ni_128 (loadu (key ++ string_padding) 0) (map rc_val (seq 1 10))).
    all: destruct (cut_words key 4) as (W & W1 & W2 & W3); [unfold zlen in K; lia|assumption|]; destruct W as [|a [|b [|c [|d [|? ?]]]]]; try discriminate W1;
      assert (E : key = a ++ b ++ c ++ d) by (rewrite W3; cbn [concat]; rewrite app_nil_r; reflexivity);
      pose proof W2 as W2'; repeat (apply Forall_cons_iff in W2; destruct W2 as (? & W2));
      assert (El : loadu (key ++ string_padding) 0 = a ++ b ++ c ++ d) by (rewrite E, <- !app_assoc; apply loadu_words; assumption); rewrite El.
    + constructor; [apply len_words4; assumption|]. apply (ni_128_ok 10 0 [] a b c d); (assumption || reflexivity).
    + destruct (ni_128_ok 10 0 [] a b c d) as (_ & I2); try assumption; [reflexivity|]. cbn [app] in I2.
      unfold key_expansion, rounds, key_words. rewrite K. change (Z.to_nat (16 / 4)) with 4%nat. change (4 * (4 + 6 + 1) - 4)%nat with (4 * 10)%nat.
      rewrite W3, chunks_words by assumption. rewrite I2. cbn [concat]. rewrite <- !app_assoc, app_nil_l. reflexivity.
  - change (8 * 24 =? 128) with false. change (8 * 24 =? 192) with true. cbn iota. f_equal. f_equal.
    change (ni_192 _ _ _) with (ni_192 (loadu (key ++ string_padding) 0) (loadu (key ++ string_padding) 16) (map (fun j => (rc_val (S (2 * j)), rc_val (S (S (2 * j))))) (seq 0 4))).
    destruct (cut_words key 6) as (W & W1 & W2 & W3); [unfold zlen in K; lia|assumption|]. destruct W as [|a [|b [|c [|d [|e [|f [|? ?]]]]]]]; try discriminate W1.
    assert (E : key = a ++ b ++ c ++ d ++ e ++ f) by (rewrite W3; cbn [concat]; rewrite app_nil_r; reflexivity).
    pose proof W2 as W2'. repeat (apply Forall_cons_iff in W2; destruct W2 as (? & W2)).
    assert (wordb [0; 0; 0; 0] /\ wordb [0; 0; 0; 7]) as (P1 & P2).
    { assert (byte_ok 0) by small. assert (byte_ok 7) by small. split; (split; [reflexivity|]; bytes_intro; assumption). }
    assert (El : loadu (key ++ string_padding) 0 = a ++ b ++ c ++ d) by (rewrite E, <- !app_assoc; apply loadu_words; assumption).
    assert (Eh : loadu (key ++ string_padding) 16 = e ++ f ++ [0; 0; 0; 0] ++ [0; 0; 0; 7]).
    { rewrite E, <- !app_assoc. change string_padding with ([0; 0; 0; 0] ++ [0; 0; 0; 7] ++ []). apply loadu_words16; assumption. }
    rewrite El, Eh. destruct (ni_192_ok 3 0 [] a b c d e f (e ++ f ++ [0; 0; 0; 0] ++ [0; 0; 0; 7])) as (I1 & I2); try assumption; [reflexivity|eauto 6|].
    apply ni_keys; [constructor; [apply len_words4; assumption|exact I1]|]. cbn [app] in I2.
    unfold key_expansion, rounds, key_words. rewrite K. change (Z.to_nat (24 / 4)) with 6%nat. change (4 * (6 + 6 + 1) - 6)%nat with (12 * 3 + 10)%nat.
    rewrite W3, chunks_words by assumption. rewrite I2. cbn [concat app]. rewrite <- !app_assoc, app_nil_l. reflexivity.
  - change (8 * 32 =? 128) with false. change (8 * 32 =? 192) with false. change (8 * 32 =? 256) with true. cbn iota. f_equal. f_equal.
    change (ni_256 _ _ _) with (ni_256 (loadu (key ++ string_padding) 0) (loadu (key ++ string_padding) 16) (map rc_val (seq 1 7))).
    destruct (cut_words key 8) as (W & W1 & W2 & W3); [unfold zlen in K; lia|assumption|]. destruct W as [|a [|b [|c [|d [|e [|f [|g [|h [|? ?]]]]]]]]]; try discriminate W1.
    assert (E : key = a ++ b ++ c ++ d ++ e ++ f ++ g ++ h) by (rewrite W3; cbn [concat]; rewrite app_nil_r; reflexivity).
    pose proof W2 as W2'. repeat (apply Forall_cons_iff in W2; destruct W2 as (? & W2)).
    assert (El : loadu (key ++ string_padding) 0 = a ++ b ++ c ++ d) by (rewrite E, <- !app_assoc; apply loadu_words; assumption).
    assert (Eh : loadu (key ++ string_padding) 16 = e ++ f ++ g ++ h) by (rewrite E, <- !app_assoc; apply loadu_words16; assumption).
    rewrite El, Eh. destruct (ni_256_ok 6 0 [] a b c d e f g h) as (I1 & I2); try assumption; [reflexivity|].
    apply ni_keys; [constructor; [apply len_words4; assumption|constructor; [apply len_words4; assumption|exact I1]]|]. cbn [app] in I2.
    unfold key_expansion, rounds, key_words. rewrite K. change (Z.to_nat (32 / 4)) with 8%nat. change (4 * (8 + 6 + 1) - 8)%nat with (8 * 6 + 4)%nat.
    rewrite W3, chunks_words by assumption. rewrite I2. cbn [concat app]. rewrite <- !app_assoc, app_nil_l. reflexivity.
Qed.

(* ---- encryption and decryption ---- *)
Lemma shift_sub s : blk s -> SubBytes (ShiftRows s) = ShiftRows (SubBytes s).
Proof. revert s. apply blk_elim. intros. reflexivity. Qed.
Lemma store_nth ck ks i : (i < length ks)%nat -> nth i (store_blocks ck ks) [] = nth i ks [].
Proof. intros H. unfold store_blocks. apply app_nth1. exact H. Qed.
Lemma fold_nth (op : bytes -> bytes -> bytes) (ks : list bytes) : forall t p n, (p + n <= length ks)%nat ->
  fold_left (fun t j => op t (nth j ks [])) (seq p n) t = fold_left op (firstn n (skipn p ks)) t.
Proof.
  intros t p n. revert t p. induction n as [|n IH]; intros t p H; [reflexivity|]. rewrite (skipn_nth_cons ks) by lia.
  cbn [seq fold_left firstn]. apply IH. lia.
Qed.
Lemma aesni_run_ok op oplast ck ks r b : length ks = S (S (S r)) -> (length ks <= length ck)%nat -> (forall i, (i < length ks)%nat -> nth i ck [] = nth i ks []) ->
  aesni_run op oplast ck (Z.of_nat (S (S r))) b = Ret (oplast (fold_left op (middle ks) (xorb b (hd [] ks))) (last ks [])).
Proof.
  intros L Lc H. unfold aesni_run. rewrite Nat2Z.id. replace (Nat.max 1 (S (S r) - 1)) with (S r) by lia.
  replace (S (S r) <? length ck)%nat with true by lia. f_equal.
  rewrite (last_nth ks (S (S r))) by lia. rewrite hd_nth. rewrite !H by lia. f_equal.
  transitivity (fold_left (fun t j => op t (nth j ks [])) (seq 1 (S r)) (xorb b (nth 0 ks []))).
  - assert (A : forall l t, (forall j, In j l -> (j < length ks)%nat) -> fold_left (fun t j => op t (nth j ck [])) l t = fold_left (fun t j => op t (nth j ks [])) l t).
    { induction l as [|j l IH]; intros t Hl; [reflexivity|]. cbn [fold_left]. rewrite H by (apply Hl; left; reflexivity). apply IH. intros. apply Hl. right. assumption. }
    apply A. intros j Hj. apply in_seq in Hj. lia.
  - rewrite fold_nth by lia. f_equal. unfold middle. rewrite removelast_firstn_len. replace (tl ks) with (skipn 1 ks) by (destruct ks; reflexivity).
    rewrite skipn_length. f_equal. lia.
Qed.
Lemma chunks_len (k : Z) (n : nat) : 0 < k -> forall l, zlen l = k * Z.of_nat n -> length (chunks k l) = n.
Proof.
  intros Hk. induction n as [|n IH]; intros l L.
  - assert (l = []) as -> by (destruct l; [reflexivity|unfold zlen in L; cbn [length] in L; lia]). reflexivity.
  - assert (E : l = firstn (Z.to_nat k) l ++ skipn (Z.to_nat k) l) by (symmetry; apply firstn_skipn). unfold zlen in L.
    rewrite E. rewrite chunks_cons; [|lia|unfold zlen; rewrite firstn_length; nia]. cbn [length]. rewrite IH; [reflexivity|]. unfold zlen. rewrite skipn_length. nia.
Qed.
Section Class.
Variable fresh : Z -> bytes.
Hypothesis fresh_len : forall n, 0 <= n -> zlen (fresh n) = n.
Lemma uninit_blocks_len : length (uninit_blocks fresh) = 15%nat.
Proof. unfold uninit_blocks. apply (chunks_len 16 15); [lia|]. rewrite fresh_len by lia. reflexivity. Qed.
Lemma aesniEncrypt_ok key b : aes_key_size key -> bytes_ok key -> zlen b = 16 -> bytes_ok b -> exists ck,
  aesniKeySetupEnc (uninit_blocks fresh) key (8 * zlen key) = Some ck /\ aesniEncrypt (fst ck) (snd ck) b = Ret (aes_E key b).
Proof using fresh_len.
  intros K B Lb Bb. unfold aesniKeySetupEnc. rewrite aesni_key_expansion_ok by assumption. rewrite Nat2Z.id.
  destruct (round_keys_ok key K B) as (H1 & H2). set (ks := round_keys key) in *.
  assert (E : map (fun i => nth i ks []) (seq 0 (S (rounds key))) = ks).
  { replace (S (rounds key)) with (length ks) by lia. clear. induction ks as [|k ks IH]; [reflexivity|]. cbn [length seq map nth]. f_equal.
    rewrite <- seq_shift, map_map. exact IH. }
  rewrite E. eexists. split; [reflexivity|]. cbn [fst snd]. destruct (rounds_key key K) as (r & Er & Hr & _). rewrite Er in *.
  replace (2 * r)%nat with (S (S (2 * r - 2))) by lia. unfold aesniEncrypt. rewrite (aesni_run_ok _ _ _ ks).
  - f_equal. unfold aes_E, aes_cipher. fold ks. cbn zeta.
    assert (K' : keys_ok ks) by (split; [assumption|lia]). destruct (keys_middle ks K') as (K1 & K2 & K3).
    assert (A : forall l t, Forall blk l -> blk t -> fold_left mm_aesenc l t = fold_left aes_round l t).
    { induction l as [|k l IH]; intros t Hl Ht; [reflexivity|]. apply Forall_cons_iff in Hl as (Hk & Hl). cbn [fold_left].
      unfold mm_aesenc at 2. rewrite shift_sub by exact Ht. apply IH; [exact Hl|]. apply blk_round; assumption. }
    assert (B0 : blk (xorb b (hd [] ks))) by (apply blk_xor; [split; assumption|exact K1]).
    rewrite A by assumption. unfold mm_aesenclast. rewrite shift_sub by (apply blk_rounds; assumption). reflexivity.
  - rewrite H2. lia.
  - unfold store_blocks. rewrite app_length, skipn_length, uninit_blocks_len. lia.
  - intros i Hi. apply store_nth. exact Hi.
Qed.
Lemma aesniDecrypt_ok key b : aes_key_size key -> bytes_ok key -> zlen b = 16 -> bytes_ok b -> exists ck,
  aesniKeySetupDec (uninit_blocks fresh) key (8 * zlen key) = Some ck /\ aesniDecrypt (fst ck) (snd ck) b = Ret (aes_D key b).
Proof using fresh_len.
  intros K B Lb Bb. unfold aesniKeySetupDec. rewrite aesni_key_expansion_ok by assumption. rewrite Nat2Z.id.
  destruct (round_keys_ok key K B) as (H1 & H2). set (ks := round_keys key) in *.
  destruct (rounds_key key K) as (r & Er & Hr & _). rewrite Er in *.
  assert (E : [nth (2 * r) ks []] ++ map (fun i => mm_aesimc (nth (2 * r - i) ks [])) (seq 1 (2 * r - 1)) ++ [nth 0 ks []] = inv_keys ks).
  { unfold inv_keys. rewrite <- (last_nth ks (2 * r)) by lia. rewrite hd_nth. cbn [app]. f_equal. f_equal. unfold mm_aesimc.
    rewrite <- (map_map (fun i => nth (2 * r - i) ks []) InvMixColumns). f_equal.
    unfold middle. rewrite removelast_firstn_len. 
    assert (Lt : length (tl ks) = (2 * r)%nat) by (destruct ks; cbn [tl length] in *; lia). rewrite Lt.
    apply (nth_ext _ _ [] []); [rewrite map_length, seq_length, rev_length, firstn_length, Lt; lia|].
    intros i Hi. rewrite map_length, seq_length in Hi. rewrite rev_nth by (rewrite firstn_length, Lt; lia).
    rewrite firstn_length, Lt. replace (Nat.min (pred (2 * r)) (2 * r) - S i)%nat with (2 * r - 2 - i)%nat by lia.
    rewrite (nth_indep _ [] (nth (2 * r - 0) ks [])) by (rewrite map_length, seq_length; lia). rewrite (map_nth (fun j => nth (2 * r - j) ks [])), seq_nth by lia.
    assert (T : nth (2 * r - 2 - i) (firstn (pred (2 * r)) (tl ks)) [] = nth (2 * r - 2 - i) (tl ks) []).
    { rewrite <- (firstn_skipn (pred (2 * r)) (tl ks)) at 2. rewrite app_nth1; [reflexivity|]. rewrite firstn_length. lia. }
    rewrite T. replace (2 * r - (1 + i))%nat with (S (2 * r - 2 - i)) by lia. destruct ks; [cbn [length] in H2; lia|reflexivity]. }
  rewrite E. eexists. split; [reflexivity|]. cbn [fst snd].
  assert (K' : keys_ok ks) by (split; [assumption|lia]). destruct (keys_middle ks K') as (K1 & K2 & K3).
  assert (Lm : length (middle ks) = (2 * r - 1)%nat) by (unfold middle; rewrite removelast_firstn_len, firstn_length; destruct ks; cbn [tl length] in *; lia).
  assert (Li : length (inv_keys ks) = (2 * r + 1)%nat) by (unfold inv_keys; cbn [length]; rewrite app_length, map_length, rev_length, Lm; cbn [length]; lia).
  replace (2 * r)%nat with (S (S (2 * r - 2))) by lia. unfold aesniDecrypt. rewrite (aesni_run_ok _ _ _ (inv_keys ks)).
  - f_equal. unfold aes_D, aes_inv_cipher. fold ks. cbn zeta.
    assert (M : middle (inv_keys ks) = map InvMixColumns (rev (middle ks))) by (unfold inv_keys; unfold middle at 1; cbn [tl]; apply removelast_last).
    assert (B0 : blk (xorb b (last ks []))) by (apply blk_xor; [split; assumption|exact K3]).
    rewrite M. change mm_aesdec with eq_inv_round. change (hd [] (inv_keys ks)) with (last ks []).
    rewrite <- equiv_rounds by (try assumption; apply Forall_rev; exact K2). unfold mm_aesdeclast. f_equal.
    unfold inv_keys. rewrite app_comm_cons, last_last. reflexivity.
  - lia.
  - unfold store_blocks. rewrite app_length, skipn_length, uninit_blocks_len. lia.
  - intros i Hi. apply store_nth. exact Hi.
Qed.
End Class.
Lemma aesni_family fresh key : (forall n, 0 <= n -> zlen (fresh n) = n) -> aes_key_size key -> bytes_ok key ->
  block_family (new_aesni fresh) key 16 (aes_E key) (aes_D key).
Proof.
  intros F K B. constructor; [lia| |intros b; apply aes_E_blk; assumption|intros b; apply aes_D_E; assumption].
  assert (Z16 : zlen (zeros 16) = 16 /\ bytes_ok (zeros 16)) by (split; [reflexivity|apply bytes_ok_zeros]).
  destruct (aesniEncrypt_ok fresh F key (zeros 16)) as (ce & Ee & _); [assumption|assumption|apply Z16|apply Z16|].
  destruct (aesniDecrypt_ok fresh F key (zeros 16)) as (cd & Ed & _); [assumption|assumption|apply Z16|apply Z16|].
  intros d. unfold new_aesni. replace (aes_key_ok key) with true by (symmetry; apply aes_key_ok_size; exact K). rewrite Ee, Ed. destruct d.
  - exists (BObj aesni_encrypt_class ce), (fun s => s = ce).
    repeat split; try lia. apply (raw_implements aesni_ckey 16 _ aesni_wipe); [lia|]. intros b Hb Bb. split; [|apply aes_E_blk; assumption].
    destruct (aesniEncrypt_ok fresh F key b) as (c & Ec & R); try assumption. rewrite Ee in Ec. injection Ec as <-. exact R.
  - exists (BObj aesni_decrypt_class cd), (fun s => s = cd).
    repeat split; try lia. apply (raw_implements aesni_ckey 16 _ aesni_wipe); [lia|]. intros b Hb Bb. split; [|apply aes_D_blk; assumption].
    destruct (aesniDecrypt_ok fresh F key b) as (c & Ec & R); try assumption. rewrite Ed in Ec. injection Ec as <-. exact R.
Qed.
