(* Erasure: what wipe leaves does not depend on the key, the initialization vector or the data *)
From Verif Require Import Prelude PreludeFacts SpecTransducer BufOutModel BufOut TransformModel BlockModel CipherModel EncModel HashModel
  SpecWipe WipeSafe CipherSpec WipeCipher AesModel AesniModel DesModel Des BlowfishModel Blowfish StreamModel.

Definition after (o : tobj) (l : list wop) : tobj := TObj (o_tr o) (fst (w_run (o_tr o) (o_st o) l)).
(* the numbers a cipher transform keeps: bytes in the input buffer; length, start and end of the output buffer *)
Definition public {C} (s : cs C) : Z * Z * Z * Z := (c_used _ s, zlen (obuf (c_bo _ s)), obeg (c_bo _ s), oend (c_bo _ s)).

Lemma cipher_wipe_eq fresh C fin (I : bc_st C -> Prop) s1 s2 : CI C I s1 -> CI C I s2 -> public s1 = public s2 -> bc_wipe C (c_c _ s1) = bc_wipe C (c_c _ s2) ->
  after (TObj (cipher_with_finish fresh C fin) s1) [Wipe] = after (TObj (cipher_with_finish fresh C fin) s2) [Wipe].
Proof.
  intros (H1 & _) (H2 & _) Hp Hw. unfold after. cbn. unfold public in Hp. injection Hp as E1 E2 E3 E4. unfold bo_wipe. now rewrite H1, H2, Hw, E1, E2, E3, E4.
Qed.
Lemma t_calls_run T P : t_calls T P -> forall l s, P s -> Forall op_possible l -> P (fst (w_run T s (map Call l))).
Proof.
  intros HT. induction l as [|w l IH]; intros s Hs Hl; cbn [map w_run w_step]; [exact Hs|]. inversion Hl; subst.
  destruct (HT s w Hs) as (G1 & G2); [assumption|]. destruct (t_step T s w) as [s1 ob]. cbn [fst snd] in *.
  pose proof (IH s1 G1) as I2. destruct (w_run T s1 (map Call l)) as [s2 obs]. now apply I2.
Qed.

(* two block cipher objects of the same class, with equal states after wipe whatever is done before *)
Definition b_erase (c1 c2 : bobj) : Prop := exists C (I : bc_st C -> Prop) s1 s2, c1 = BObj C s1 /\ c2 = BObj C s2 /\ bc_good C I /\ I s1 /\ I s2 /\
  0 < bc_blocksize C <= 2 ^ 40 /\ forall s s', I s -> I s' -> bc_wipe C s = bc_wipe C s'.

Section Fresh.
Variable fresh : Z -> bytes.
Hypothesis fresh_len : forall n, 0 <= n -> zlen (fresh n) = n.

(* ---------------- modes ---------------- *)
Section Max.
Variable C : block_cipher.
Definition keeps {A} (n : Z) (r : mode_st C * bytes * out A) : Prop := ms_max (fst (fst r)) = n.
Lemma keeps_bind {A B} n (r : mode_st C * bytes * out A) (k : mode_st C * bytes -> A -> mode_st C * bytes * out B) :
  keeps n r -> (forall s a, ms_max (fst s) = n -> keeps n (k s a)) -> keeps n (let! (s, a) := r in k s a).
Proof. intros H K. destruct r as [s [a|e| |]]; cbn [bind]; [now apply K| | |]; exact H. Qed.
Lemma keeps_iv n s r : ms_max (fst s) = n -> keeps n (to_iv C s r). Proof. intros H. destruct r; exact H. Qed.
Lemma keeps_tmp n s r : ms_max (fst s) = n -> keeps n (to_tmp C s r). Proof. intros H. destruct r; exact H. Qed.
Lemma keeps_dst n s r : ms_max (fst s) = n -> keeps n (to_dst C s r). Proof. intros H. destruct r; exact H. Qed.
Lemma keeps_c1 n s src so d : ms_max (fst s) = n -> keeps n (c_transform_dst C s src so d). Proof. intros H. exact H. Qed.
Lemma keeps_c2 n s : ms_max (fst s) = n -> keeps n (c_transform_iv_tmp C s). Proof. intros H. exact H. Qed.
Lemma keeps_c3 n s : ms_max (fst s) = n -> keeps n (c_transform_iv_iv C s). Proof. intros H. exact H. Qed.
End Max.
Ltac keep := repeat first [assumption|apply keeps_bind; [|intros]|apply keeps_iv|apply keeps_tmp|apply keeps_dst|apply keeps_c1|apply keeps_c2|apply keeps_c3].
Definition is_ctr (m : chaining_mode) : bool := match m with CTR | CTR_N _ => true | _ => false end.


Definition MI0 C (I : bc_st C -> Prop) (m : mode_st C) : Prop := MI C I m /\ ms_max m = 0.
Lemma mode_erase C (I : bc_st C -> Prop) (m1 m2 : mode_st C) : (forall s s', I s -> I s' -> bc_wipe C s = bc_wipe C s') -> MI C I m1 -> MI C I m2 -> ms_max m1 = ms_max m2 ->
  mode_wipe C m1 = mode_wipe C m2.
Proof. intros H (A1 & A2 & A3) (B1 & B2 & B3) E. unfold mode_wipe. now rewrite A1, A2, B1, B2, E, (H _ _ A3 B3). Qed.

Lemma init_max C max iv c m : mode_init fresh C max iv c = Ret m -> ms_max m = max.
Proof. unfold mode_init. destruct (make_initial_iv _ _); cbn [obind]; try discriminate. intros E. now injection E as <-. Qed.
Lemma chunked_max C n max iv c m : chunked_init fresh C n max iv c = Ret m -> ms_max m = max.
Proof. unfold chunked_init. destruct (chunk_ok C n); [apply init_max|discriminate]. Qed.

Lemma chain_erase m d iv1 iv2 c1 c2 cc1 cc2 : is_ctr m = false -> b_erase c1 c2 -> chain fresh m d iv1 c1 = Ret cc1 -> chain fresh m d iv2 c2 = Ret cc2 -> b_erase cc1 cc2.
Proof.
  intros Hm (C & I & s1 & s2 & -> & -> & G & H1 & H2 & Hbs & Hw) E1 E2. unfold chain in E1, E2. cbn [b_bc b_st] in *. assert (0 < bc_blocksize C) as Hp by lia.
  assert (forall iv s m0, I s -> mode_init fresh C 0 iv s = Ret m0 -> MI0 C I m0) as Hi.
  { intros iv s m0 Hs E. split; [|now apply init_max in E]. now apply (mode_init_good fresh fresh_len C I Hp 0 iv s). }
  assert (forall n iv s m0, I s -> chunked_init fresh C n 0 iv s = Ret m0 -> 0 < n <= bc_blocksize C /\ MI0 C I m0) as Hc.
  { intros n iv s m0 Hs. unfold chunked_init. destruct (chunk_ok C n) eqn:En; [|discriminate]. intros Em. apply (chunk_ok_range fresh fresh_len) in En. split; [exact En|now apply (Hi iv s)]. }
  assert (forall s s', MI0 C I s -> MI0 C I s' -> mode_wipe C s = mode_wipe C s') as He.
  { intros s s' (A & A') (B & B'). apply (mode_erase C I); try assumption. congruence. }
  assert (forall bsz (tr : mode_st C -> bytes -> Z -> bytes -> Z -> mode_st C * bytes * out unit),
    bc_good {| bc_st := mode_st C; bc_blocksize := bsz; bc_transform := tr; bc_wipe := mode_wipe C |} (MI C I) ->
    (forall n m src so dst d, ms_max m = n -> keeps C n (tr m src so dst d)) ->
    bc_good {| bc_st := mode_st C; bc_blocksize := bsz; bc_transform := tr; bc_wipe := mode_wipe C |} (MI0 C I)) as Hg.
  { intros bsz tr Hgd Hk m0 src so dst d0 (A & A') L1 L2 L3 L4. destruct (Hgd m0 src so dst d0 A L1 L2 L3 L4) as ((K1 & K2) & K3). split; [|exact K3].
    split; [|exact K2]. split; [exact K1|]. exact (Hk 0 m0 src so dst d0 A'). }
  destruct m as [| |n|n| |n]; try discriminate Hm; destruct d;
    try (injection E1 as <-; injection E2 as <-; exists C, I, s1, s2; exact (conj eq_refl (conj eq_refl (conj G (conj H1 (conj H2 (conj Hbs Hw))))))).
  all: match type of E1 with obind ?x _ = _ => destruct x as [m1|e| |] eqn:Em1; cbn [obind] in E1; try discriminate E1; injection E1 as <- end.
  all: match type of E2 with obind ?x _ = _ => destruct x as [m2|e| |] eqn:Em2; cbn [obind] in E2; try discriminate E2; injection E2 as <- end.
  all: first [pose proof (Hi _ _ _ H1 Em1) as M1; pose proof (Hi _ _ _ H2 Em2) as M2|pose proof (Hc _ _ _ _ H1 Em1) as (En & M1); pose proof (Hc _ _ _ _ H2 Em2) as (_ & M2)].
  all: match goal with |- b_erase (BObj ?X _) _ => exists X, (MI0 C I), m1, m2 end.
  all: split; [reflexivity|split; [reflexivity|split; [|split; [exact M1|split; [exact M2|split; [cbn; lia|exact He]]]]]].
  all: apply Hg; [first [now apply (cbc_encrypt_good fresh)|now apply (cbc_decrypt_good fresh)|now apply (cfb_encrypt_good fresh)|now apply (cfb_decrypt_good fresh)|now apply (ofb_good fresh)]|].
  all: intros n0 m0 src so dst d0 Hn; cbv zeta; keep.
Qed.

(* ---------------- cipher objects ---------------- *)
Lemma block_erase_used m p d iv1 iv2 c1 c2 o1 o2 l1 l2 : is_ctr (match m with Some m => m | None => CBC end) = false -> b_erase c1 c2 ->
  make_block_cipher fresh m (option_map scheme_of p) iv1 d c1 = Ret o1 -> make_block_cipher fresh m (option_map scheme_of p) iv2 d c2 = Ret o2 ->
  Forall op_possible l1 -> Forall op_possible l2 ->
  exists C fin (s1 s2 : cs C), after o1 (map Call l1) = TObj (cipher_with_finish fresh C fin) s1 /\ after o2 (map Call l2) = TObj (cipher_with_finish fresh C fin) s2 /\
  (l1 = [] -> l2 = [] -> public s1 = public s2) /\
  (public s1 = public s2 -> after (after o1 (map Call l1)) [Wipe] = after (after o2 (map Call l2)) [Wipe]).
Proof.
  intros Hm Hb E1 E2 L1 L2. unfold make_block_cipher in E1, E2. set (mm := match m with Some m => m | None => CBC end) in *.
  destruct (chain fresh mm d iv1 c1) as [cc1|e| |] eqn:Ec1; cbn [obind] in E1; try discriminate E1.
  destruct (chain fresh mm d iv2 c2) as [cc2|e| |] eqn:Ec2; cbn [obind] in E2; try discriminate E2.
  destruct (chain_erase mm d iv1 iv2 c1 c2 cc1 cc2 Hm Hb Ec1 Ec2) as (C & I & x1 & x2 & -> & -> & G & H1 & H2 & Hbs & Hw). cbn [b_bc b_st] in *.
  assert (0 < bc_blocksize C <= 2 ^ 60) as Hb60 by lia.
  pose proof (cipher_new_good fresh fresh_len C I Hb60 x1 H1 ltac:(lia)) as N1. pose proof (cipher_new_good fresh fresh_len C I Hb60 x2 H2 ltac:(lia)) as N2.
  assert (forall fin, (forall s, CI C I s -> good (CI C I) (fin s)) -> o1 = TObj (cipher_with_finish fresh C fin) (cipher_new fresh C x1) -> o2 = TObj (cipher_with_finish fresh C fin) (cipher_new fresh C x2) ->
    exists C fin (s1 s2 : cs C), after o1 (map Call l1) = TObj (cipher_with_finish fresh C fin) s1 /\ after o2 (map Call l2) = TObj (cipher_with_finish fresh C fin) s2 /\
    (l1 = [] -> l2 = [] -> public s1 = public s2) /\
    (public s1 = public s2 -> after (after o1 (map Call l1)) [Wipe] = after (after o2 (map Call l2)) [Wipe])) as H.
  { intros fin Hf -> ->. set (T := cipher_with_finish fresh C fin). exists C, fin, (fst (w_run T (cipher_new fresh C x1) (map Call l1))), (fst (w_run T (cipher_new fresh C x2) (map Call l2))).
    split; [reflexivity|split; [reflexivity|]]. assert (t_calls T (CI C I)) as HT by now apply cipher_calls.
    pose proof (t_calls_run T (CI C I) HT l1 (cipher_new fresh C x1) N1 L1) as R1. pose proof (t_calls_run T (CI C I) HT l2 (cipher_new fresh C x2) N2 L2) as R2.
    split; [intros -> ->; reflexivity|].
    intros Hp. apply (cipher_wipe_eq fresh C fin I); try assumption. apply Hw; [apply R1|apply R2]. }
  destruct p as [p|]; [destruct d|]; cbn [option_map] in E1, E2; injection E1 as <-; injection E2 as <-.
  - eapply H; [|reflexivity|reflexivity]. intros s Hs. apply padded_encrypt_good; try assumption. apply scheme_of_good.
  - eapply H; [|reflexivity|reflexivity]. intros s Hs. apply padded_decrypt_good; try assumption. apply scheme_of_good.
  - eapply H; [|reflexivity|reflexivity]. intros s Hs. now apply flush_good.
Qed.

(* counter mode: the number of blocks left is kept too *)
Definition blocks_left {C n} (s : cs (ctr C n)) : Z := ms_max (c_c _ s).
Lemma block_erase_ctr m p d iv1 iv2 c1 c2 o1 o2 l1 l2 : is_ctr m = true -> b_erase c1 c2 ->
  make_block_cipher fresh (Some m) (option_map scheme_of p) iv1 d c1 = Ret o1 -> make_block_cipher fresh (Some m) (option_map scheme_of p) iv2 d c2 = Ret o2 ->
  Forall op_possible l1 -> Forall op_possible l2 ->
  exists C n fin (s1 s2 : cs (ctr C n)), after o1 (map Call l1) = TObj (cipher_with_finish fresh (ctr C n) fin) s1 /\ after o2 (map Call l2) = TObj (cipher_with_finish fresh (ctr C n) fin) s2 /\
  (l1 = [] -> l2 = [] -> public s1 = public s2 /\ blocks_left s1 = blocks_left s2) /\
  (public s1 = public s2 -> blocks_left s1 = blocks_left s2 -> after (after o1 (map Call l1)) [Wipe] = after (after o2 (map Call l2)) [Wipe]).
Proof.
  intros Hm Hb E1 E2 L1 L2. unfold make_block_cipher in E1, E2.
  destruct (chain fresh m d iv1 c1) as [cc1|e| |] eqn:Ec1; cbn [obind] in E1; try discriminate E1.
  destruct (chain fresh m d iv2 c2) as [cc2|e| |] eqn:Ec2; cbn [obind] in E2; try discriminate E2.
  destruct Hb as (C & I & x1 & x2 & -> & -> & G & H1 & H2 & Hbs & Hw).
  assert (exists n m1 m2, cc1 = BObj (ctr C n) m1 /\ cc2 = BObj (ctr C n) m2 /\ MI C I m1 /\ MI C I m2 /\ ms_max m1 = ms_max m2) as (n & m1 & m2 & -> & -> & M1 & M2 & Hmax).
  { unfold chain in Ec1, Ec2. cbn [b_bc b_st] in *. assert (0 < bc_blocksize C) as Hp by lia.
    assert (forall max iv s m0, I s -> mode_init fresh C max iv s = Ret m0 -> MI C I m0 /\ ms_max m0 = max) as Hi.
    { intros max iv s m0 Hs E. split; [|now apply init_max in E]. now apply (mode_init_good fresh fresh_len C I Hp max iv s). }
    assert (forall k max iv s m0, I s -> chunked_init fresh C k max iv s = Ret m0 -> MI C I m0 /\ ms_max m0 = max) as Hc.
    { intros k max iv s m0 Hs. unfold chunked_init. destruct (chunk_ok C k); [|discriminate]. intros Em. now apply (Hi max iv s). }
    destruct m as [| |n|n| |n]; try discriminate Hm; clear d E1 E2.
    all: match type of Ec1 with obind ?x _ = _ => destruct x as [m1|e| |] eqn:Em1; cbn [obind] in Ec1; try discriminate Ec1; injection Ec1 as <- end.
    all: match type of Ec2 with obind ?x _ = _ => destruct x as [m2|e| |] eqn:Em2; cbn [obind] in Ec2; try discriminate Ec2; injection Ec2 as <- end.
    all: first [pose proof (Hi _ _ _ _ H1 Em1) as (M1 & X1); pose proof (Hi _ _ _ _ H2 Em2) as (M2 & X2)|pose proof (Hc _ _ _ _ _ H1 Em1) as (M1 & X1); pose proof (Hc _ _ _ _ _ H2 Em2) as (M2 & X2)].
    all: eexists; exists m1, m2; split; [reflexivity|split; [reflexivity|split; [exact M1|split; [exact M2|congruence]]]]. }
  cbn [b_bc b_st] in *. clear Ec1 Ec2. assert (bc_good (ctr C n) (MI C I)) as Gc by (apply (ctr_good fresh); try assumption; lia).
  assert (0 < bc_blocksize (ctr C n) <= 2 ^ 60) as Hb60 by (cbn [ctr bc_blocksize]; lia).
  pose proof (cipher_new_good fresh fresh_len (ctr C n) (MI C I) Hb60 m1 M1 ltac:(cbn [ctr bc_blocksize]; lia)) as N1.
  pose proof (cipher_new_good fresh fresh_len (ctr C n) (MI C I) Hb60 m2 M2 ltac:(cbn [ctr bc_blocksize]; lia)) as N2.
  assert (forall fin, (forall s, CI (ctr C n) (MI C I) s -> good (CI (ctr C n) (MI C I)) (fin s)) -> o1 = TObj (cipher_with_finish fresh (ctr C n) fin) (cipher_new fresh (ctr C n) m1) ->
    o2 = TObj (cipher_with_finish fresh (ctr C n) fin) (cipher_new fresh (ctr C n) m2) ->
    exists C n fin (s1 s2 : cs (ctr C n)), after o1 (map Call l1) = TObj (cipher_with_finish fresh (ctr C n) fin) s1 /\ after o2 (map Call l2) = TObj (cipher_with_finish fresh (ctr C n) fin) s2 /\
    (l1 = [] -> l2 = [] -> public s1 = public s2 /\ blocks_left s1 = blocks_left s2) /\
    (public s1 = public s2 -> blocks_left s1 = blocks_left s2 -> after (after o1 (map Call l1)) [Wipe] = after (after o2 (map Call l2)) [Wipe])) as H.
  { intros fin Hf -> ->. set (T := cipher_with_finish fresh (ctr C n) fin).
    exists C, n, fin, (fst (w_run T (cipher_new fresh (ctr C n) m1) (map Call l1))), (fst (w_run T (cipher_new fresh (ctr C n) m2) (map Call l2))).
    split; [reflexivity|split; [reflexivity|]]. assert (t_calls T (CI (ctr C n) (MI C I))) as HT by now apply cipher_calls.
    pose proof (t_calls_run T (CI (ctr C n) (MI C I)) HT l1 (cipher_new fresh (ctr C n) m1) N1 L1) as R1. pose proof (t_calls_run T (CI (ctr C n) (MI C I)) HT l2 (cipher_new fresh (ctr C n) m2) N2 L2) as R2.
    split; [intros -> ->; split; [reflexivity|exact Hmax]|].
    intros Hp Hl. apply (cipher_wipe_eq fresh (ctr C n) fin (MI C I)); try assumption. apply (mode_erase C I); try assumption; [apply R1|apply R2]. }
  destruct p as [p|]; [destruct d|]; cbn [option_map] in E1, E2; injection E1 as <-; injection E2 as <-.
  - eapply H; [|reflexivity|reflexivity]. intros s Hs. apply padded_encrypt_good; try assumption. apply scheme_of_good.
  - eapply H; [|reflexivity|reflexivity]. intros s Hs. apply padded_decrypt_good; try assumption. apply scheme_of_good.
  - eapply H; [|reflexivity|reflexivity]. intros s Hs. now apply flush_good.
Qed.

(* new objects: no condition at all *)
Lemma block_erase_new m p d iv1 iv2 c1 c2 o1 o2 : b_erase c1 c2 ->
  make_block_cipher fresh m (option_map scheme_of p) iv1 d c1 = Ret o1 -> make_block_cipher fresh m (option_map scheme_of p) iv2 d c2 = Ret o2 -> after o1 [Wipe] = after o2 [Wipe].
Proof.
  intros Hb E1 E2. destruct (is_ctr (match m with Some m => m | None => CBC end)) eqn:Hm.
  - destruct m as [m|]; [|discriminate Hm].
    destruct (block_erase_ctr m p d iv1 iv2 c1 c2 o1 o2 [] [] Hm Hb E1 E2 (Forall_nil _) (Forall_nil _)) as (C & n & fin & s1 & s2 & _ & _ & H1 & H2).
    destruct (H1 eq_refl eq_refl) as (A & B). specialize (H2 A B). now destruct o1, o2.
  - destruct (block_erase_used m p d iv1 iv2 c1 c2 o1 o2 [] [] Hm Hb E1 E2 (Forall_nil _) (Forall_nil _)) as (C & fin & s1 & s2 & _ & _ & H1 & H2).
    specialize (H2 (H1 eq_refl eq_refl)). now destruct o1, o2.
Qed.

(* ---------------- the block ciphers ---------------- *)
Definition erases (nb : dir -> bytes -> out bobj) : Prop := forall d k1 k2 c1 c2, bytes_ok k1 -> bytes_ok k2 -> nb d k1 = Ret c1 -> nb d k2 = Ret c2 -> b_erase c1 c2.
Lemma zero_map (a b : list Z) : length a = length b -> map (fun _ => 0) a = map (fun _ => 0) b.
Proof. revert b. induction a as [|x a IH]; intros [|y b]; cbn; intros H; try discriminate; [reflexivity|]. f_equal. now apply IH, Nat.succ_inj. Qed.
Lemma cook_len key d : length (d3des_cook_key key d) = 32%nat.
Proof. reflexivity. Qed.
Lemma des_erases : erases new_des.
Proof.
  intros d k1 k2 c1 c2 _ _. unfold new_des. destruct (zlen k1 =? 8); [|discriminate]. destruct (zlen k2 =? 8); [|discriminate]. intros E1 E2. injection E1 as <-. injection E2 as <-.
  exists des_class, (fun k => length k = 32%nat), (d3des_cook_key k1 d), (d3des_cook_key k2 d). split; [reflexivity|split; [reflexivity|split; [|split; [apply cook_len|split; [apply cook_len|split; [cbn; lia|]]]]]].
  - apply raw_good; [|lia]. intros k b _ _. split; [discriminate|]. intros r Er. injection Er as <-. now apply d3des_len.
  - intros s s' H H'. apply zero_map. congruence.
Qed.
Lemma triple_des_erases : erases new_triple_des.
Proof.
  intros d k1 k2 c1 c2 _ _. unfold new_triple_des. destruct (_ && _); [discriminate|]. destruct (_ && _); [discriminate|].
  assert (forall x1 y1 z1 x2 y2 z2 d1 d2 d3, b_erase (BObj triple_des_class (d3des_cook_key x1 d1, d3des_cook_key y1 d2, d3des_cook_key z1 d3))
    (BObj triple_des_class (d3des_cook_key x2 d1, d3des_cook_key y2 d2, d3des_cook_key z2 d3))) as H.
  { intros. exists triple_des_class, (fun k => length (fst (fst k)) = 32%nat /\ length (snd (fst k)) = 32%nat /\ length (snd k) = 32%nat). do 2 eexists.
    split; [reflexivity|split; [reflexivity|split; [|split; [split; [apply cook_len|split; apply cook_len]|split; [split; [apply cook_len|split; apply cook_len]|split; [cbn; lia|]]]]]].
    - intros k src so dst dd Hk L1 L2 L3 L4. destruct (triple_good fresh fresh_len k src so dst dd Logic.I L1 L2 L3 L4) as ((_ & K2) & K3). split; [|exact K3]. split; [|exact K2].
      destruct k as [[a b] c]. cbn [triple_des_class bc_transform]. now destruct (_ || _).
    - intros [[a b] c] [[a' b'] c'] (A1 & A2 & A3) (B1 & B2 & B3). cbn [fst snd triple_des_class bc_wipe] in *. unfold wipe_ckey.
      rewrite (zero_map a a'), (zero_map b b'), (zero_map c c') by congruence. reflexivity. }
  intros E1 E2. destruct d; injection E1 as <-; injection E2 as <-; destruct (zlen k1 =? 24), (zlen k2 =? 24); apply H.
Qed.
Lemma blowfish_erases : erases new_blowfish.
Proof.
  intros d k1 k2 c1 c2 B1 B2. unfold new_blowfish. destruct (_ && _) eqn:K1; [|discriminate]. destruct (_ && _) eqn:K2 in |- *; [|discriminate].
  destruct (Init_ok k1) as ((P1 & S1 & _) & _); [unfold zlen in *; lia|exact B1|]. destruct (Init_ok k2) as ((P2 & S2 & _) & _); [unfold zlen in *; lia|exact B2|].
  intros E1 E2. assert (forall (a b : bf_ctx), (length (fst a) = 18 /\ length (snd a) = 1024)%nat -> (length (fst b) = 18 /\ length (snd b) = 1024)%nat -> bf_wipe a = bf_wipe b) as He.
  { intros a b (A1 & A2) (C1 & C2). unfold bf_wipe. f_equal; apply zero_map; congruence. }
  destruct d; injection E1 as <-; injection E2 as <-.
  all: match goal with |- b_erase (BObj ?X ?a) (BObj _ ?b) => exists X, (fun c => length (fst c) = 18 /\ length (snd c) = 1024)%nat, a, b end.
  all: split; [reflexivity|split; [reflexivity|split; [|split; [now split|split; [now split|split; [cbn; lia|exact He]]]]]].
  all: apply raw_good; [|lia]; intros k b _ _; (split; [discriminate|]); intros r Er; injection Er as <-; apply bf_stub_len.
Qed.
Lemma aes_erases : erases (new_aes fresh).
Proof.
  intros d k1 k2 c1 c2 B1 B2 E1 E2. pose proof (new_aes_good fresh fresh_len d k1 c1 B1 E1) as G1. pose proof (new_aes_good fresh fresh_len d k2 c2 B2 E2) as G2.
  destruct G1 as (I1 & G1 & S1 & Hb & _), G2 as (I2 & G2 & S2 & _ & _).
  unfold new_aes in E1, E2. destruct (aes_key_ok k1); [|discriminate E1]. destruct (aes_key_ok k2); [|discriminate E2].
  destruct d; injection E1 as <-; injection E2 as <-; cbn [b_bc b_st] in *.
  all: match goal with |- b_erase (BObj ?X ?a) (BObj _ ?b) => exists X, (fun k => I1 k \/ I2 k), a, b end.
  all: split; [reflexivity|split; [reflexivity|split; [|split; [now left|split; [now right|split; [exact Hb|reflexivity]]]]]].
  all: intros k src so dst dd Hk L1 L2 L3 L4; destruct Hk as [Hk|Hk];
    [destruct (G1 k src so dst dd Hk L1 L2 L3 L4) as ((K1 & K2) & K3); (split; [split; [left; exact K1|exact K2]|exact K3])
    |destruct (G2 k src so dst dd Hk L1 L2 L3 L4) as ((K1 & K2) & K3); (split; [split; [right; exact K1|exact K2]|exact K3])].
Qed.
Lemma aesni_erases : erases (new_aesni fresh).
Proof.
  intros d k1 k2 c1 c2 B1 B2 E1 E2. pose proof (new_aesni_good fresh fresh_len d k1 c1 B1 E1) as G1. pose proof (new_aesni_good fresh fresh_len d k2 c2 B2 E2) as G2.
  destruct G1 as (I1 & G1 & S1 & Hb & _), G2 as (I2 & G2 & S2 & _ & _).
  unfold new_aesni in E1, E2. destruct (aes_key_ok k1); [|discriminate E1]. destruct (aes_key_ok k2); [|discriminate E2].
  destruct d, (aesniKeySetupEnc (uninit_blocks fresh) k1 (8 * zlen k1)), (aesniKeySetupDec (uninit_blocks fresh) k1 (8 * zlen k1)); try discriminate E1;
  destruct (aesniKeySetupEnc (uninit_blocks fresh) k2 (8 * zlen k2)), (aesniKeySetupDec (uninit_blocks fresh) k2 (8 * zlen k2)); try discriminate E2.
  all: injection E1 as <-; injection E2 as <-; cbn [b_bc b_st] in *.
  all: match goal with |- b_erase (BObj ?X ?a) (BObj _ ?b) => exists X, (fun k => I1 k \/ I2 k), a, b end.
  all: split; [reflexivity|split; [reflexivity|split; [|split; [now left|split; [now right|split; [exact Hb|reflexivity]]]]]].
  all: intros k src so dst dd Hk L1 L2 L3 L4; destruct Hk as [Hk|Hk];
    [destruct (G1 k src so dst dd Hk L1 L2 L3 L4) as ((K1 & K2) & K3); (split; [split; [left; exact K1|exact K2]|exact K3])
    |destruct (G2 k src so dst dd Hk L1 L2 L3 L4) as ((K1 & K2) & K3); (split; [split; [right; exact K1|exact K2]|exact K3])].
Qed.

(* ---------------- whole objects ---------------- *)
Lemma erase_cipher nb m p d iv1 iv2 k1 k2 o1 o2 : erases nb -> bytes_ok k1 -> bytes_ok k2 ->
  make_cipher fresh nb m (option_map scheme_of p) iv1 k1 d = Ret o1 -> make_cipher fresh nb m (option_map scheme_of p) iv2 k2 d = Ret o2 -> after o1 [Wipe] = after o2 [Wipe].
Proof.
  intros He B1 B2 E1 E2. unfold make_cipher in E1, E2. destruct (nb _ k1) as [c1|e| |] eqn:Ec1; cbn [obind] in E1; try discriminate E1.
  destruct (nb _ k2) as [c2|e| |] eqn:Ec2; cbn [obind] in E2; try discriminate E2. apply (block_erase_new m p d iv1 iv2 c1 c2); try assumption. exact (He _ _ _ _ _ B1 B2 Ec1 Ec2).
Qed.
Lemma erase_cipher_used nb m p d iv1 iv2 k1 k2 o1 o2 l1 l2 : erases nb -> bytes_ok k1 -> bytes_ok k2 -> is_ctr (match m with Some m => m | None => CBC end) = false ->
  make_cipher fresh nb m (option_map scheme_of p) iv1 k1 d = Ret o1 -> make_cipher fresh nb m (option_map scheme_of p) iv2 k2 d = Ret o2 ->
  Forall op_possible l1 -> Forall op_possible l2 ->
  exists C fin (s1 s2 : cs C), after o1 (map Call l1) = TObj (cipher_with_finish fresh C fin) s1 /\ after o2 (map Call l2) = TObj (cipher_with_finish fresh C fin) s2 /\
  (public s1 = public s2 -> after (after o1 (map Call l1)) [Wipe] = after (after o2 (map Call l2)) [Wipe]).
Proof.
  intros He B1 B2 Hm E1 E2 L1 L2. unfold make_cipher in E1, E2. destruct (nb _ k1) as [c1|e| |] eqn:Ec1; cbn [obind] in E1; try discriminate E1.
  destruct (nb _ k2) as [c2|e| |] eqn:Ec2; cbn [obind] in E2; try discriminate E2.
  destruct (block_erase_used m p d iv1 iv2 c1 c2 o1 o2 l1 l2 Hm (He _ _ _ _ _ B1 B2 Ec1 Ec2) E1 E2 L1 L2) as (C & fin & s1 & s2 & H1 & H2 & _ & H3).
  exists C, fin, s1, s2. now split; [|split].
Qed.
Lemma erase_cipher_ctr nb m p d iv1 iv2 k1 k2 o1 o2 l1 l2 : erases nb -> bytes_ok k1 -> bytes_ok k2 -> is_ctr m = true ->
  make_cipher fresh nb (Some m) (option_map scheme_of p) iv1 k1 d = Ret o1 -> make_cipher fresh nb (Some m) (option_map scheme_of p) iv2 k2 d = Ret o2 ->
  Forall op_possible l1 -> Forall op_possible l2 ->
  exists C n fin (s1 s2 : cs (ctr C n)), after o1 (map Call l1) = TObj (cipher_with_finish fresh (ctr C n) fin) s1 /\ after o2 (map Call l2) = TObj (cipher_with_finish fresh (ctr C n) fin) s2 /\
  (public s1 = public s2 -> blocks_left s1 = blocks_left s2 -> after (after o1 (map Call l1)) [Wipe] = after (after o2 (map Call l2)) [Wipe]).
Proof.
  intros He B1 B2 Hm E1 E2 L1 L2. unfold make_cipher in E1, E2. destruct (nb _ k1) as [c1|e| |] eqn:Ec1; cbn [obind] in E1; try discriminate E1.
  destruct (nb _ k2) as [c2|e| |] eqn:Ec2; cbn [obind] in E2; try discriminate E2.
  destruct (block_erase_ctr m p d iv1 iv2 c1 c2 o1 o2 l1 l2 Hm (He _ _ _ _ _ B1 B2 Ec1 Ec2) E1 E2 L1 L2) as (C & n & fin & s1 & s2 & H1 & H2 & _ & H3).
  exists C, n, fin, s1, s2. now split; [|split].
Qed.

(* ---------------- stream ciphers ---------------- *)
Definition stream_public {C} (s : sct C) : Z * Z * Z := (zlen (obuf (sct_bo _ s)), obeg (sct_bo _ s), oend (sct_bo _ s)).
Lemma stream_wipe_eq C (I : sc_st C -> Prop) s1 s2 : SI C I s1 -> SI C I s2 -> stream_public s1 = stream_public s2 -> sc_wipe C (sct_c _ s1) = sc_wipe C (sct_c _ s2) ->
  after (TObj (stream_transform fresh C) s1) [Wipe] = after (TObj (stream_transform fresh C) s2) [Wipe].
Proof.
  intros (H1 & _) (H2 & _) Hp Hw. unfold after. cbn. unfold stream_public in Hp. injection Hp as E1 E2 E3. unfold bo_wipe. now rewrite H1, H2, Hw, E1, E2, E3.
Qed.
Lemma arc_erase k k' : arc_inv k -> arc_inv k' -> arc_wipe k = arc_wipe k'.
Proof. intros (H & _) (H' & _). unfold arc_wipe. rewrite (zero_map (arc_state k) (arc_state k')) by congruence. reflexivity. Qed.
Lemma chacha_erase k k' : cc_inv k -> cc_inv k' -> chacha_wipe k = chacha_wipe k'.
Proof. intros (H & G & _) (H' & G' & _). unfold chacha_wipe. rewrite (zero_map (cc_input k) (cc_input k')), (zero_map (cc_output k) (cc_output k')) by congruence. reflexivity. Qed.
End Fresh.
