(* Results of the final-triple-DES MAC called again. *)
From Verif Require Import Prelude PreludeFacts BytesNum SpecBlock SpecModes SpecPadding SpecMac SpecAgain SpecMacAgain Padding HashModel HashSpec HashFacts MdHash BlockModel BlockTotal
  BlockCipher CipherModel CipherSpec CipherApi MacModel Mac MacApi Again MacAgain.

Lemma triple_new_again fresh c1 c2 c3 bs E1 E2 E3 iv p ops k : (forall n, 0 <= n -> zlen (fresh n) = n) ->
  block_object c1 bs E1 -> block_object c2 bs E2 -> block_object c3 bs E3 -> mac_iv_ok bs iv -> (forall q, p = Some q -> pad_supports q bs) -> Forall hop_valid ops ->
  exists o, mac_final_triple_new fresh iv (option_map scheme_of p) c1 c2 c3 = Ret o /\
    results_from o ops k = mac_out (option_map (fun t => E3 (E2 t)) (mac_values E1 bs p (iv_val bs iv) (added ops) k)).
Proof.
  intros Hf O1 O2 O3 Hiv Hp Hops. pose proof (object_E_ok _ _ _ O1) as HE. pose proof O1 as (Hbs & Hb & gd & HC & Hg).
  destruct O2 as (_ & Hb2 & gd2 & HC2 & Hg2). destruct O3 as (_ & Hb3 & gd3 & HC3 & Hg3).
  destruct (mac_iv bs iv ltac:(lia) Hiv) as (Ei & Ei2 & Ei3). unfold mac_final_triple_new, mac_init. rewrite Hb, Hb2, Hb3, Z.eqb_refl. cbn [negb orb]. rewrite Ei. cbn [obind].
  eexists. split; [reflexivity|]. clear O1. rewrite <- Hb in Hbs, HE, Hp, Ei, Ei2, Ei3, Hb2, Hb3 |- *. clear Hb Hiv.
  set (B := bc_blocksize (b_bc c1)) in *. unfold results_from. cbn [ho_class ho_st]. set (H := mac_final_triple (b_bc c1) (b_bc c2) (b_bc c3) (option_map scheme_of p)).
  set (s0 := (_, b_st c2, b_st c3)). pose proof (mac_himpl fresh (b_bc c1) E1 gd Hf Hbs HC HE p (iv_val B iv)) as HI.
  assert (Hrun : forall m sm, macR (b_bc c1) E1 gd (iv_val B iv) sm m -> bytes_ok m -> exists sm', fst (h_run H (sm, b_st c2, b_st c3) ops) = (sm', b_st c2, b_st c3) /\
      macR (b_bc c1) E1 gd (iv_val B iv) sm' (m ++ added ops) /\ bytes_ok (m ++ added ops)).
  { clear s0. induction ops as [|o ops IH]; intros m sm HR Hm.
    - exists sm. unfold added. cbn [map concat h_run fst]. rewrite app_nil_r. auto.
    - apply Forall_cons_iff in Hops as (Ho & Hops). destruct (hi_op _ _ _ _ HI sm m o HR Ho Logic.I) as (s' & Es & HR').
      assert (E' : h_step H (sm, b_st c2, b_st c3) o = ((s', b_st c2, b_st c3), Ret tt)).
      { destruct o; cbn [H h_step mac_final_triple h_add_substring h_add_string h_add_char h_add_byte] in *; unfold t_on_mac, lift; cbn [fst snd]; rewrite Es; reflexivity. }
      cbn [h_run]. rewrite E'. cbn [bind]. assert (Hm' : bytes_ok (m ++ hop_bytes o)) by (apply bytes_ok_app; split; [assumption|apply hop_bytes_ok; assumption]).
      destruct (IH Hops (m ++ hop_bytes o) s' HR' Hm') as (sm' & A & A' & A''). exists sm'. unfold added in *. cbn [map concat]. rewrite app_assoc. auto. }
  destruct (Hrun [] _ (mac_init_R fresh (b_bc c1) E1 gd Hf Hbs HE (iv_val B iv) (b_st c1) Ei2 Ei3 Hg) (Forall_nil _)) as (sm & Er0 & HR & Hm).
  change (nth_result H (fst (h_run H s0 ops)) k = mac_out (option_map (fun t => E3 (E2 t)) (mac_values E1 B p (iv_val B iv) (added ops) k))).
  assert (Er1 : fst (h_run H s0 ops) = (sm, b_st c2, b_st c3)) by exact Er0. rewrite Er1. clear Er0 Er1 Hrun s0 HI. cbn [app] in HR, Hm.
  revert HR Hm Hg2 Hg3 Ei2 Ei3. generalize (added ops) as m. generalize (iv_val B iv) as v0. generalize (b_st c2) as s2. generalize (b_st c3) as s3. clear iv Ei ops Hops. revert sm.
  induction k as [|k IH]; intros sm s3 s2 v0 m HR Hm G2 G3 L1 L2;
    destruct (mac_result_again fresh (b_bc c1) E1 gd Hf Hbs HC HE p v0 sm m Hp HR) as (sm' & Er & Hok & Hno);
    pose proof (mac_digest_message (b_bc c1) E1 p v0 m ltac:(lia) Hp) as EQ; rewrite EQ in Er, Hok, Hno; clear EQ; fold B in Er, Hok, Hno;
    assert (Hstep : exists s2' s3', gd2 s2' /\ gd3 s3' /\ h_result H (sm, s2, s3) = ((sm', s2', s3'), mac_out (option_map (fun t => E3 (E2 t)) (mac_value E1 B p v0 m))));
    [ | | | ].
  1,3: cbn [H mac_final_triple h_result]; unfold triple_result, t_on_mac, lift; cbn [fst snd]; rewrite Er; cbn [fst snd];
    unfold mac_value; destruct (mac_message B p m) as [X|] eqn:EX; cbn [option_map mac_out bind snd fst]; [|exists s2, s3; auto];
    pose proof (mac_message_ok _ _ _ _ (proj1 Hbs) Hm EX) as HX; destruct (cbc_mac_ok E1 _ X HE HX _ L1 L2) as (L5 & L6);
    set (r := cbc_mac E1 _ X) in *;
    destruct (object_step _ _ _ s2 r r HC2 G2) as (s2' & -> & G2' & L3 & L4); try congruence; try lia; cbn [fst snd obind bind];
    destruct (object_step _ _ _ s3 (E2 r) (E2 r) HC3 G3) as (s3' & -> & G3' & _ & _); try congruence; try lia; exists s2', s3'; auto.
  - destruct Hstep as (s2' & s3' & _ & _ & E). cbn [nth_result]. rewrite E. reflexivity.
  - destruct Hstep as (s2' & s3' & G2' & G3' & E). cbn [nth_result]. rewrite E. cbn [fst]. rewrite mac_values_S. unfold mac_value in Hok, Hno |- *. 
    destruct (mac_message B p m) as [X|] eqn:EX; cbn [option_map mac_out] in *.
    + pose proof (mac_message_ok _ _ _ _ (proj1 Hbs) Hm EX) as HX. destruct (cbc_mac_ok E1 _ X HE HX _ L1 L2) as (L5 & L6).
      apply (IH sm' s3' s2' _ []); try assumption; [apply Hok; reflexivity|constructor].
    + assert (HN : macR (b_bc c1) E1 gd v0 sm' m) by (apply Hno; discriminate). rewrite (IH sm' s3' s2' v0 m HN Hm G2' G3' L1 L2). unfold mac_values, mac_value. rewrite EX. clear. cbn [option_map]. induction k as [|k IH]; [reflexivity|].
      change (Nat.iter (S k) ?f ?x) with (f (Nat.iter k f x)). destruct (Nat.iter k _ _); [discriminate|reflexivity].
Qed.
Lemma des_final_again fresh nb E D key iv p ops k : (forall n, 0 <= n -> zlen (fresh n) = n) ->
  (forall k, zlen k = 8 -> bytes_ok k -> block_family nb k 8 (E k) (D k)) ->
  bytes_ok key -> zlen key = 16 \/ zlen key = 24 -> mac_iv_ok 8 iv -> Forall hop_valid ops ->
  exists o, des_final_triple_des fresh nb iv (option_map scheme_of p) key = Ret o /\
    results_from o ops k = mac_out (option_map (fun t => E (key_part key (if zlen key =? 24 then 2 else 0)) (D (key_part key 1) t))
      (mac_values (E (key_part key 0)) 8 p (iv_val 8 iv) (added ops) k)).
Proof.
  intros Hf HF Hk Hl Hiv Hops. unfold des_final_triple_des, bytes_sub. assert (negb (zlen key =? 16) && negb (zlen key =? 24) = false) as -> by lia.
  assert (in_range key 0 8 = true) as -> by (apply in_range_true; lia). assert (in_range key 8 8 = true) as -> by (apply in_range_true; lia). cbn [obind].
  assert (E3 : (if zlen key =? 24 then if in_range key 16 8 then Ret (sub key 16 8) else Raise Invalid_argument else Ret (sub key 0 8)) = Ret (key_part key (if zlen key =? 24 then 2 else 0))).
  { destruct (zlen key =? 24) eqn:El; [|reflexivity]. assert (in_range key 16 8 = true) as -> by (apply in_range_true; lia). reflexivity. }
  rewrite E3. cbn [obind]. clear E3. set (i3 := if zlen key =? 24 then 2 else 0). assert (Hi3 : 8 * i3 + 8 <= zlen key /\ 0 <= i3) by (unfold i3; destruct (zlen key =? 24) eqn:El; lia).
  assert (Hp : forall i, 0 <= i -> 8 * i + 8 <= zlen key -> zlen (key_part key i) = 8 /\ bytes_ok (key_part key i)).
  { intros i Hi1 Hi2. unfold key_part. split; [apply zlen_sub; lia|apply bytes_ok_sub; assumption]. }
  destruct (Hp 0 ltac:(lia) ltac:(lia)) as (A1 & A2). destruct (Hp 1 ltac:(lia) ltac:(lia)) as (B1 & B2). destruct (Hp i3 ltac:(lia) ltac:(lia)) as (C1 & C2).
  change (sub key 0 8) with (key_part key 0). change (sub key 8 8) with (key_part key 1).
  destruct (family_object _ _ _ _ _ Encrypt (HF _ A1 A2)) as (c1 & -> & O1). cbn [obind].
  destruct (family_object _ _ _ _ _ Decrypt (HF _ B1 B2)) as (c2 & -> & O2). cbn [obind].
  destruct (family_object _ _ _ _ _ Encrypt (HF _ C1 C2)) as (c3 & -> & O3). cbn [obind].
  apply (triple_new_again fresh c1 c2 c3 8 _ _ _ iv p ops k Hf O1 O2 O3 Hiv); [|exact Hops]. intros q _. destruct q; cbn; [lia|exact Logic.I].
Qed.
