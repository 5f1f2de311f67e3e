(* BLAKE3 objects before wipe: any calls, result at any time, adding less than 2^64 bytes in all. *)
From Verif Require Import Prelude PreludeFacts BytesNum SpecBlock BlockTotal Word WordIO SpecHash HashModel HashSpec HashFacts MdModel MdHash ShaModel Sha KeccakModel Keccak
  SpecBlake2 Blake2Model Blake2 SpecBlake3 Blake3Model Blake3 Blake3Chunk Blake3Tree Blake3Hash SpecTransducer TransformModel SpecWipe SpecWipe2.

Section One.
Variables (key : list Z) (flags : Z).
Hypothesis Hkey : okw 8 key.
Hypothesis Hflags : word_ok 32 flags.
Variable sz : Z.
Hypothesis Hsz : 0 < sz / 8.
Definition b3_at (m : bytes) (c : option hasher) : Prop := exists h, c = Some h /\ hinv key flags m h.
Lemma b3_add m c d : b3_at m c -> bytes_ok d -> zlen m + zlen d < 2 ^ 64 -> exists c', b3_upd c d = Ret c' /\ b3_at (m ++ d) c'.
Proof.
  intros (h & -> & Hh) Hd Hl. destruct (update_ok key flags Hkey Hflags m h d Hh Hd Hl) as (h' & E & Hh'). exists (Some h'). cbn [b3_upd]. rewrite E. split; [reflexivity|]. exists h'. auto.
Qed.
Lemma b3_call m c src ofs len : b3_at m c -> bytes_ok src -> in_range src ofs len = true -> zlen m + zlen (sub src ofs len) < 2 ^ 64 ->
  exists c', c_update b3_upd c src ofs len = (c', Ret tt) /\ b3_at (m ++ sub src ofs len) c'.
Proof.
  intros Hc Hb Hr Hl. assert (bytes_ok (sub src ofs len)) as Hb' by (unfold sub; apply bytes_ok_split; apply bytes_ok_split; exact Hb).
  destruct (b3_add m c _ Hc Hb' Hl) as (c' & E & H). exists c'. unfold c_update. rewrite Hr, E. auto.
Qed.
Lemma b3_call_all m c src : b3_at m c -> bytes_ok src -> zlen m + zlen src < 2 ^ 64 -> exists c', c_update b3_upd c src 0 (zlen src) = (c', Ret tt) /\ b3_at (m ++ src) c'.
Proof.
  intros Hc Hb Hl. pose proof (sub_0_all src (zlen src) eq_refl) as E. assert (zlen m + zlen (sub src 0 (zlen src)) < 2 ^ 64) as Hl2 by (rewrite E; exact Hl).
  destruct (b3_call m c src 0 (zlen src) Hc Hb ltac:(apply in_range_true; pose proof (zlen_nonneg src); lia) Hl2) as (c' & E1 & E2). rewrite E in E2. eauto.
Qed.
Lemma b3_step m c o : b3_at m c -> hop_chars o -> o <> HWipe -> zlen m + zlen (hop_fed o) < 2 ^ 64 ->
  b3_at (m ++ hop_fed o) (fst (h_step (blake3_class sz) c o)) /\ snd (h_step (blake3_class sz) c o) <> OUndef.
Proof.
  intros Hc Hb Hw Hl. destruct o as [b ofs len|s|x|n| |]; cbn [h_step hop_chars hop_fed] in *; unfold unit_obs, bytes_obs; cbn [blake3_class c_hash h_add_substring h_add_string h_add_char h_add_byte h_result].
  - destruct ((ofs <? 0) || (len <? 0) || (ofs >? zlen b - len)) eqn:E.
    + assert (in_range b ofs len = false) as -> by (unfold in_range; lia). cbn [fst snd unit_obs]. rewrite app_nil_r. split; [exact Hc|discriminate].
    + assert (in_range b ofs len = true) as Er by (unfold in_range; lia). rewrite Er in *.
      destruct (b3_call m c b ofs len Hc Hb Er Hl) as (c' & -> & H). split; [exact H|discriminate].
  - destruct (b3_call_all m c s Hc Hb Hl) as (c' & -> & H). split; [exact H|discriminate].
  - destruct (b3_call_all m c [x] Hc ltac:(constructor; [exact Hb|constructor]) Hl) as (c' & -> & H). split; [exact H|discriminate].
  - destruct (b3_call_all m c [n mod 256] Hc ltac:(constructor; [unfold byte_ok; lia|constructor]) Hl) as (c' & -> & H). split; [exact H|discriminate].
  - rewrite app_nil_r. destruct Hc as (h & -> & Hh). cbn [b3_fin fst snd]. split; [exists h; auto|].
    rewrite (result_ok key flags Hkey Hflags m h (sz / 8) Hh Hsz) by (cbn in Hl; lia). discriminate.
  - now destruct Hw.
Qed.
Lemma b3_run : forall l m c, b3_at m c -> Forall hop_chars l -> ~ In HWipe l -> zlen m + zlen (fed l) < 2 ^ 64 ->
  b3_at (m ++ fed l) (fst (h_run (blake3_class sz) c l)) /\ ~ In OUndef (snd (h_run (blake3_class sz) c l)).
Proof.
  induction l as [|o l IH]; intros m c Hc Hb Hw Hl; [unfold fed; cbn; rewrite app_nil_r; auto|]. inversion Hb; subst.
  unfold fed in Hl |- *. cbn [map concat] in *. rewrite zlen_app in Hl. pose proof (zlen_nonneg (concat (map hop_fed l))).
  destruct (b3_step m c o Hc) as (G1 & G2); [assumption|intros ->; apply Hw; now left|lia|].
  cbn [h_run]. destruct (h_step (blake3_class sz) c o) as [c1 ob]. cbn [fst snd] in *.
  destruct (IH (m ++ hop_fed o) c1 G1) as (I1 & I2); [assumption|intros E; apply Hw; now right|unfold fed; rewrite zlen_app; lia|].
  destruct (h_run (blake3_class sz) c1 l) as [c2 obs]. cbn [fst snd] in *. unfold fed in I1. rewrite app_assoc. split; [exact I1|]. intros [E|E]; [now apply G2|now apply I2].
Qed.
Lemma b3_result m c : b3_at m c -> zlen m < 2 ^ 64 -> snd (h_result (blake3_class sz) c) = Ret (root_output (b3_root key flags m) (Z.to_nat (sz / 8))).
Proof. intros (h & -> & Hh) Hl. cbn [blake3_class c_hash h_result b3_fin snd]. now apply result_ok. Qed.
End One.

Lemma blake3_any key sz o l : bytes_ok key -> blake3_obj key sz = Ret o -> Forall hop_chars l -> ~ In HWipe l -> zlen (fed l) < 2 ^ 64 ->
  ~ In OUndef (snd (h_run (ho_class o) (ho_st o) l)) /\ snd (h_result (ho_class o) (fst (h_run (ho_class o) (ho_st o) l))) = Ret (blake3_spec key (sz / 8) (fed l)).
Proof.
  intros Hb E Hl Hw Ht. unfold blake3_obj in E. destruct ((sz >? 0) && (sz mod 8 =? 0) && ((zlen key =? 0) || (zlen key =? 32))) eqn:Eg; [|discriminate].
  injection E as <-. cbn [ho_class ho_st]. assert (Hsz : 0 < sz / 8) by lia.
  assert (Hk : zlen key = 0 \/ zlen key = 32) by lia. destruct Hk as [Hk|Hk].
  - apply zlen_0 in Hk. subst key. change (zlen (@nil Z) =? 32) with false. cbn iota.
    assert (Eiv : B3_IV = b_IV blake2s_params) by (cbn [blake2s_params b_IV]; rewrite iv2s_ok; reflexivity).
    assert (Hiv : okw 8 (b_IV blake2s_params)).
    { rewrite <- Eiv. split; [reflexivity|]. repeat (apply Forall_cons; [unfold word_ok; lia|]). constructor. }
    destruct (b3_run (b_IV blake2s_params) 0 Hiv ltac:(unfold word_ok; lia) sz Hsz l [] (Some (hasher_init_base (b_IV blake2s_params) 0))) as (H1 & H2);
      [exists (hasher_init_base (b_IV blake2s_params) 0); split; [reflexivity|apply init_ok]|assumption|assumption|change (zlen (@nil Z)) with 0; lia|].
    unfold hasher_init. rewrite Eiv. split; [exact H2|]. exact (b3_result _ 0 Hiv ltac:(unfold word_ok; lia) sz Hsz _ _ H1 Ht).
  - assert ((zlen key =? 32) = true) as -> by lia.
    assert (Hkw : load_words32 8 key = le_words 4 key /\ okw 8 (le_words 4 key)).
    { assert (Hn : length key = (8 * 4)%nat) by (unfold zlen in Hk; lia). split; [apply load_words32_ok; assumption|]. exact (le_words_ok 4 8 key ltac:(lia) Hn Hb). }
    destruct Hkw as (Ew & Hkw). destruct key as [|x key']; [cbn in Hk; lia|].
    destruct (b3_run (le_words 4 (x :: key')) F_KEYED_HASH Hkw ltac:(unfold word_ok, F_KEYED_HASH; lia) sz Hsz l [] (Some (hasher_init_base (le_words 4 (x :: key')) F_KEYED_HASH))) as (H1 & H2);
      [exists (hasher_init_base (le_words 4 (x :: key')) F_KEYED_HASH); split; [reflexivity|apply init_ok]|assumption|assumption|change (zlen (@nil Z)) with 0; lia|].
    unfold hasher_init_keyed. rewrite Ew. split; [exact H2|]. exact (b3_result _ F_KEYED_HASH Hkw ltac:(unfold word_ok, F_KEYED_HASH; lia) sz Hsz _ _ H1 Ht).
Qed.
