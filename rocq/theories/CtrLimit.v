(* CTR: what each call of a CTR block cipher object returns, also after
   Message_too_long has been raised. *)
From Verif Require Import Prelude PreludeFacts BytesNum SpecBlock SpecModes SpecModesFacts
  BlockModel BlockCipher Modes CipherModel CipherSpec CipherFacts CipherApi.
Ltac Zify.zify_post_hook ::= Z.div_mod_to_equations.

(* successive calls transform blk 0 dst 0 on one object, each with a fresh
   destination of one block, going on after exceptions: what the caller
   gets from each call *)
Fixpoint bc_calls (C : block_cipher) (s : bc_st C) (blks : list bytes) : list (out bytes) :=
  match blks with
  | [] => []
  | b :: bl =>
      let r := bc_transform C s b 0 (zeros (bc_blocksize C)) 0 in
      match snd r with
      | Ret _ => Ret (snd (fst r)) | Raise e => Raise e | Undef => Undef | Hang => Hang
      end :: bc_calls C (fst (fst r)) bl
  end.

Lemma bc_calls_ctr C E w rel : bc_implements C (ctr_fn E w) rel -> 0 < bc_blocksize C ->
  forall blks s iv room, rel s (iv, room) -> 1 <= room -> (w <= length iv)%nat -> bytes_ok iv ->
  blocks_ok (bc_blocksize C) blks ->
  length (bc_calls C s blks) = length blks /\
  forall j, (j < length blks)%nat ->
    nth j (bc_calls C s blks) Hang =
    if Z.of_nat j <? room - 1 then Ret (Prelude.xorb (nth j blks []) (E (ctr_block w iv (Z.of_nat j))))
    else Raise (Error Message_too_long).
Proof.
  intros HC Hbs. induction blks as [|b bl IH]; intros s iv room HR Hroom Hw Hok Hb.
  - split; [reflexivity|]. intros j Hj. cbn in Hj. lia.
  - apply Forall_cons_iff in Hb. destruct Hb as ((Hb1 & Hb2) & Hb3).
    assert (Hsub : sub b 0 (bc_blocksize C) = b) by (apply sub_0_all; lia).
    destruct (HC s (iv, room) b 0 (zeros (bc_blocksize C)) 0 HR) as (s' & dst' & Ht & HR' & Hl & Hd).
    { apply in_range_true. lia. }
    { apply in_range_true. rewrite zlen_zeros; lia. }
    { rewrite Hsub. exact Hb2. }
    rewrite Hsub in *. cbn [ctr_fn bf_step] in *.
    assert (Hlen : length (ctr_block w iv 1) = length iv) by (rewrite (length_ctr_block E); [reflexivity|exact Hw]).
    assert (Hst : forall room', (room' = room /\ room = 1 \/ room' = room - 1 /\ 1 <> room) ->
       rel s' (ctr_block w iv 1, room') ->
       length (bc_calls C s' bl) = length bl /\ forall j, (j < length bl)%nat ->
       nth j (bc_calls C s' bl) Hang = if Z.of_nat (S j) <? room - 1 then Ret (Prelude.xorb (nth j bl []) (E (ctr_block w iv (Z.of_nat (S j)))))
          else Raise (Error Message_too_long)).
    { intros room' Hr Hrel. destruct (IH s' (ctr_block w iv 1) room' Hrel) as (L & N); try assumption; try lia.
      - unfold ctr_block. apply bytes_ok_app. split; [apply Forall_firstn; exact Hok|apply bytes_ok_to_be].
      - split; [exact L|]. intros j Hj. rewrite N by exact Hj. rewrite (ctr_block_add E) by exact Hw.
        replace (1 + Z.of_nat j) with (Z.of_nat (S j)) by lia.
        destruct (Z.of_nat j <? room' - 1) eqn:E1, (Z.of_nat (S j) <? room - 1) eqn:E2; try reflexivity; lia. }
    assert (Z0 : ctr_block w iv 0 = iv) by (apply (ctr_block_0 E); assumption).
    cbn [bc_calls]. rewrite Ht. cbn [fst snd]. destruct (room =? 1) eqn:Er; cbn [fst snd] in *.
    + assert (Hr1 : room = 1) by lia. destruct (Hst room (or_introl (conj eq_refl Hr1)) HR') as (L & N).
      cbn [length]. split; [lia|]. intros [|j] Hj; [|apply N; lia].
      cbn [nth]. replace (Z.of_nat 0 <? room - 1) with false by lia. reflexivity.
    + assert (Hr1 : 1 <> room) by lia. destruct (Hst (room - 1) (or_intror (conj eq_refl Hr1)) HR') as (L & N).
      cbn [length]. split; [lia|]. intros [|j] Hj; [|apply N; lia].
      cbn [nth]. replace (Z.of_nat 0 <? room - 1) with true by lia. change (Z.of_nat 0) with 0. rewrite Z0.
      destruct (Hd _ eq_refl) as (-> & Hlb & Hobk). f_equal.
      rewrite <- (app_nil_r (Prelude.xorb b (E iv))) at 2. unfold splice. cbn [Z.to_nat firstn app Nat.add]. f_equal.
      apply skipn_all2. rewrite zlen_zeros in Hl by lia. pose proof (zlen_zeros (bc_blocksize C) ltac:(lia)).
      unfold zlen in *. lia.
Qed.

(* the counter width of a CTR mode *)
Definition ctr_width (bs : Z) (m : chaining_mode) : option Z :=
  match m with CTR => Some bs | CTR_N n => Some n | _ => None end.

Section Ctr.
Variable fresh : Z -> bytes.
Hypothesis fresh_len : forall n, 0 <= n -> zlen (fresh n) = n.

Lemma ctr_never_reuses nb key bs E D m w iv d blks : block_family nb key bs E D ->
  ctr_width bs m = Some w -> mode_ok bs m -> iv_ok bs m iv -> blocks_ok bs blks ->
  exists c cc, nb Encrypt key = Ret c /\ chain fresh m d iv c = Ret cc /\
  length (bc_calls (b_bc cc) (b_st cc) blks) = length blks /\
  (forall j, (j < length blks)%nat ->
    nth j (bc_calls (b_bc cc) (b_st cc) blks) Hang =
    if Z.of_nat j <? ctr_limit (Z.to_nat w) - 1
    then Ret (Prelude.xorb (nth j blks []) (E (ctr_block (Z.to_nat w) (iv_val bs iv) (Z.of_nat j))))
    else Raise (Error Message_too_long)) /\
  (forall i j, 0 <= i < ctr_limit (Z.to_nat w) -> 0 <= j < ctr_limit (Z.to_nat w) ->
    ctr_block (Z.to_nat w) (iv_val bs iv) i = ctr_block (Z.to_nat w) (iv_val bs iv) j -> i = j).
Proof.
  intros HF Hw Hm Hiv Hb. pose proof (fam_bs _ _ _ _ _ HF) as Hbs.
  assert (Hw' : 0 < w <= bs) by (destruct m; cbn in Hw, Hm; try discriminate; injection Hw as <-; lia).
  assert (Hne : m <> ECB) by (destruct m; discriminate).
  destruct (iv_val_len bs ltac:(lia) m iv Hiv Hne) as (Hil & Hio).
  destruct (fam_new _ _ _ _ _ HF Encrypt) as (c & gd & Hc & Hcbs & HC & Hg).
  destruct (mode_init_ok fresh fresh_len (b_bc c) gd ltac:(lia) (ctr_max w) iv (b_st c) Hg) as (s & Hs & Hmax & HR).
  { intros v ->. apply Hiv. }
  { destruct iv as [v|]; [|exact I]. destruct Hiv as (_ & [H|H]); [contradiction|]. lia. }
  rewrite Hcbs in HR. fold (iv_val bs iv) in HR.
  exists c, (BObj (ctr (b_bc c) w) s). split; [exact Hc|]. split.
  { destruct m; cbn in Hw; try discriminate; injection Hw as <-; unfold chain; rewrite ?Hcbs.
    - rewrite Hs. reflexivity.
    - unfold chunked_init, chunk_ok. rewrite Hcbs. replace ((n >? 0) && (n <=? bs)) with true by lia.
      rewrite Hs. reflexivity. }
  cbn [b_bc b_st].
  assert (HR2 : ctr_R (b_bc c) gd s (iv_val bs iv, ctr_limit (Z.to_nat w))).
  { apply (ctr_init_R fresh fresh_len (b_bc c) gd (Z.to_nat w)); try assumption; try lia;
      try (rewrite Z2Nat.id by lia; exact Hmax). }
  pose proof (ctr_implements fresh fresh_len (b_bc c) E gd ltac:(lia) HC (Z.to_nat w) ltac:(lia)) as HI.
  rewrite Z2Nat.id in HI by lia.
  destruct (bc_calls_ctr (ctr (b_bc c) w) E (Z.to_nat w) _ HI ltac:(cbn; lia) blks s (iv_val bs iv) (ctr_limit (Z.to_nat w))) as (L & N).
  - exact HR2.
  - unfold ctr_limit. pose proof (Z.pow_pos_nonneg 256 (Z.of_nat (Nat.min (Z.to_nat w) 8))). lia.
  - unfold zlen in Hil. lia.
  - exact Hio.
  - cbn [ctr bc_blocksize]. rewrite Hcbs. exact Hb.
  - split; [exact L|]. split; [exact N|]. intros i j Hi Hj H.
    assert (ctr_limit (Z.to_nat w) <= 256 ^ Z.of_nat (Z.to_nat w)) by (unfold ctr_limit; apply Z.pow_le_mono_r; lia).
    apply (ctr_block_inj E (Z.to_nat w) (iv_val bs iv)); try lia; try assumption. unfold zlen in Hil. lia.
Qed.
End Ctr.
