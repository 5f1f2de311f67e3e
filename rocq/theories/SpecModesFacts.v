(* The stateful block functions compute the sequences of SP 800-38A. *)
From Verif Require Import Prelude PreludeFacts BytesNum SpecBlock SpecModes.
Ltac Zify.zify_post_hook ::= Z.div_mod_to_equations.

Section Facts.
Variable E : bytes -> bytes.

Lemma ecb_run P : forall sg, exists C, snd (bf_run (ecb_fn E) sg P) = Some C /\ ecb_spec E P C.
Proof.
  induction P as [|b P IH]; intros sg.
  - exists []. split; [reflexivity|]. split; [reflexivity|]. intros j H; inversion H.
  - destruct (IH tt) as (C & H & Hl & HC). exists (E b :: C). split.
    + cbn. destruct (bf_run (ecb_fn E) tt P) as [s [os|]]; cbn in H |- *; [|discriminate].
      injection H as ->. reflexivity.
    + split; [cbn; lia|]. intros [|j] Hj; [reflexivity|]. cbn in Hj |- *. apply HC. lia.
Qed.

Lemma cbc_enc_run P : forall iv, exists C, snd (bf_run (cbc_enc_fn E) iv P) = Some C /\ cbc_enc_spec E iv P C.
Proof.
  induction P as [|b P IH]; intros iv.
  - exists []. split; [reflexivity|]. split; [reflexivity|]. intros j H; inversion H.
  - destruct (IH (E (xorb b iv))) as (C & H & Hl & HC). exists (E (xorb b iv) :: C). split.
    + cbn. destruct (bf_run (cbc_enc_fn E) (E (xorb b iv)) P) as [s [os|]]; cbn in H |- *; [|discriminate].
      injection H as ->. reflexivity.
    + split; [cbn; lia|]. intros [|j] Hj; [reflexivity|]. cbn in Hj |- *.
      unfold blk in *. rewrite HC by lia. destruct j; reflexivity.
Qed.

Lemma cbc_dec_run C : forall iv, exists P, snd (bf_run (cbc_dec_fn E) iv C) = Some P /\ cbc_dec_spec E iv C P.
Proof.
  induction C as [|c C IH]; intros iv.
  - exists []. split; [reflexivity|]. split; [reflexivity|]. intros j H; inversion H.
  - destruct (IH c) as (P & H & Hl & HP). exists (xorb (E c) iv :: P). split.
    + cbn. destruct (bf_run (cbc_dec_fn E) c C) as [s [os|]]; cbn in H |- *; [|discriminate].
      injection H as ->. reflexivity.
    + split; [cbn; lia|]. intros [|j] Hj; [reflexivity|]. cbn in Hj |- *.
      unfold blk in *. rewrite HP by lia. destruct j; reflexivity.
Qed.

Lemma cfb_input_cons n iv c C j :
  cfb_input n iv (c :: C) (S j) = cfb_input n (skipn n iv ++ c) C j.
Proof.
  induction j as [|j IH]; [reflexivity|].
  change (cfb_input n iv (c :: C) (S (S j)))
    with (skipn n (cfb_input n iv (c :: C) (S j)) ++ blk (c :: C) (S j)).
  rewrite IH. reflexivity.
Qed.

Lemma cfb_enc_run n P : forall iv, exists C, snd (bf_run (cfb_enc_fn E n) iv P) = Some C /\ cfb_enc_spec E n iv P C.
Proof.
  induction P as [|b P IH]; intros iv.
  - exists []. split; [reflexivity|]. split; [reflexivity|]. intros j H; inversion H.
  - set (c := xorb b (firstn n (E iv))).
    destruct (IH (skipn n iv ++ c)) as (C & H & Hl & HC). exists (c :: C). split.
    + cbn. fold c. destruct (bf_run (cfb_enc_fn E n) (skipn n iv ++ c) P) as [s [os|]]; cbn in H |- *; [|discriminate].
      injection H as ->. reflexivity.
    + split; [cbn; lia|]. intros [|j] Hj; [reflexivity|]. rewrite cfb_input_cons.
      cbn [length] in Hj. cbn [blk nth]. apply HC. lia.
Qed.

Lemma cfb_dec_run n C : forall iv, exists P, snd (bf_run (cfb_dec_fn E n) iv C) = Some P /\ cfb_dec_spec E n iv C P.
Proof.
  induction C as [|c C IH]; intros iv.
  - exists []. split; [reflexivity|]. split; [reflexivity|]. intros j H; inversion H.
  - destruct (IH (skipn n iv ++ c)) as (P & H & Hl & HP). exists (xorb c (firstn n (E iv)) :: P). split.
    + cbn. destruct (bf_run (cfb_dec_fn E n) (skipn n iv ++ c) C) as [s [os|]]; cbn in H |- *; [|discriminate].
      injection H as ->. reflexivity.
    + split; [cbn; lia|]. intros [|j] Hj; [reflexivity|]. rewrite cfb_input_cons.
      cbn [length] in Hj. cbn [blk nth]. apply HP. lia.
Qed.

Lemma iter_S_r {A} (f : A -> A) n x : Nat.iter (S n) f x = Nat.iter n f (f x).
Proof.
  induction n as [|n IH]; [reflexivity|].
  change (f (Nat.iter (S n) f x) = f (Nat.iter n f (f x))). rewrite IH. reflexivity.
Qed.

Lemma ofb_run n P : forall iv, exists C, snd (bf_run (ofb_fn E n) iv P) = Some C /\ ofb_spec E n iv P C.
Proof.
  induction P as [|b P IH]; intros iv.
  - exists []. split; [reflexivity|]. split; [reflexivity|]. intros j H; inversion H.
  - destruct (IH (E iv)) as (C & H & Hl & HC). exists (xorb b (firstn n (E iv)) :: C). split.
    + cbn. destruct (bf_run (ofb_fn E n) (E iv) P) as [s [os|]]; cbn in H |- *; [|discriminate].
      injection H as ->. reflexivity.
    + split; [cbn; lia|]. intros [|j] Hj; [reflexivity|]. rewrite iter_S_r.
      cbn [length] in Hj. cbn [blk nth]. apply HC. lia.
Qed.

Lemma length_ctr_block w iv j : (w <= length iv)%nat -> length (ctr_block w iv j) = length iv.
Proof. intros. unfold ctr_block. rewrite app_length, firstn_length, length_to_be. lia. Qed.

Lemma zlen_ctr_block w iv j : (w <= length iv)%nat -> zlen (ctr_block w iv j) = zlen iv.
Proof. intros. unfold zlen. rewrite length_ctr_block by assumption. reflexivity. Qed.

Lemma bytes_ok_ctr_block w iv j : bytes_ok iv -> bytes_ok (ctr_block w iv j).
Proof.
  intros H. apply bytes_ok_app. split; [apply Forall_firstn, H|apply bytes_ok_to_be].
Qed.

Lemma firstn_app_exact {A} (a b : list A) n : n = length a -> firstn n (a ++ b) = a.
Proof. intros ->. rewrite firstn_app, Nat.sub_diag, firstn_all. cbn. apply app_nil_r. Qed.
Lemma skipn_app_exact {A} (a b : list A) n : n = length a -> skipn n (a ++ b) = b.
Proof. intros ->. rewrite skipn_app, Nat.sub_diag, skipn_all. reflexivity. Qed.

Lemma ctr_block_add w iv i j : (w <= length iv)%nat ->
  ctr_block w (ctr_block w iv i) j = ctr_block w iv (i + j).
Proof.
  intros Hw. unfold ctr_block at 1. rewrite length_ctr_block by assumption.
  assert (L : (length iv - w)%nat = length (firstn (length iv - w) iv)) by (rewrite firstn_length; lia).
  unfold ctr_block. rewrite firstn_app_exact by exact L.
  rewrite skipn_app_exact by exact L. f_equal.
  rewrite be_to_be. rewrite <- to_be_mod. rewrite Z.add_mod_idemp_l by (pose proof (pow256_pos w); lia).
  rewrite to_be_mod. f_equal. lia.
Qed.

Lemma ctr_block_0 w iv : (w <= length iv)%nat -> bytes_ok iv -> ctr_block w iv 0 = iv.
Proof.
  intros Hw Hok. unfold ctr_block. rewrite Z.add_0_r.
  assert (length (skipn (length iv - w) iv) = w) as L by (rewrite skipn_length; lia).
  rewrite <- L at 2. rewrite to_be_be by (apply Forall_skipn; exact Hok).
  apply firstn_skipn.
Qed.

(* a run of CTR either computes the CTR sequence, or the message does not
   fit in the remaining number of counter values *)
Lemma ctr_run w P : forall iv room, (w <= length iv)%nat -> bytes_ok iv -> 1 <= room ->
  (zlen P < room -> exists C, bf_run (ctr_fn E w) (iv, room) P
      = ((ctr_block w iv (zlen P), room - zlen P), Some C) /\ ctr_spec E w iv P C) /\
  (room <= zlen P -> snd (bf_run (ctr_fn E w) (iv, room) P) = None).
Proof.
  induction P as [|b P IH]; intros iv room Hw Hok Hl.
  - split; [|change (zlen (@nil bytes)) with 0; lia]. intros _. exists []. split.
    + cbn [bf_run]. change (zlen (@nil bytes)) with 0. rewrite ctr_block_0, Z.sub_0_r by assumption. reflexivity.
    + split; [reflexivity|]. intros j H; inversion H.
  - rewrite zlen_cons. pose proof (zlen_nonneg P). cbn [bf_run].
    change (bf_step (ctr_fn E w) (iv, room) b) with
      (if room =? 1 then ((ctr_block w iv 1, room), @None bytes)
       else ((ctr_block w iv 1, room - 1), Some (xorb b (E iv)))).
    destruct (room =? 1) eqn:E1.
    + split; [lia|]. intros _. reflexivity.
    + destruct (IH (ctr_block w iv 1) (room - 1)) as (IH1 & IH2).
      { rewrite length_ctr_block; lia. } { apply bytes_ok_ctr_block, Hok. } { lia. }
      split; intros Hlt.
      * destruct (IH1 ltac:(lia)) as (C & HC & HlC & Hspec). rewrite HC.
        exists (xorb b (E iv) :: C). split.
        { rewrite ctr_block_add by assumption.
          replace (room - 1 - zlen P) with (room - (1 + zlen P)) by lia. reflexivity. }
        split; [cbn [length]; lia|]. intros [|j] Hj.
        { cbn [blk nth]. rewrite ctr_block_0 by assumption. reflexivity. }
        cbn [length] in Hj. cbn [blk nth]. unfold blk in Hspec. rewrite Hspec by lia.
        rewrite ctr_block_add by assumption. do 3 f_equal. lia.
      * specialize (IH2 ltac:(lia)). 
        destruct (bf_run (ctr_fn E w) (ctr_block w iv 1, room - 1) P) as [s [o|]]; [discriminate|reflexivity].
Qed.

(* distinct counter blocks *)
Lemma ctr_block_inj w iv i j : (w <= length iv)%nat -> 0 <= i -> 0 <= j ->
  i < 256 ^ Z.of_nat w -> j < 256 ^ Z.of_nat w ->
  ctr_block w iv i = ctr_block w iv j -> i = j.
Proof.
  intros Hw Hi Hj Hi' Hj' H. unfold ctr_block in H. apply app_inv_head in H.
  assert (H2 := f_equal be H). rewrite !be_to_be in H2.
  set (x := be _) in *. set (m := 256 ^ Z.of_nat w) in *.
  assert ((x + i - (x + j)) mod m = 0) as H3.
  { rewrite Zminus_mod, H2, Z.sub_diag. reflexivity. }
  replace (x + i - (x + j)) with (i - j) in H3 by lia.
  assert (m <> 0) by lia.
  apply Z.mod_divide in H3; [|assumption]. destruct H3 as (k & Hk). 
  assert (k = 0) by nia. subst. lia.
Qed.
End Facts.
