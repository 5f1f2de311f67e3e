(* What it means for a block cipher object to compute a function on blocks. *)
From Verif Require Import Prelude PreludeFacts SpecTransducer TransformModel SpecBlock BlockModel BlockCipher SpecModes Modes CipherModel CipherApi.

(* the method transform, on ranges inside its buffers, writes F of the source block
   and nothing else; the object does not change *)
Definition block_computes (o : bobj) (bs : Z) (F : bytes -> bytes) : Prop :=
  bc_blocksize (b_bc o) = bs /\
  forall src so dst d, 0 <= so <= zlen src - bs -> 0 <= d <= zlen dst - bs -> bytes_ok (sub src so bs) ->
    bc_transform (b_bc o) (b_st o) src so dst d = ((b_st o, splice dst d (F (sub src so bs))), Ret tt).
(* outside its buffers it raises Invalid_argument and writes nothing *)
Definition block_checks (o : bobj) (bs : Z) : Prop :=
  forall src so dst d, ~ (0 <= so <= zlen src - bs /\ 0 <= d <= zlen dst - bs) ->
    bc_transform (b_bc o) (b_st o) src so dst d = ((b_st o, dst), Raise Invalid_argument).
(* decryption gives back the block that was encrypted *)
Definition undoes (e d : bobj) (bs : Z) : Prop :=
  forall src so dst p dst' p', 0 <= so <= zlen src - bs -> 0 <= p <= zlen dst - bs -> 0 <= p' <= zlen dst' - bs ->
    bytes_ok src -> bytes_ok dst ->
    exists mid, bc_transform (b_bc e) (b_st e) src so dst p = ((b_st e, mid), Ret tt) /\
      bc_transform (b_bc d) (b_st d) mid p dst' p' = ((b_st d, splice dst' p' (sub src so bs)), Ret tt).

Lemma raw_computes K bs prim wipe k F : (forall b, zlen b = bs -> bytes_ok b -> prim k b = Ret (F b)) -> 0 <= bs ->
  block_computes (BObj (raw_cipher K bs prim wipe) k) bs F /\ block_checks (BObj (raw_cipher K bs prim wipe) k) bs.
Proof.
  intros H Hbs. split; [split; [reflexivity|]|].
  - intros src so dst d H1 H2 B. cbn [b_bc b_st raw_cipher bc_transform].
    replace ((so <? 0) || (so >? zlen src - bs) || (d <? 0) || (d >? zlen dst - bs)) with false by lia.
    rewrite H; [reflexivity|rewrite zlen_sub; lia|exact B].
  - intros src so dst d Hn. cbn [b_bc b_st raw_cipher bc_transform].
    replace ((so <? 0) || (so >? zlen src - bs) || (d <? 0) || (d >? zlen dst - bs)) with true by lia. reflexivity.
Qed.
Lemma computes_undoes e d bs E D : 0 <= bs -> block_computes e bs E -> block_computes d bs D ->
  (forall b, zlen b = bs -> bytes_ok b -> zlen (E b) = bs /\ bytes_ok (E b) /\ D (E b) = b) -> undoes e d bs.
Proof.
  intros Hbs (_ & He) (_ & Hd) HED src so dst p dst' p' H1 H2 H3 B1 B2. rewrite He; [|assumption|assumption|apply bytes_ok_sub; exact B1]. eexists. split; [reflexivity|].
  destruct (HED (sub src so bs)) as (L & B & Inv); [rewrite zlen_sub; lia|apply bytes_ok_sub; exact B1|].
  assert (Lz : zlen (splice dst p (E (sub src so bs))) = zlen dst) by (apply zlen_splice; lia).
  rewrite Hd; [|rewrite Lz; exact H2|exact H3|].
  - do 3 f_equal. replace (sub (splice dst p (E (sub src so bs))) p bs) with (E (sub src so bs)); [exact Inv|].
    apply eq_sym, sub_splice_same; lia.
  - apply bytes_ok_sub, bytes_ok_splice; assumption.
Qed.
(* two implementations of the same function cannot be told apart *)
Definition same_transform (a b : bobj) : Prop :=
  bc_blocksize (b_bc a) = bc_blocksize (b_bc b) /\
  forall src so dst d, bytes_ok src ->
    snd (fst (bc_transform (b_bc a) (b_st a) src so dst d)) = snd (fst (bc_transform (b_bc b) (b_st b) src so dst d)) /\
    snd (bc_transform (b_bc a) (b_st a) src so dst d) = snd (bc_transform (b_bc b) (b_st b) src so dst d).
Lemma computes_same a b bs F : block_computes a bs F -> block_checks a bs -> block_computes b bs F -> block_checks b bs -> same_transform a b.
Proof.
  intros (A1 & A2) A3 (B1 & B2) B3. split; [congruence|]. intros src so dst d B.
  assert (H : (0 <= so <= zlen src - bs /\ 0 <= d <= zlen dst - bs) \/ ~ (0 <= so <= zlen src - bs /\ 0 <= d <= zlen dst - bs)) by lia.
  destruct H as [(H1 & H2)|H]; [rewrite A2, B2 by (assumption || apply bytes_ok_sub; assumption)|rewrite A3, B3 by assumption]; split; reflexivity.
Qed.

(* an object computing E block by block is a correct primitive for the chaining modes *)
Lemma computes_implements o bs E : block_computes o bs E ->
  (forall b, zlen b = bs -> bytes_ok b -> zlen (E b) = bs /\ bytes_ok (E b)) ->
  bc_implements (b_bc o) (ecb_fn E) (fun s _ => s = b_st o).
Proof.
  intros (Hbs & HC) HE s sg src so dst d -> H1 H2 Hb. cbn zeta. cbn [ecb_fn bf_step fst snd] in *. rewrite Hbs in *.
  apply in_range_true in H1. apply in_range_true in H2. rewrite HC; [|lia|lia|exact Hb].
  destruct (HE (sub src so bs)) as (Hl & Hok); [rewrite zlen_sub; lia|exact Hb|].
  do 2 eexists. split; [reflexivity|]. split; [reflexivity|].
  split; [rewrite zlen_splice; lia|]. intros blk Hblk. injection Hblk as <-. auto.
Qed.
Lemma computes_family new key bs E D : 0 < bs < 2 ^ 50 ->
  (exists e, new Encrypt key = Ret e /\ block_computes e bs E) -> (exists d, new Decrypt key = Ret d /\ block_computes d bs D) ->
  (forall b, zlen b = bs -> bytes_ok b -> zlen (E b) = bs /\ bytes_ok (E b)) ->
  (forall b, zlen b = bs -> bytes_ok b -> zlen (D b) = bs /\ bytes_ok (D b)) ->
  (forall b, zlen b = bs -> bytes_ok b -> D (E b) = b) ->
  block_family new key bs E D.
Proof.
  intros Hbs (e & Ee & Ce) (d & Ed & Cd) HE HD Inv. constructor; [exact Hbs| |exact HE|exact Inv]. intros [|].
  - exists e, (fun s => s = b_st e). split; [exact Ee|]. split; [apply Ce|]. split; [|reflexivity]. apply (computes_implements e bs E Ce HE).
  - exists d, (fun s => s = b_st d). split; [exact Ed|]. split; [apply Cd|]. split; [|reflexivity]. apply (computes_implements d bs D Cd HD).
Qed.
