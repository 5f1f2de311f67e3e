(* Collisions of SHA-3 and Keccak. *)
From Verif Require Import Prelude PreludeFacts BytesNum Word SpecBlock SpecHash SpecKeccak BlockTotal HashModel HashSpec KeccakModel KeccakHash HashLib MacApi SpecCollide Collide MdCollide.

Definition kpad (sb k : Z) : bytes := if k =? 1 then [Z.lor sb 128] else [sb] ++ zeros (k - 2) ++ [128].
Lemma kpad_len sb k : 0 < k -> zlen (kpad sb k) = k.
Proof. intros H. unfold kpad. destruct (Z.eqb_spec k 1) as [->|N]; [reflexivity|]. rewrite !zlen_app, zlen_zeros by lia. change (zlen [sb]) with 1. change (zlen [128]) with 1. lia. Qed.
Lemma kpad_lt sb k1 k2 x : sb = 6 \/ sb = 1 -> 0 < k1 < k2 -> x ++ kpad sb k1 <> kpad sb k2.
Proof.
  intros Hs Hk E. assert (Lx : zlen x = k2 - k1) by (apply (f_equal zlen) in E; rewrite zlen_app, !kpad_len in E by lia; lia).
  assert (Nth := f_equal (fun l => nth (length x) l 0) E). cbn beta in Nth. rewrite app_nth2, Nat.sub_diag in Nth by lia.
  unfold zlen in Lx. unfold kpad in Nth. destruct (Z.eqb_spec k2 1); [lia|]. 
  cbn [app] in Nth. destruct (length x) as [|i] eqn:Ex; [lia|]. cbn [nth] in Nth. unfold zeros in Nth.
  destruct (Z.eqb_spec k1 1) as [->|N1].
  - rewrite app_nth2 in Nth by (rewrite repeat_length; lia). rewrite repeat_length in Nth. replace (i - Z.to_nat (k2 - 2))%nat with O in Nth by lia. destruct Hs as [-> | ->]; discriminate Nth.
  - rewrite app_nth1 in Nth by (rewrite repeat_length; lia). rewrite nth_repeat in Nth. cbn in Nth. lia.
Qed.
Lemma kpad_inj sb m1 m2 k1 k2 : sb = 6 \/ sb = 1 -> 0 < k1 -> 0 < k2 -> m1 ++ kpad sb k1 = m2 ++ kpad sb k2 -> m1 = m2.
Proof.
  intros Hs H1 H2.
  assert (W : forall m1 m2 k1 k2, 0 < k1 < k2 -> m1 ++ kpad sb k1 <> m2 ++ kpad sb k2).
  { clear - Hs. intros m1 m2 k1 k2 Hk E. assert (El := f_equal zlen E). rewrite !zlen_app, !kpad_len in El by lia. unfold zlen in El.
    rewrite <- (firstn_skipn (length m2) m1), <- app_assoc in E. apply app_head in E; [|rewrite firstn_length; lia]. exact (kpad_lt sb k1 k2 _ Hs Hk (proj2 E)). }
  intros E. destruct (Z.lt_trichotomy k1 k2) as [L|[L|L]]; [exfalso; exact (W m1 m2 k1 k2 (conj H1 L) E)| |exfalso; exact (W m2 m1 k2 k1 (conj H2 L) (eq_sym E))].
  subst k2. apply app_tail in E; [exact (proj1 E)|reflexivity].
Qed.

Lemma added_bytes ops : Forall hop_valid ops -> bytes_ok (added ops).
Proof. intros Hv. unfold added. induction Hv as [|x l Hx Hl IH]; [exact (Forall_nil _)|cbn [map concat]; apply bytes_ok_app; split; [apply hop_bytes_ok; assumption|exact IH]]. Qed.

Section Sponge.
Variables (rsiz : Z) (suffix : list bool).
Hypotheses (Hr : 0 < rsiz) (Hs : suffix = [] \/ suffix = [false; true]).
Lemma sponge_pad m : bytes_ok m -> exists k, 0 < k <= rsiz /\ (zlen m + k) mod rsiz = 0 /\ sponge_input (8 * rsiz) suffix m = m ++ kpad (suffix_byte suffix) k.
Proof.
  intros Hm. set (k := rsiz - zlen m mod rsiz). assert (Hk : 0 < k <= rsiz) by (assert (B := Z.mod_pos_bound (zlen m) rsiz Hr); unfold k; lia).
  assert (E : (zlen m + k) mod rsiz = 0).
  { unfold k. replace (zlen m + (rsiz - zlen m mod rsiz)) with ((zlen m / rsiz + 1) * rsiz) by (assert (D := Z.div_mod (zlen m) rsiz ltac:(lia)); lia). apply Z.mod_mul. lia. }
  exists k. repeat split; try lia. now apply sponge_input_ok.
Qed.
Lemma sponge_blocks m : bytes_ok m -> concat (chunks rsiz (sponge_input (8 * rsiz) suffix m)) = sponge_input (8 * rsiz) suffix m /\ chunks rsiz (sponge_input (8 * rsiz) suffix m) <> [].
Proof.
  intros Hm. destruct (sponge_pad m Hm) as (k & Hk & Hmod & E). assert (C : concat (chunks rsiz (sponge_input (8 * rsiz) suffix m)) = sponge_input (8 * rsiz) suffix m).
  { apply concat_chunks; [exact Hr|]. now rewrite E, zlen_app, kpad_len by lia. }
  split; [exact C|]. intros N. rewrite N in C. rewrite E in C. apply (f_equal zlen) in C. rewrite zlen_app, kpad_len in C by lia. cbn in C. assert (P := zlen_nonneg m). lia.
Qed.
Lemma sponge_collide (g : list Z -> bytes) m1 m2 : bytes_ok m1 -> bytes_ok m2 -> m1 <> m2 ->
  g (sponge (8 * rsiz) suffix m1) = g (sponge (8 * rsiz) suffix m2) ->
  let f := fun A blk => keccak_f (xor_block A blk) in let blocks m := chunks rsiz (sponge_input (8 * rsiz) suffix m) in
  collision f (repeat 0 25) (blocks m1) (blocks m2) \/ last_collision f g (repeat 0 25) (blocks m1) (blocks m2) \/ returns f (repeat 0 25) (blocks m1) (blocks m2).
Proof.
  intros B1 B2 N E f blocks. destruct (sponge_blocks m1 B1) as [C1 N1]. destruct (sponge_blocks m2 B2) as [C2 N2].
  unfold sponge in E. replace (8 * rsiz / 8) with rsiz in E by (rewrite Z.mul_comm; symmetry; apply Z.div_mul; lia).
  destruct (collide f g list_dec list_dec (blocks m1) (blocks m2) (repeat 0 25) N1 N2 E) as [C|C]; [|exact C].
  exfalso. apply N. assert (C' : concat (blocks m1) = concat (blocks m2)) by (f_equal; exact C). unfold blocks in C'. rewrite C1, C2 in C'.
  destruct (sponge_pad m1 B1) as (k1 & Hk1 & _ & E1). destruct (sponge_pad m2 B2) as (k2 & Hk2 & _ & E2). rewrite E1, E2 in C'.
  apply (kpad_inj (suffix_byte suffix) m1 m2 k1 k2); try lia; [destruct Hs as [-> | ->]; [now right|now left]|exact C'].
Qed.
End Sponge.

Theorem sha3_collide fresh sz official o ops1 ops2 : (forall n, 0 <= n -> zlen (fresh n) = n) -> sha3_new fresh sz official = Ret o ->
  Forall hop_valid ops1 -> Forall hop_valid ops2 -> added ops1 <> added ops2 -> result_of o ops1 = result_of o ops2 ->
  let f := fun A blk => keccak_f (xor_block A blk) in
  let blocks m := chunks (200 - sz / 4) (sponge_input (1600 - 2 * sz) (if official then [false; true] else []) m) in
  let g := fun A => firstn (Z.to_nat (sz / 8)) (concat (map (to_le 8) A)) in
  let iv := repeat 0 25 in
  collision f iv (blocks (added ops1)) (blocks (added ops2)) \/ last_collision f g iv (blocks (added ops1)) (blocks (added ops2)) \/
  returns f iv (blocks (added ops1)) (blocks (added ops2)).
Proof.
  intros Hf Ho V1 V2 N E. assert (Hsz : sz = 224 \/ sz = 256 \/ sz = 384 \/ sz = 512).
  { destruct (Z.eq_dec sz 224); [now left|]. destruct (Z.eq_dec sz 256); [now right; left|]. destruct (Z.eq_dec sz 384); [now right; right; left|]. destruct (Z.eq_dec sz 512); [now right; right; right|].
    exfalso. assert (X := sha3_new_other fresh sz official ltac:(lia)). rewrite Ho in X. discriminate X. }
  destruct (sha3_new_ok fresh Hf sz official Hsz) as (o' & Ho' & _ & Hc). rewrite Ho in Ho'. apply (f_equal (fun r => match r with Ret x => x | _ => o end)) in Ho'. cbn in Ho'. subst o'.
  apply (computes_same _ _ _ _ Hc V1 V2) in E.
  set (suffix := if official then [false; true] else []) in *.
  assert (Hs : suffix = [] \/ suffix = [false; true]) by (unfold suffix; destruct official; [now right|now left]).
  assert (E' : keccak_digest suffix sz (added ops1) = keccak_digest suffix sz (added ops2)) by (unfold suffix; destruct official; exact E).
  unfold keccak_digest in E'. assert (R : 1600 - 2 * sz = 8 * (200 - sz / 4)) by (destruct Hsz as [-> |[-> |[-> | ->]]]; reflexivity). rewrite R in *.
  exact (sponge_collide (200 - sz / 4) suffix ltac:(destruct Hsz as [-> |[-> |[-> | ->]]]; reflexivity) Hs (fun A => firstn (Z.to_nat (sz / 8)) (concat (map (to_le 8) A))) (added ops1) (added ops2)
    (added_bytes _ V1) (added_bytes _ V2) N E').
Qed.
