(* GHASH as a polynomial over the field of the blocks: how many hash keys give two tags. *)
From Coq Require Import Ring Ring_theory.
From Verif Require Import Prelude PreludeFacts BytesNum Word SpecBlock SpecGhash SpecAead LinBits AesField Ghash GfField Roots Gcm MacApi.

Definition gz (x : Z) : G := match Bool.bool_dec (in128 x) true with left H => exist _ x H | right _ => g0 end.
Lemma val_gz x : word_ok 128 x -> val (gz x) = x.
Proof. intros H. apply in128_ok in H. unfold gz. destruct (Bool.bool_dec (in128 x) true); [reflexivity|contradiction]. Qed.
(* the element of a block *)
Definition gb (b : bytes) : G := gz (be b).
Lemma val_gb b : blk b -> val (gb b) = be b.
Proof. intros H. apply val_gz, word_be_block, H. Qed.
Lemma gb_zeros : gb (zeros 16) = g0.
Proof. apply val_inj. vm_compute. reflexivity. Qed.
Lemma gb_inj a b : blk a -> blk b -> gb a = gb b -> a = b.
Proof.
  intros A B E. apply (f_equal val) in E. rewrite !val_gb in E by assumption. destruct A as (LA & BA), B as (LB & BB). apply be_inj; try assumption. unfold zlen in *. lia.
Qed.
Lemma gb_list_inj l : forall l', Forall blk l -> Forall blk l' -> map gb l = map gb l' -> l = l'.
Proof.
  induction l as [|b l IH]; intros [|b' l'] B B' E; try discriminate E; [reflexivity|]. inversion B; inversion B'; subst.
  pose proof (f_equal (fun l => hd g0 l) E) as E1. pose proof (f_equal (@tl G) E) as E2. cbn [map hd tl] in E1, E2.
  f_equal; [apply gb_inj; assumption|apply IH; assumption].
Qed.
Lemma blk_len a b : blk a -> blk b -> length a = length b.
Proof. intros (A & _) (B & _). unfold zlen in *. lia. Qed.
Lemma blk_xor a b : blk a -> blk b -> blk (xorb a b).
Proof. intros A B. pose proof (blk_len a b A B) as E. destruct A as (A & A'), B as (B & B'). split; [rewrite zlen_xorb; lia|]. now apply bytes_ok_xorb. Qed.
Lemma gb_xor a b : blk a -> blk b -> gb (xorb a b) = gadd (gb a) (gb b).
Proof.
  intros A B. apply val_inj. rewrite val_add, !val_gb by (try apply blk_xor; assumption). apply be_xorb; [apply blk_len; assumption|apply A|apply B].
Qed.
Lemma blk_mult a b : blk b -> blk (block_mult a b).
Proof. intros B. unfold block_mult. split; [unfold zlen; rewrite length_to_be; reflexivity|apply bytes_ok_to_be]. Qed.
Lemma gb_mult a b : blk a -> blk b -> gb (block_mult a b) = gmul (gb a) (gb b).
Proof.
  intros A B. apply val_inj. rewrite val_mul, !val_gb by (try apply blk_mult; assumption). unfold block_mult. rewrite be_to_be. change (256 ^ Z.of_nat 16) with (2 ^ 128).
  apply Z.mod_small. apply gf_mult_ok, word_be_block, B.
Qed.
Lemma ghash_horner H bl : blk H -> Forall blk bl -> forall h y, blk y -> gb y = gmul h (gb H) ->
  blk (fold_left (fun y x => block_mult (xorb y x) H) bl y) /\
  gb (fold_left (fun y x => block_mult (xorb y x) H) bl y) = gmul (horner G gadd gmul h (map gb bl) (gb H)) (gb H).
Proof.
  intros BH. induction bl as [|b bl IH]; intros B h y Y E; [split; assumption|]. inversion B; subst. cbn [fold_left map horner].
  fold (horner G gadd gmul (gadd (gmul h (gb H)) (gb b)) (map gb bl) (gb H)). apply IH; [assumption|apply blk_mult; exact BH|].
  rewrite gb_mult, gb_xor, E by (try apply blk_xor; assumption). reflexivity.
Qed.
Add Ring GR' : G_ring.
Theorem ghash_forge bl1 bl2 e t1 t2 (Hs : list bytes) : Forall blk bl1 -> Forall blk bl2 -> blk e -> (forall k k', repeat (zeros 16) k ++ bl1 <> repeat (zeros 16) k' ++ bl2) ->
  NoDup Hs -> (forall H, In H Hs -> blk H /\ xorb (ghash H bl1) e = t1 /\ xorb (ghash H bl2) e = t2) -> (length Hs <= max (length bl1) (length bl2))%nat.
Proof.
  intros B1 B2 Be D N H. rewrite <- (map_length gb Hs), <- (map_length gb bl1), <- (map_length gb bl2).
  apply (agree G g0 g1 gadd gmul gadd (fun x => x) G_ring G_domain _ _ _ (gadd (gb t1) (gb t2))).
  - apply NoDup_map_in; [|exact N]. intros a b Ha Hb. apply gb_inj; [apply (H a Ha)|apply (H b Hb)].
  - assert (P : forall n bl, padl G g0 n (map gb bl) = map gb (repeat (zeros 16) (n - length bl) ++ bl)).
    { intros n bl. unfold padl. rewrite map_length, map_app. f_equal. induction (n - length bl)%nat as [|j IH]; [reflexivity|]. cbn [repeat map]. rewrite <- IH, gb_zeros. reflexivity. }
    rewrite !P. intros E. apply gb_list_inj in E; [exact (D _ _ E)| |]; apply Forall_app; (split; [|assumption]); apply Forall_forall; intros x X; apply repeat_spec in X; subst x; split; [reflexivity|apply bytes_ok_zeros|reflexivity|apply bytes_ok_zeros].
  - intros x X. apply in_map_iff in X. destruct X as (h & <- & Hh). destruct (H h Hh) as (BH & <- & <-).
    assert (BZ : blk (zeros 16)) by (split; [reflexivity|apply bytes_ok_zeros]). assert (EZ : gb (zeros 16) = gmul g0 (gb h)) by (rewrite gb_zeros; ring).
    destruct (ghash_horner h bl1 BH B1 g0 (zeros 16) BZ EZ) as (K1 & E1). destruct (ghash_horner h bl2 BH B2 g0 (zeros 16) BZ EZ) as (K2 & E2).
    fold (ghash h bl1) in K1, E1. fold (ghash h bl2) in K2, E2. rewrite !gb_xor by assumption. rewrite <- E1, <- E2.
    transitivity (gadd (gadd (gb (ghash h bl1)) (gb (ghash h bl2))) (gadd (gb e) (gb e))); [rewrite g_double; ring|ring].
Qed.
