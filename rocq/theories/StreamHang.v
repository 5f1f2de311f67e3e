(* put_substring of stream cipher transforms and of the encodings on ranges
   outside the array. *)
From Verif Require Import Prelude PreludeFacts BufOutModel BufOut SpecTransducer TransformModel EncModel SpecEnc CipherModel EncLawful.
Ltac Zify.zify_post_hook ::= Z.div_mod_to_equations.

Lemma wrap63_small x : is_int x -> wrap63 x = x.
Proof. unfold is_int, wrap63. intros H. rewrite Z.mod_small; lia. Qed.

Section Hang.
Variable fresh : Z -> bytes.
Hypothesis fresh_len : forall n, 0 <= n -> zlen (fresh n) = n.

(* the loop of ensure_capacity on the initial 256-byte buffer *)
Lemma ensure_capacity_hang n : 2 ^ 61 < n < 2 ^ 62 ->
  snd (ensure_capacity fresh (bo_new fresh 256) n) = Hang /\
  forall fuel, grow_loop fuel n 512 = None.
Proof.
  intros Hn.
  assert (G : forall fuel, grow_loop fuel n 512 = None).
  { intros fuel. apply (grow_loop_hang n Hn 9 fuel). lia. }
  split; [|exact G]. unfold ensure_capacity, bo_new. cbn [obuf obeg oend]. rewrite fresh_len by lia.
  rewrite !wrap63_small by (unfold is_int; lia).
  replace (0 + n >? 256) with true by lia. replace (0 - 0 + n <? 256) with false by lia.
  change (2 * 256) with 512. replace (0 - 0 + n) with n by lia. rewrite G. reflexivity.
Qed.

Lemma stream_put_hang K prim wipe k b ofs len : 2 ^ 61 < len < 2 ^ 62 ->
  last (run_ops (stream_obj fresh K prim wipe k) [PutSubstring b ofs len]) OUnit = OHang.
Proof.
  intros H. unfold run_ops, stream_obj. cbn [o_tr o_st t_run].
  destruct (ensure_capacity_hang len H) as (E & _).
  cbn [t_step stream_transform t_put_substring stream_new]. unfold unit_obs. cbn [fst snd].
  unfold sct_put_substring, sct_ensure.
  change (sct_bo (raw_stream K prim wipe) (stream_new fresh (raw_stream K prim wipe) k)) with (bo_new fresh 256).
  destruct (ensure_capacity fresh (bo_new fresh 256) len) as [b' r]. cbn [snd] in E. subst r. reflexivity.
Qed.
End Hang.
