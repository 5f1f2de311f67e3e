(* Proofs for C109. *)
From Verif Require Import Prelude PreludeFacts BytesNum Word SpecBlock SpecHash SpecRipemd BlockTotal HashModel HashSpec ShaModel RipemdModel Sha Ripemd SpecCollide MdCollide SpecExtend.

Section Md.
Variables (B L : Z) (enc : nat -> Z -> bytes).
Hypotheses (HB : 0 < B) (Henc : forall n x, length (enc n x) = n) (HL : 0 < L)
  (Hinj : forall x y, 0 <= x < 256 ^ L -> 0 <= y < 256 ^ L -> enc (Z.to_nat L) x = enc (Z.to_nat L) y -> x = y).

Lemma md_pad_tail_eq m : md_pad B L enc m = m ++ md_tail B L enc (zlen m).
Proof. reflexivity. Qed.

Lemma md_pad_ext m x : md_pad B L enc (m ++ md_tail B L enc (zlen m) ++ x) =
  md_pad B L enc m ++ (x ++ md_tail B L enc (zlen m + zlen (md_tail B L enc (zlen m)) + zlen x)).
Proof.
  rewrite !md_pad_tail_eq, !zlen_app, <- !app_assoc, Z.add_assoc. reflexivity.
Qed.

Lemma pad_blocks_ne m : chunks B (md_pad B L enc m) <> [].
Proof.
  intros E. apply (f_equal (@concat Z)) in E. rewrite concat_chunks in E by (try apply md_pad_mod; assumption). unfold md_pad in E. destruct m; discriminate E.
Qed.

Variables (f : list Z -> bytes -> list Z) (iv : list Z) (n k : nat) (out : nat -> Z -> bytes) (num : bytes -> Z).
Hypotheses (Hn : (0 < n)%nat) (Hf : forall h b, length h = k -> length (f h b) = k /\ Forall (fun x => 0 <= x < 256 ^ Z.of_nat n) (f h b))
  (Hiv : length iv = k) (Hout : forall x, length (out n x) = n) (Hnum : forall x, num (out n x) = x mod 256 ^ Z.of_nat n).

Lemma fold_ok l : l <> [] -> forall h, length h = k -> Forall (fun x => 0 <= x < 256 ^ Z.of_nat n) (fold_left f l h) /\ length (fold_left f l h) = k.
Proof.
  induction l as [|b l IH]; intros Hl h Hh; [contradiction|]. cbn [fold_left]. destruct (Hf h b Hh) as (H1 & H2).
  destruct l as [|b' l]; [split; assumption|]. apply IH; [discriminate|assumption].
Qed.

Lemma read_write s : Forall (fun x => 0 <= x < 256 ^ Z.of_nat n) s ->
  map num (chunks (Z.of_nat n) (concat (map (out n) s))) = s.
Proof.
  intros H. rewrite chunks_concat0; [|lia|].
  - rewrite map_map. induction H as [|x s Hx Hs IH]; [reflexivity|]. cbn [map]. rewrite Hnum, Z.mod_small, IH by assumption. reflexivity.
  - apply Forall_map, Forall_forall. intros x _. unfold zlen. rewrite Hout. reflexivity.
Qed.

Lemma md_continue m x : md_digest B L enc iv f (m ++ md_tail B L enc (zlen m) ++ x) =
  continued B L enc f (fun d => map num (chunks (Z.of_nat n) d)) (concat (map (out n) (md_digest B L enc iv f m))) (zlen m) x.
Proof.
  unfold continued. rewrite read_write.
  - unfold md_digest. rewrite md_pad_ext. destruct (split_blocks B (md_pad B L enc m) HB) as (blks & tail & E & H1 & H2 & H3 & _).
    rewrite (md_pad_mod B L enc HB HL Henc Hinj) in H3. apply zlen_0 in H3. subst tail. rewrite app_nil_r in E. rewrite E.
    rewrite chunks_concat, chunks_concat0, fold_left_app by assumption. reflexivity.
  - unfold md_digest. apply fold_ok; [|exact Hiv]. apply pad_blocks_ne.
Qed.
End Md.

Lemma sha1_ext m x : sha1 (m ++ pad64 (zlen m) ++ x) = continue_sha1 (sha1 m) (zlen m) x.
Proof.
  unfold sha1, continue_sha1, pad64. rewrite (md_continue 64 8 to_be eq_refl length_to_be eq_refl (fun x y => to_be_inj' 8 8 x y eq_refl) sha1_compress sha1_IV 4 5 to_be be);
    [reflexivity|lia|exact sha1_compress_ok|reflexivity|apply length_to_be|apply be_to_be].
Qed.
Lemma rmd_ext m x : ripemd160 (m ++ pad64_le (zlen m) ++ x) = continue_ripemd160 (ripemd160 m) (zlen m) x.
Proof.
  unfold ripemd160, continue_ripemd160, pad64_le. rewrite (md_continue 64 8 to_le eq_refl len_to_le eq_refl (fun x y => to_le_inj' 8 8 x y eq_refl) rmd160_compress _ 4 5 to_le le);
    [reflexivity|lia|exact rmd_compress_ok|reflexivity|apply len_to_le|apply le_to_le].
Qed.

Lemma sha2_full P n iv m : s2_w P = 8 * Z.of_nat n -> (0 < n)%nat -> length iv = 8%nat ->
  sha2_digest P iv (8 * n) m = concat (map (to_be n) (md_digest (16 * Z.of_nat n) (2 * Z.of_nat n) to_be iv (sha2_compress P) m)).
Proof.
  intros Hw Hn Hi. unfold sha2_digest. replace (s2_w P / 8) with (Z.of_nat n) by (rewrite Hw, Z.mul_comm, Z.div_mul; lia).
  rewrite Nat2Z.id. apply firstn_all2. rewrite words_out_length by apply length_to_be.
  unfold md_digest. destruct (fold_ok (sha2_compress P) n 8 (fun h b => sha2_compress_ok P n h b Hw) (chunks (16 * Z.of_nat n) (md_pad (16 * Z.of_nat n) (2 * Z.of_nat n) to_be m))
    (pad_blocks_ne (16 * Z.of_nat n) (2 * Z.of_nat n) to_be ltac:(lia) length_to_be ltac:(lia) (fun x y => to_be_inj' (2 * n) (2 * Z.of_nat n) x y ltac:(lia)) m) iv Hi) as (_ & ->). lia.
Qed.
Lemma sha256_ext m x : sha256 (m ++ pad64 (zlen m) ++ x) = continue_sha256 (sha256 m) (zlen m) x.
Proof.
  unfold sha256, continue_sha256, pad64. change 32%nat with (8 * 4)%nat. rewrite !(sha2_full p256 4) by (reflexivity || lia || apply iv_length).
  change (16 * Z.of_nat 4) with 64. change (2 * Z.of_nat 4) with 8.
  rewrite (md_continue 64 8 to_be eq_refl length_to_be eq_refl (fun x y => to_be_inj' 8 8 x y eq_refl) (sha2_compress p256) sha256_IV 4 8 to_be be);
    [reflexivity|lia|intros h b; exact (sha2_compress_ok p256 4 h b eq_refl)|apply iv_length|apply length_to_be|apply be_to_be].
Qed.
Lemma sha512_ext m x : sha512 (m ++ pad128 (zlen m) ++ x) = continue_sha512 (sha512 m) (zlen m) x.
Proof.
  unfold sha512, continue_sha512, pad128. change 64%nat with (8 * 8)%nat. rewrite !(sha2_full p512 8) by (reflexivity || lia || apply iv_length).
  change (16 * Z.of_nat 8) with 128. change (2 * Z.of_nat 8) with 16.
  rewrite (md_continue 128 16 to_be eq_refl length_to_be eq_refl (fun x y => to_be_inj' 16 16 x y eq_refl) (sha2_compress p512) sha512_IV 8 8 to_be be);
    [reflexivity|lia|intros h b; exact (sha2_compress_ok p512 8 h b eq_refl)|apply iv_length|apply length_to_be|apply be_to_be].
Qed.

Lemma obj_ext o d pad cont : computes o d -> (forall m x, d (m ++ pad (zlen m) ++ x) = cont (d m) (zlen m) x) ->
  forall ops ops' x, Forall hop_valid ops -> Forall hop_valid ops' -> added ops' = added ops ++ pad (zlen (added ops)) ++ x ->
  exists r, result_of o ops = Ret r /\ result_of o ops' = Ret (cont r (zlen (added ops)) x).
Proof.
  intros C H ops ops' x V V' E. destruct (C ops V Logic.I) as (_ & E1 & _). destruct (C ops' V' Logic.I) as (_ & E2 & _).
  exists (d (added ops)). unfold result_of. rewrite E1, E2, E, H. split; reflexivity.
Qed.

(* two messages of the same length and digest *)
Lemma obj_pairs o d pad cont : computes o d -> (forall m x, d (m ++ pad (zlen m) ++ x) = cont (d m) (zlen m) x) ->
  forall ops1 ops2 ops1' ops2' x, Forall hop_valid ops1 -> Forall hop_valid ops2 -> Forall hop_valid ops1' -> Forall hop_valid ops2' ->
  zlen (added ops1) = zlen (added ops2) -> result_of o ops1 = result_of o ops2 ->
  added ops1' = added ops1 ++ pad (zlen (added ops1)) ++ x -> added ops2' = added ops2 ++ pad (zlen (added ops2)) ++ x ->
  result_of o ops1' = result_of o ops2'.
Proof.
  intros C H ops1 ops2 ops1' ops2' x V1 V2 V1' V2' Hl Hr A1 A2.
  destruct (obj_ext o d pad cont C H ops1 ops1' x V1 V1' A1) as (r1 & E1 & ->).
  destruct (obj_ext o d pad cont C H ops2 ops2' x V2 V2' A2) as (r2 & E2 & ->). congruence.
Qed.
