(* Small zlib libraries for the concrete cases, and counterexamples.  Not models of cryptokit code. *)
From Verif Require Import Prelude PreludeFacts SpecTransducer BufOutModel BufOut TransformModel ZlibModel SpecZlib Zlib Zlib2 Zlib3 Toy.

(* a compressor that takes 5 bytes at a time and keeps up to 7 of them back *)
Definition toy_deflate (q : bytes) (i : bytes) (room : Z) (f : flush_command) : bytes * zcode * Z * bytes :=
  let u := Z.min 5 (zlen i) in
  let q1 := q ++ firstn (Z.to_nat u) i in
  let all := match f with Z_NO_FLUSH => zlen q1 >? 7 | _ => true end in
  let k := if all then Z.min room (zlen q1) else 0 in
  let q2 := skipn (Z.to_nat k) q1 in
  match f with
  | Z_FINISH => (q2, if zlen q2 =? 0 then ZEnd else ZOk, u, firstn (Z.to_nat k) q1)
  | _ => if (u =? 0) && (k =? 0) then (q, ZFail, 0, []) else (q2, ZOk, u, firstn (Z.to_nat k) q1)
  end.
Lemma toy_deflate_ok : zlib_ok toy_deflate.
Proof.
  intros q i room f Hr. unfold toy_deflate. cbv zeta. set (u := Z.min 5 (zlen i)). set (q1 := q ++ firstn (Z.to_nat u) i).
  pose proof (zlen_nonneg i). pose proof (zlen_nonneg q1).
  assert (A : forall b : bool, 0 <= u <= zlen i /\ zlen (firstn (Z.to_nat (if b then Z.min room (zlen q1) else 0)) q1) <= room).
  { intros b. split; [lia|]. unfold zlen at 1. rewrite firstn_length. destruct b; lia. }
  destruct f.
  1,2,3: destruct (_ && _); [split; [lia|exact Hr]|].
  1: apply A. all: apply (A true).
Qed.
Lemma toy_deflate_progress : progress toy_deflate Z_FINISH (@length Z).
Proof.
  intros q i room f Hr. unfold toy_deflate. cbv zeta. set (u := Z.min 5 (zlen i)). set (q1 := q ++ firstn (Z.to_nat u) i).
  pose proof (zlen_nonneg i). pose proof (zlen_nonneg q1).
  assert (A : u = 0 -> q1 = q). { intros E. subst q1. rewrite E. cbn. apply app_nil_r. }
  destruct f.
  1,2,3: match goal with |- context [if ?b then Z.min _ _ else 0] => destruct b | |- _ => idtac end;
    (destruct (Z.eqb_spec u 0) as [E|E]; [|right; right; left; lia]; cbn [andb]; rewrite (A E) in *;
     try (destruct (Z.eqb_spec (Z.min room (zlen q)) 0); [left; reflexivity|right; right; right; rewrite skipn_length; unfold zlen in *; lia]); try (left; reflexivity)).
  destruct (Z.eq_dec u 0) as [E|E]; [|right; right; left; lia]. rewrite (A E) in *. destruct (Z.eqb_spec (zlen (skipn (Z.to_nat (Z.min room (zlen q))) q)) 0) as [E2|E2]; [right; left; auto|].
  right; right; right. revert E2. unfold zlen. rewrite skipn_length. lia.
Qed.

(* a decompressor for raw streams made of stored blocks (RFC 1951, 3.2.4) *)
Inductive istate := IHead | ILen (last : bool) (l : bytes) | IData (last : bool) (n : Z) | IDone | IBad.
Definition block_end (last : bool) : istate := if last then IDone else IHead.
Fixpoint stored_run (st : istate) (i : bytes) (room : Z) : istate * Z * bytes :=
  match i with
  | [] => (st, 0, [])
  | c :: i' =>
      let more st' := let '(s, u, o) := stored_run st' i' room in (s, u + 1, o) in
      match st with
      | IHead => if c / 2 mod 4 =? 0 then more (ILen (c mod 2 =? 1) []) else (IBad, 0, [])
      | ILen last [a; b; x] => if (a + x =? 255) && (b + c =? 255) then more (if a + 256 * b =? 0 then block_end last else IData last (a + 256 * b)) else (IBad, 0, [])
      | ILen last l => more (ILen last (l ++ [c]))
      | IData last n =>
          if room <=? 0 then (st, 0, []) else
          let '(s, u, o) := stored_run (if n =? 1 then block_end last else IData last (n - 1)) i' (room - 1) in (s, u + 1, c :: o)
      | IDone | IBad => (st, 0, [])
      end
  end.
(* used with one command only *)
Definition stored_inflate (st : istate) (i : bytes) (room : Z) (f : flush_command) : istate * zcode * Z * bytes :=
  match f with
  | Z_SYNC_FLUSH =>
      let '(s, u, o) := stored_run st i room in
      (s, match s with IDone => ZEnd | IBad => ZFail | _ => if u =? 0 then ZFail else ZOk end, u, o)
  | _ => (st, ZFail, 0, [])
  end.
Lemma stored_run_ok i : forall st room, 0 <= room -> let '(s, u, o) := stored_run st i room in 0 <= u <= zlen i /\ zlen o <= room.
Proof.
  induction i as [|c i IH]; intros st room Hr; cbn [stored_run].
  - split; [unfold zlen; cbn; lia|exact Hr].
  - rewrite zlen_cons. pose proof (zlen_nonneg i).
    assert (M : forall st', let '(s, u, o) := (let '(s, u, o) := stored_run st' i room in (s, u + 1, o)) in 0 <= u <= 1 + zlen i /\ zlen o <= room).
    { intros st'. specialize (IH st' room Hr). destruct (stored_run st' i room) as [[s u] o]. lia. }
    assert (Z0 : forall st', let '(s, u, o) := (st', 0, []) : istate * Z * bytes in 0 <= u <= 1 + zlen i /\ zlen o <= room). { intros st'. split; [lia|exact Hr]. }
    destruct st as [|last l|last n| |]; try apply (Z0 IBad).
    + destruct (_ =? 0); [apply M|apply (Z0 IBad)].
    + destruct l as [|a [|b [|x [|y l]]]]; try apply M. destruct (_ && _); [apply M|apply (Z0 IBad)].
    + destruct (Z.leb_spec room 0); [apply (Z0 IBad)|]. specialize (IH (if n =? 1 then block_end last else IData last (n - 1)) (room - 1) ltac:(lia)). destruct (stored_run _ i (room - 1)) as [[s u] o]. rewrite zlen_cons. lia.
Qed.
Lemma stored_ok : zlib_ok stored_inflate.
Proof. intros st i room f Hr. unfold stored_inflate. pose proof (zlen_nonneg i) as Hi. destruct f; try (split; [lia|exact Hr]). pose proof (stored_run_ok i st room Hr) as H. destruct (stored_run st i room) as [[s u] o]. exact H. Qed.
Lemma stored_progress : progress stored_inflate Z_SYNC_FLUSH (fun _ => 0%nat).
Proof.
  intros st i room f Hr. unfold stored_inflate. destruct f; try (left; reflexivity). pose proof (stored_run_ok i st room ltac:(lia)) as H. destruct (stored_run st i room) as [[s u] o].
  destruct s; auto; (destruct (Z.eqb_spec u 0); [left; reflexivity|right; right; left; lia]).
Qed.

(* a library that copies *)
Definition copy_deflate (z : unit) (i : bytes) (room : Z) (f : flush_command) : unit * zcode * Z * bytes :=
  let u := Z.min (zlen i) room in (tt, match f with Z_FINISH => ZEnd | _ => ZOk end, u, firstn (Z.to_nat u) i).
Lemma copy_ok : zlib_ok copy_deflate.
Proof. intros z i room f Hr. unfold copy_deflate. pose proof (zlen_nonneg i). split; [lia|]. unfold zlen. rewrite firstn_length. unfold zlen in *. lia. Qed.
Definition no_end {zs} (z : zs) : zs * bool := (z, true).

(* four gigabytes are skipped *)
Definition huge : bytes := repeat 0 (Z.to_nat (2 ^ 32 + 1)).
Lemma huge_len : zlen huge = 2 ^ 32 + 1.
Proof. unfold huge, zlen. rewrite repeat_length. lia. Qed.
Lemma huge_sub : sub huge 0 1 = [0].
Proof. unfold huge. replace (Z.to_nat (2 ^ 32 + 1)) with (S (Z.to_nat (2 ^ 32))) by lia. reflexivity. Qed.

Lemma huge_put s : let T := compress toy_fresh _ (recorded copy_deflate) (recorded_end no_end) 2 in
  t_put_string T s huge = let! (s, x) := z_call toy_fresh _ (recorded copy_deflate) s huge 0 (2 ^ 32 + 1) Z_NO_FLUSH in if snd x <? 2 ^ 32 + 1 then def_put toy_fresh _ (recorded copy_deflate) 1 s huge (0 + snd x) (2 ^ 32 + 1 - snd x) else (s, Ret tt).
Proof. cbv zeta. cbn [t_put_string compress z_class]. unfold z_put_string. rewrite huge_len. cbn [def_put]. reflexivity. Qed.

Lemma huge_call : z_call toy_fresh (unit * list zcall) (recorded copy_deflate) (z_new toy_fresh (unit * list zcall) (tt, [])) huge 0 (2 ^ 32 + 1) Z_NO_FLUSH =
  ((tt, [ZCall [0] [0] Z_NO_FLUSH false], BO (0 :: repeat 170 511) 0 1), Ret (false, 2 ^ 32 + 1)).
Proof.
  unfold z_call, z_new, bo_new. cbn [fst snd]. change (ensure_capacity toy_fresh (BO (toy_fresh 512) 0 0) 256) with (BO (toy_fresh 512) 0 0, @Ret unit tt). unfold lift. cbn [bind fst snd obuf oend obeg].
  unfold zlib_stub. change (uint32 (2 ^ 32 + 1)) with 1. change (uint32 (zlen (toy_fresh 512) - 0)) with 512.
  assert (IR : in_range huge 0 1 = true) by (unfold in_range; rewrite huge_len; reflexivity). rewrite IR, huge_sub. reflexivity.
Qed.

Lemma compress_huge : exists zs (zlib : zs -> bytes -> Z -> flush_command -> zs * zcode * Z * bytes) zend z fuel msg s out, zlib_ok zlib /\ bytes_ok msg /\
  transform_string (compress toy_fresh _ (recorded zlib) (recorded_end zend) fuel) (z_new toy_fresh _ (z, [])) msg = (s, Ret out) /\
  zlen (made (calls s)) <= zlimit /\ taken (calls s) <> msg.
Proof.
  exists unit, copy_deflate, no_end, tt, 2%nat, huge. eexists. eexists. split; [exact copy_ok|]. split.
  { apply Forall_forall. intros x Hx. apply repeat_spec in Hx. subst x. unfold byte_ok. lia. }
  split. { unfold transform_string. rewrite huge_put, huge_call. cbn [bind snd fst]. rewrite Z.ltb_irrefl. cbn [bind]. vm_compute. reflexivity. }
  split; [vm_compute; discriminate|]. intros E. apply (f_equal zlen) in E. rewrite huge_len in E. vm_compute in E. discriminate.
Qed.

(* the decompression of a truncated stream: the missing byte of the last stored block is taken
   from the space added by finish *)
Definition truncated : bytes := [1; 2; 0; 253; 255; 97].
Lemma uncompress_truncated : exists zs (zlib : zs -> bytes -> Z -> flush_command -> zs * zcode * Z * bytes) zend z fuel msg s out, zlib_ok zlib /\ bytes_ok msg /\
  transform_string (uncompress toy_fresh _ (recorded zlib) (recorded_end zend) fuel) (z_new toy_fresh _ (z, [])) msg = (s, Ret out) /\
  zlen msg < 2 ^ 32 /\ zlen (made (calls s)) <= zlimit /\ taken (calls s) = msg ++ [32] /\ out = [97; 32].
Proof.
  exists istate, stored_inflate, no_end, IHead, 2%nat, truncated. eexists. eexists. split; [exact stored_ok|]. split; [repeat constructor; unfold byte_ok; lia|].
  split; [vm_compute; reflexivity|]. vm_compute. repeat split; try discriminate.
Qed.

(* a range outside the array is not refused *)
Lemma zlib_bad_range (fresh : Z -> bytes) zs (zlib : zs -> bytes -> Z -> flush_command -> zs * zcode * Z * bytes) zend z fuel : (forall n, 0 <= n -> zlen (fresh n) = n) ->
  snd (t_put_substring (compress fresh _ zlib zend (S fuel)) (z_new fresh _ z) [1] 0 1000) = Undef /\
  snd (t_put_substring (uncompress fresh _ zlib zend (S fuel)) (z_new fresh _ z) [1] 0 1000) = Undef.
Proof.
  intros F. cbn [t_put_substring compress uncompress z_class].
  assert (E : snd (z_call fresh _ zlib (z_new fresh _ z) [1] 0 1000 Z_NO_FLUSH) = Undef /\ snd (z_call fresh _ zlib (z_new fresh _ z) [1] 0 1000 Z_SYNC_FLUSH) = Undef).
  { unfold z_call, z_new. cbn [fst snd].
    destruct (ensure_capacity_ok fresh F (bo_new fresh 512) 256) as (b & E & _); [apply (bo_new_inv fresh F); unfold max_string_length; lia|lia|rewrite bo_new_contents; unfold max_string_length; cbn; lia|].
    rewrite E. unfold lift. cbn [bind fst snd]. split; reflexivity. }
  destruct E as [E1 E2]. cbn [def_put inf_put]. change (1000 >? 0) with true. cbv iota.
  split; [destruct (z_call _ _ _ _ _ _ _ Z_NO_FLUSH) as [s r]|destruct (z_call _ _ _ _ _ _ _ Z_SYNC_FLUSH) as [s r]]; cbn [snd] in *; subst r; reflexivity.
Qed.
