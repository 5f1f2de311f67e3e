(* Stream cipher objects that xor the data with a keystream. *)
From Verif Require Import Prelude PreludeFacts BytesNum Word SpecTransducer TransformModel Transform SpecEnc EncModel EncLawful EncApi CipherModel LibTransform SpecStream StreamModel.

(* a history of calls to the method transform, and what each of them does to its
   destination and returns *)
Record scall := SCall { sc_src : bytes; sc_sofs : Z; sc_dst : bytes; sc_dofs : Z; sc_len : Z }.
Definition scall_ok (c : scall) : Prop :=
  0 <= sc_len c /\ 0 <= sc_sofs c <= zlen (sc_src c) - sc_len c /\ 0 <= sc_dofs c <= zlen (sc_dst c) - sc_len c.
Definition scall_okb (c : scall) : bool :=
  (0 <=? sc_len c) && (0 <=? sc_sofs c) && (sc_sofs c <=? zlen (sc_src c) - sc_len c) && (0 <=? sc_dofs c) && (sc_dofs c <=? zlen (sc_dst c) - sc_len c).
Fixpoint sc_run (C : stream_cipher) (s : sc_st C) (cs : list scall) : sc_st C * list (bytes * out unit) :=
  match cs with
  | [] => (s, [])
  | c :: cs =>
      let r := sc_transform C s (sc_src c) (sc_sofs c) (sc_dst c) (sc_dofs c) (sc_len c) in
      let t := sc_run C (fst (fst r)) cs in
      (fst t, (snd (fst r), snd r) :: snd t)
  end.
(* every valid call takes the next bytes of the keystream; the others raise
   Invalid_argument and take none *)
Fixpoint ks_history (ks : nat -> Z) (n : nat) (cs : list scall) : list (bytes * out unit) :=
  match cs with
  | [] => []
  | c :: cs =>
      if scall_okb c
      then (splice (sc_dst c) (sc_dofs c) (ks_xor ks n (sub (sc_src c) (sc_sofs c) (sc_len c))), Ret tt)
           :: ks_history ks (n + Z.to_nat (sc_len c)) cs
      else (sc_dst c, Raise Invalid_argument) :: ks_history ks n cs
  end.
Definition stream_computes (o : sobj) (ks : nat -> Z) : Prop :=
  forall cs, Forall (fun c => bytes_ok (sc_src c)) cs -> snd (sc_run (so_sc o) (so_st o) cs) = ks_history ks 0 cs.

Lemma ks_xor_length ks n l : length (ks_xor ks n l) = length l.
Proof. unfold ks_xor, ks_bytes. rewrite map_length, combine_length, map_length, seq_length. lia. Qed.
Lemma ks_xor_cons ks n c l : ks_xor ks n (c :: l) = Z.lxor c (ks n) :: ks_xor ks (S n) l.
Proof. reflexivity. Qed.
Lemma ks_xor_app ks l1 : forall n l2, ks_xor ks n (l1 ++ l2) = ks_xor ks n l1 ++ ks_xor ks (n + length l1) l2.
Proof.
  induction l1 as [|c l1 IH]; intros n l2; cbn [app length]; [rewrite Nat.add_0_r; reflexivity|].
  rewrite !ks_xor_cons, IH. cbn [app]. do 3 f_equal. lia.
Qed.
Lemma ks_xor_twice ks l : forall n, ks_xor ks n (ks_xor ks n l) = l.
Proof.
  induction l as [|c l IH]; intros n; [reflexivity|]. rewrite !ks_xor_cons, IH. f_equal. rewrite Z.lxor_assoc, Z.lxor_nilpotent, Z.lxor_0_r. reflexivity.
Qed.
Lemma ks_xor_ok ks l : (forall n, byte_ok (ks n)) -> bytes_ok l -> forall n, bytes_ok (ks_xor ks n l).
Proof.
  intros K B. induction l as [|c l IH]; intros n; [constructor|]. apply Forall_cons_iff in B. destruct B as (Bc & B). rewrite ks_xor_cons. constructor; [apply lxor_byte; auto|apply IH, B].
Qed.

Definition ks_fn (ks : nat -> Z) : streamfn := SF nat (fun n c => (S n, Z.lxor c (ks n))).
Lemma ks_run ks l : forall n, sf_run (ks_fn ks) n l = ((n + length l)%nat, ks_xor ks n l).
Proof.
  induction l as [|c l IH]; intros n; [cbn [sf_run length]; rewrite Nat.add_0_r; reflexivity|].
  cbn [sf_run ks_fn sf_step]. change (SF nat (fun n c => (S n, Z.lxor c (ks n)))) with (ks_fn ks). rewrite IH, ks_xor_cons. f_equal. cbn [length]. lia.
Qed.

Section Prim.
Variables (K : Type) (prim : K -> bytes -> K * out bytes) (wipe : K -> K) (ks : nat -> Z) (rel : K -> nat -> Prop).
Hypothesis Hks : forall n, byte_ok (ks n).
Hypothesis Hp : forall k n l, rel k n -> bytes_ok l -> exists k', prim k l = (k', Ret (ks_xor ks n l)) /\ rel k' (n + length l)%nat.

Lemma ks_prim : stream_prim K prim (ks_fn ks) rel.
Proof.
  split; [|split].
  - intros k s l Hr Hl _. rewrite ks_run. cbn [fst snd]. apply Hp; assumption.
  - intros k s Hr. destruct (Hp k s [] Hr ltac:(constructor)) as (k' & E & R). cbn [length] in R. rewrite Nat.add_0_r in R. exists k'. split; assumption.
  - intros k s c Hr Hc. cbn [ks_fn sf_step snd]. apply lxor_byte; auto.
Qed.
Lemma prim_history cs : forall k n, rel k n -> Forall (fun c => bytes_ok (sc_src c)) cs ->
  snd (sc_run (raw_stream K prim wipe) k cs) = ks_history ks n cs /\ exists n', rel (fst (sc_run (raw_stream K prim wipe) k cs)) n'.
Proof.
  induction cs as [|c cs IH]; intros k n Hr Hb; [split; [reflexivity|exists n; exact Hr]|].
  apply Forall_cons_iff in Hb. destruct Hb as (Bc & Hb). cbn [sc_run ks_history raw_stream sc_transform fst snd].
  change {| sc_st := _; sc_transform := _; sc_wipe := _ |} with (raw_stream K prim wipe).
  destruct (scall_okb c) eqn:G; unfold scall_okb in G.
  - replace ((sc_len c <? 0) || (sc_sofs c <? 0) || (sc_sofs c >? zlen (sc_src c) - sc_len c) || (sc_dofs c <? 0) || (sc_dofs c >? zlen (sc_dst c) - sc_len c)) with false by lia.
    destruct (Hp k n (sub (sc_src c) (sc_sofs c) (sc_len c)) Hr) as (k' & E & R); [apply bytes_ok_sub; exact Bc|]. rewrite E. cbn [fst snd].
    assert (L : length (sub (sc_src c) (sc_sofs c) (sc_len c)) = Z.to_nat (sc_len c)).
    { assert (H : zlen (sub (sc_src c) (sc_sofs c) (sc_len c)) = sc_len c) by (rewrite zlen_sub; lia). unfold zlen in H. lia. }
    rewrite L in R. destruct (IH k' _ R Hb) as (I1 & I2). split; [f_equal; exact I1|exact I2].
  - replace ((sc_len c <? 0) || (sc_sofs c <? 0) || (sc_sofs c >? zlen (sc_src c) - sc_len c) || (sc_dofs c <? 0) || (sc_dofs c >? zlen (sc_dst c) - sc_len c)) with true by lia.
    cbn [fst snd]. destruct (IH k n Hr Hb) as (I1 & I2). split; [f_equal; exact I1|exact I2].
Qed.
Lemma prim_computes k : rel k 0%nat -> stream_computes (SObj (raw_stream K prim wipe) k) ks.
Proof. intros Hr cs Hb. exact (proj1 (prim_history cs k 0%nat Hr Hb)). Qed.
Lemma prim_whole fresh k msg : (forall n, 0 <= n -> zlen (fresh n) = n) -> rel k 0%nat -> bytes_ok msg -> zlen msg <= max_string_length ->
  whole (stream_cipher_obj fresh (SObj (raw_stream K prim wipe) k)) msg (Ret (ks_xor ks 0 msg)).
Proof.
  intros Hf Hr Hb Hl. assert (W := stream_whole fresh Hf K prim wipe (ks_fn ks) rel k 0%nat msg ks_prim Hr Hb Hl). rewrite ks_run in W. exact W.
Qed.
Lemma prim_lib fresh k : (forall n, 0 <= n -> zlen (fresh n) = n) -> rel k 0%nat -> lib_transform fresh (stream_cipher_obj fresh (SObj (raw_stream K prim wipe) k)) 1 0.
Proof. intros Hf Hr. exact (LT_stream fresh K prim wipe (ks_fn ks) rel k 0%nat ks_prim Hr). Qed.
End Prim.
