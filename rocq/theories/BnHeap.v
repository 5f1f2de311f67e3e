(* The memory of module Bn: what is allocated, what is erased, and that erasing does not change the numbers still in use. *)
From Verif Require Import Prelude PreludeFacts BytesNum HashModel RngModel BnModel PkModel BnHeapModel SpecPkMem.

(* ---- cells ---- *)
Lemma keeps_refl h : keeps h h. Proof. split; auto. Qed.
Lemma keeps_trans h h1 h2 : keeps h h1 -> keeps h1 h2 -> keeps h h2.
Proof. intros (A & B) (C & D). split; [lia|]. intros i Hi. rewrite D by lia. now apply B. Qed.
Lemma cell_app_l h c i : (i < length h)%nat -> cell_at (h ++ [c]) i = cell_at h i.
Proof. intros Hi. unfold cell_at. now apply app_nth1. Qed.
Lemma cell_app_r h c : cell_at (h ++ [c]) (length h) = c.
Proof. unfold cell_at. rewrite app_nth2, Nat.sub_diag by lia. reflexivity. Qed.
Lemma keeps_app h c : keeps h (h ++ [c]).
Proof. split; [rewrite app_length; cbn; lia|]. intros i Hi. now apply cell_app_l. Qed.
Lemma length_store h a c : (a < length h)%nat -> length (store h a c) = length h.
Proof. intros Ha. unfold store. rewrite app_length, firstn_length. cbn [length]. rewrite skipn_length. lia. Qed.
Lemma store_same h a c : (a < length h)%nat -> cell_at (store h a c) a = c.
Proof. intros Ha. unfold cell_at, store. rewrite app_nth2; rewrite firstn_length; [|lia]. replace (a - Nat.min a (length h))%nat with O by lia. reflexivity. Qed.
Lemma store_other h a c i : (a < length h)%nat -> i <> a -> cell_at (store h a c) i = cell_at h i.
Proof.
  intros Ha Hi. unfold cell_at, store. rewrite <- (firstn_skipn a h) at 3. destruct (Nat.lt_ge_cases i a) as [H|H].
  - rewrite !app_nth1 by (rewrite firstn_length; lia). reflexivity.
  - rewrite !app_nth2 by (rewrite firstn_length; lia). rewrite firstn_length. replace (i - Nat.min a (length h))%nat with (S (i - a - 1)) by lia. cbn [nth].
    rewrite <- (firstn_skipn 1 (skipn a h)) at 1. rewrite skipn_skipn. rewrite app_nth2; rewrite firstn_length, skipn_length; [|lia].
    replace (S (i - a - 1) - Nat.min 1 (length h - a))%nat with (i - a - 1)%nat by lia. f_equal.
Qed.
Lemma keeps_store h0 h a c : keeps h0 h -> (length h0 <= a < length h)%nat -> keeps h0 (store h a c).
Proof. intros (A & B) Ha. split; [rewrite length_store; lia|]. intros i Hi. rewrite store_other by lia. now apply B. Qed.

(* ---- numbers ---- *)
Definition val (h : heap) (v : bn) (z : Z) : Prop := num h v = z /\ match v with Imm _ => True | Blk a => (a < length h)%nat end.
Lemma val_keep h h' v z : keeps h h' -> val h v z -> val h' v z.
Proof. intros (A & B) (C & D). split; [|destruct v; [exact I|lia]]. rewrite <- C. destruct v as [z0|a]; [reflexivity|]. cbn [num]. now rewrite B. Qed.
Lemma val_imm h z : val h (Imm z) z. Proof. split; [reflexivity|exact I]. Qed.
Definition vnum (h0 h : heap) (v : bn) : Prop := match v with Imm _ => True | Blk a => (length h0 <= a < length h)%nat /\ exists z, cell_at h a = Num z end.
Lemma vnum_keep h0 h h' v : keeps h h' -> vnum h0 h v -> vnum h0 h' v.
Proof. intros (A & B). destruct v as [z|a]; [auto|]. intros (C & z & D). split; [lia|]. exists z. rewrite B by lia. exact D. Qed.

Record own (h0 h : heap) (vs : list bn) (ss : list (nat * bytes)) : Prop := {
  o_keep : keeps h0 h;
  o_num : forall v, In v vs -> vnum h0 h v;
  o_str : forall a b, In (a, b) ss -> (length h0 <= a < length h)%nat /\ cell_at h a = Str b;
  o_dup : NoDup (map fst ss);
  o_all : forall i, (length h0 <= i < length h)%nat -> cleared (cell_at h i) \/ In (Blk i) vs \/ In i (map fst ss) }.
Lemma own_init h : own h h [] [].
Proof. constructor; try (intros; contradiction); [apply keeps_refl|constructor|intros; lia]. Qed.
Lemma own_incl h0 h vs vs' ss : own h0 h vs ss -> (forall v, In v vs <-> In v vs') -> own h0 h vs' ss.
Proof.
  intros [A B C D E] H. constructor; auto.
  - intros v Hv. apply B. now apply H.
  - intros i Hi. destruct (E i Hi) as [G|[G|G]]; [now left|right; left; now apply H|now right; right].
Qed.
Lemma own_share h0 h vs ss v : own h0 h vs ss -> vnum h0 h v -> own h0 h (v :: vs) ss.
Proof.
  intros [A B C D E] H. constructor; auto.
  - intros u [<-|Hu]; [exact H|now apply B].
  - intros i Hi. destruct (E i Hi) as [G|[G|G]]; [now left|right; left; now right|now right; right].
Qed.
Lemma own_alloc_num h0 h vs ss z : own h0 h vs ss -> own h0 (h ++ [Num z]) (Blk (length h) :: vs) ss.
Proof.
  intros [A B C D E]. pose proof (keeps_app h (Num z)) as K. assert (length (h ++ [Num z]) = S (length h)) as L by (rewrite app_length; cbn; lia). constructor.
  - exact (keeps_trans _ _ _ A K).
  - intros v [<-|Hv]; [|apply (vnum_keep h0 h _ v K); now apply B]. cbn [vnum]. split; [destruct A; lia|]. exists z. apply cell_app_r.
  - intros a b H. destruct (C a b H) as (C1 & C2). split; [lia|]. rewrite cell_app_l by lia. exact C2.
  - exact D.
  - intros i Hi. destruct (Nat.eq_dec i (length h)) as [->|Hn]; [right; left; now left|]. rewrite cell_app_l by lia.
    destruct (E i) as [G|[G|G]]; [lia|now left|right; left; now right|now right; right].
Qed.
Lemma own_alloc_str h0 h vs ss b : own h0 h vs ss -> own h0 (h ++ [Str b]) vs ((length h, b) :: ss).
Proof.
  intros [A B C D E]. pose proof (keeps_app h (Str b)) as K. assert (length (h ++ [Str b]) = S (length h)) as L by (rewrite app_length; cbn; lia). constructor.
  - exact (keeps_trans _ _ _ A K).
  - intros v Hv. apply (vnum_keep h0 h _ v K). now apply B.
  - intros a c [H|H]; [injection H as <- <-; split; [destruct A; lia|apply cell_app_r]|]. destruct (C a c H) as (C1 & C2). split; [lia|]. rewrite cell_app_l by lia. exact C2.
  - cbn [map fst]. constructor; [|exact D]. intros H. apply in_map_iff in H as ((a & c) & Ea & H). cbn in Ea. subst a. destruct (C _ _ H) as (C1 & _). lia.
  - intros i Hi. destruct (Nat.eq_dec i (length h)) as [->|Hn]; [right; right; now left|]. rewrite cell_app_l by lia.
    destruct (E i) as [G|[G|G]]; [lia|now left|now right; left|right; right; now right].
Qed.
Lemma own_wipe h0 h v vs ss : own h0 h (v :: vs) ss -> own h0 (m_wipe h v) vs ss.
Proof.
  intros [A B C D E]. destruct v as [z|a]; cbn [m_wipe].
  - constructor; auto; [intros u Hu; apply B; now right|]. intros i Hi. destruct (E i Hi) as [G|[[G|G]|G]]; [now left|discriminate|right; now left|right; now right].
  - destruct (B (Blk a) (or_introl eq_refl)) as (Ha & z & Ez). constructor.
    + now apply keeps_store.
    + intros u Hu. pose proof (B u (or_intror Hu)) as Hv; destruct u as [zu|au]; cbn [vnum] in *; auto.
      destruct Hv as (H1 & z1 & H2). rewrite length_store by lia. split; [lia|]. destruct (Nat.eq_dec au a) as [->|Hn]; [exists 0; apply store_same; lia|exists z1; rewrite store_other by lia; exact H2].
    + intros x b H. destruct (C x b H) as (C1 & C2). rewrite length_store by lia. split; [lia|]. rewrite store_other; [exact C2|lia|]. intros ->. congruence.
    + exact D.
    + intros i Hi. rewrite length_store in Hi by lia. destruct (Nat.eq_dec i a) as [->|Hn]; [left; rewrite store_same by lia; reflexivity|]. rewrite store_other by lia.
      destruct (E i Hi) as [G|[[G|G]|G]]; [now left|injection G as G; congruence|right; now left|right; now right].
Qed.
Lemma own_wipe_all h0 ss vs : forall ws h, own h0 h (ws ++ vs) ss -> own h0 (m_wipe_all ws h) vs ss.
Proof. induction ws as [|w ws IH]; intros h H; [exact H|]. cbn [m_wipe_all fold_left]. apply IH. apply own_wipe. exact H. Qed.
Lemma own_perm h0 h vs ss ss' : own h0 h vs ss -> (forall p, In p ss <-> In p ss') -> NoDup (map fst ss') -> own h0 h vs ss'.
Proof.
  intros [A B C D E] H N. constructor; auto.
  - intros a b Hab. apply C. now apply H.
  - intros i Hi. destruct (E i Hi) as [G|[G|G]]; [now left|now right; left|]. right; right. apply in_map_iff in G as (p & <- & G). apply in_map. now apply H.
Qed.
Lemma own_wipe_str h0 h vs a b ss : own h0 h vs ((a, b) :: ss) -> own h0 (m_wipe_bytes h a) vs ss.
Proof.
  intros [A B C D E]. destruct (C a b (or_introl eq_refl)) as (Ha & Ea). unfold m_wipe_bytes. cbn [map fst] in D. apply NoDup_cons_iff in D as (D1 & D2). constructor.
  - now apply keeps_store.
  - intros u Hu. pose proof (B u Hu) as Hv. destruct u as [zu|au]; cbn [vnum] in *; auto. destruct Hv as (H1 & z1 & H2). rewrite length_store by lia. split; [lia|]. exists z1.
    rewrite store_other; [exact H2|lia|]. intros ->. congruence.
  - intros x c H. destruct (C x c (or_intror H)) as (C1 & C2). rewrite length_store by lia. split; [lia|]. rewrite store_other; [exact C2|lia|]. intros ->. apply D1. apply in_map_iff. exists (a, c). auto.
  - exact D2.
  - intros i Hi. rewrite length_store in Hi by lia. destruct (Nat.eq_dec i a) as [->|Hn].
    + left. rewrite store_same by lia. cbn [cleared]. apply Forall_forall. intros x Hx. exact (repeat_spec _ _ _ Hx).
    + rewrite store_other by lia. destruct (E i Hi) as [G|[G|[G|G]]]; [now left|now right; left|cbn in G; congruence|right; now right].
Qed.
Lemma own_left h0 h ss : own h0 h [] ss -> nothing_left_but (map fst ss) h0 h.
Proof. intros [_ _ _ _ E] i Hi Hn. destruct (E i Hi) as [G|[[]|G]]; [exact G|contradiction]. Qed.

(* ---- the outcome of the function on values ---- *)
Definition agrees {A B} (h : heap) (r : heap * out A) (p : out B) (Q : heap -> A -> B -> Prop) : Prop :=
  keeps h (fst r) /\ match snd r, p with Ret a, Ret b => Q (fst r) a b | Raise e, Raise e' => e = e' | Undef, Undef => True | Hang, Hang => True | _, _ => False end.
Lemma agrees_bind {A B C D} h (r : heap * out A) (p : out B) (k : heap -> A -> heap * out C) (k' : B -> out D) Q Q' :
  agrees h r p Q -> (forall h' a b, Q h' a b -> agrees h (k h' a) (k' b) Q') -> agrees h (bind r k) (obind p k') Q'.
Proof.
  intros (K & H) G. destruct r as [h' [a|e| |]], p as [b|e'| |]; cbn [fst snd bind obind] in *; try contradiction; try (split; [exact K|exact H]). now apply G.
Qed.
Lemma agrees_let {A B C D} h (r : heap * out A) (b : B) (p : out D) (k : heap -> A -> heap * out C) Q Q' :
  agrees h r (Ret b) Q -> (forall h' a, Q h' a b -> agrees h (k h' a) p Q') -> agrees h (bind r k) p Q'.
Proof. intros (K & H) G. destruct r as [h' [a|e| |]]; cbn [fst snd bind] in *; try contradiction. now apply G. Qed.
Lemma agrees_tail {A B C} h (r : heap * out A) (p : out B) (k : heap -> A -> heap * out C) Q Q' :
  agrees h r p Q -> (forall h' a b, Q h' a b -> agrees h (k h' a) (Ret b) Q') -> agrees h (bind r k) p Q'.
Proof.
  intros (K & H) G. destruct r as [h' [a|e| |]], p as [b|e'| |]; cbn [fst snd bind] in *; try contradiction; try (split; [exact K|exact H]). now apply G.
Qed.
Lemma agrees_weaken {A B} h (r : heap * out A) (p : out B) (Q Q' : heap -> A -> B -> Prop) : agrees h r p Q -> (forall h' a b, Q h' a b -> Q' h' a b) -> agrees h r p Q'.
Proof. intros (K & H) G. split; [exact K|]. destruct (snd r), p; auto. Qed.
Lemma agrees_from {A B} h0 h (r : heap * out A) (p : out B) Q : keeps h0 h -> agrees h r p Q -> agrees h0 r p (fun h' a b => Q h' a b /\ keeps h h').
Proof. intros K0 (K & H). split; [exact (keeps_trans _ _ _ K0 K)|]. destruct (snd r), p; auto. Qed.

Section Share.
Variable share : heap -> Z -> list bn -> nat.
Definition known (vs : list bn) (v : bn) : Prop := In v vs \/ exists z, v = Imm z.
(* what a function of ZArith gives: a number of this value, owned, new or one of the arguments *)
Definition gives (h0 : heap) (h : heap) (vs : list bn) (ss : list (nat * bytes)) (args : list bn) (h' : heap) (v : bn) (z : Z) : Prop :=
  own h0 h' (v :: vs) ss /\ val h' v z /\ (v = Imm z /\ immediate z \/ v = Blk (length h) /\ ~ immediate z \/ In v args).
Lemma z_res_ok h0 h vs ss z args : own h0 h vs ss -> (forall v, In v args -> known vs v) ->
  exists h' v, z_res share h z args = (h', v) /\ keeps h h' /\ gives h0 h vs ss args h' v z.
Proof.
  intros O Ha. unfold z_res. destruct ((- 2 ^ 62 <=? z) && (z <? 2 ^ 62)) eqn:Es.
  { exists h, (Imm z). split; [reflexivity|split; [apply keeps_refl|]]. split; [|split; [apply val_imm|left; split; [reflexivity|unfold immediate; lia]]]. apply own_share; [exact O|exact I]. }
  assert (exists h' v, (h ++ [Num z], Blk (length h)) = (h', v) /\ keeps h h' /\ gives h0 h vs ss args h' v z) as New.
  { exists (h ++ [Num z]), (Blk (length h)). split; [reflexivity|split; [apply keeps_app|]]. split; [now apply own_alloc_num|]. split.
    - split; [cbn [num]; now rewrite cell_app_r|rewrite app_length; cbn; lia].
    - right; left. split; [reflexivity|unfold immediate; lia]. }
  destruct (nth_error args (share h z args)) as [v|] eqn:En; [|exact New]. apply nth_error_In in En. destruct (num h v =? z) eqn:Ez; [|exact New].
  exists h, v. split; [reflexivity|split; [apply keeps_refl|]]. destruct (Ha v En) as [Hv|(y & ->)].
  - pose proof (o_num _ _ _ _ O v Hv) as Hn. split; [now apply own_share|]. split; [|now right; right]. split; [lia|]. destruct v; [exact I|]. apply Hn.
  - split; [apply own_share; [exact O|exact I]|]. split; [split; [lia|exact I]|now right; right].
Qed.
Lemma z_ret_ok h0 h vs ss (r : out Z) args : own h0 h vs ss -> (forall v, In v args -> known vs v) -> agrees h (z_ret share h r args) r (gives h0 h vs ss args).
Proof.
  intros O Ha. destruct r as [z|e| |]; cbn [z_ret]; try (split; [apply keeps_refl|reflexivity || exact I]).
  destruct (z_res_ok h0 h vs ss z args O Ha) as (h' & v & -> & K & G). split; [exact K|exact G].
Qed.

Lemma of_bytes_ok h0 h vs ss a : own h0 h vs ss -> (a < length h)%nat ->
  agrees h (m_of_bytes share h a) (Ret (bn_of_bytes (str h a))) (fun h' v z => own h0 h' (v :: vs) ss /\ val h' v z /\ (v = Imm z /\ immediate z \/ v = Blk (S (length h)) /\ ~ immediate z)).
Proof.
  intros O Ha. unfold m_of_bytes, alloc. pose proof (own_alloc_str _ _ _ _ (rev (str h a)) O) as O1.
  set (h1 := h ++ [Str (rev (str h a))]) in *. assert (str h1 (length h) = rev (str h a)) as E1 by (unfold str at 1, h1; now rewrite cell_app_r).
  assert (length h1 = S (length h)) as L1 by (unfold h1; rewrite app_length; cbn; lia). assert (keeps h h1) as K1 by apply keeps_app. clearbody h1.
  destruct (z_res_ok h0 h1 vs _ (le (str h1 (length h))) [] O1) as (h2 & v & -> & K2 & G1 & G2 & G3); [intros u []|]. rewrite E1 in *.
  assert (~ In (length h) (map fst ss)) as Nd by (pose proof (o_dup _ _ _ _ O1) as D; cbn [map fst] in D; now apply NoDup_cons_iff in D).
  assert (length h < length h2)%nat as L2 by (destruct K2; lia).
  assert (keeps h (m_wipe_bytes h2 (length h))) as K3 by (apply keeps_store; [exact (keeps_trans _ _ _ K1 K2)|lia]).
  split; [exact K3|]. cbn [fst snd]. split; [exact (own_wipe_str _ _ _ _ _ _ G1)|]. split.
  - destruct G2 as (V1 & V2). split; [|destruct v; [exact I|]; unfold m_wipe_bytes; rewrite length_store by lia; exact V2]. unfold bn_of_bytes. rewrite <- V1. destruct v as [z|b]; [reflexivity|]. cbn [num].
    unfold m_wipe_bytes. rewrite store_other; [reflexivity|lia|]. intros ->. pose proof (o_num _ _ _ _ G1 _ (or_introl eq_refl)) as (_ & z & Hz).
    pose proof (o_str _ _ _ _ G1 _ _ (or_introl eq_refl)) as (_ & Hs). congruence.
  - destruct G3 as [G3|[(G3 & G4)|[]]]; [now left|]. right. rewrite L1 in G3. now split.
Qed.
Lemma to_bytes_ok h0 h vs ss nb n z : own h0 h vs ss -> val h n z ->
  agrees h (m_to_bytes h nb n) (bn_to_bytes nb z) (fun h' t b => own h0 h' vs ((t, b) :: ss)).
Proof.
  intros O V. pose proof (proj1 V) as Vn. unfold m_to_bytes, alloc, bn_to_bytes. rewrite Vn. pose proof (own_alloc_str _ _ _ _ (z_to_bits z) O) as O1.
  set (h1 := h ++ [Str (z_to_bits z)]) in *. assert (str h1 (length h) = z_to_bits z) as E1 by (unfold str, h1; now rewrite cell_app_r).
  assert (length h1 = S (length h)) as L1 by (unfold h1; rewrite app_length; cbn; lia). assert (keeps h h1) as K1 by apply keeps_app. clearbody h1.
  pose proof (proj1 (val_keep _ _ _ _ K1 V)) as Vn1. rewrite Vn1, E1.
  destruct (match nb with None => _ | Some _ => _ end) as [l|e| |]; cbn [bind obind]; try (split; [exact K1|reflexivity || exact I]).
  destruct (_ || _); [split; [exact K1|reflexivity]|]. rewrite ?E1.
  destruct (to_bytes_loop _ _ _ _) as [b|e| |]; cbn [bind]; try (split; [exact K1|reflexivity || exact I]).
  pose proof (own_alloc_str _ _ _ _ b O1) as O2. pose proof (keeps_app h1 (Str b)) as K2.
  split; cbn [fst snd].
  - apply keeps_store; [exact (keeps_trans _ _ _ K1 K2)|rewrite app_length; cbn; lia].
  - apply (own_wipe_str _ _ _ (length h) (z_to_bits z)). apply (own_perm _ _ _ _ _ O2); [intros p; cbn [In]; tauto|].
    pose proof (o_dup _ _ _ _ O2) as D. cbn [map fst] in D |- *. apply NoDup_cons_iff in D as (D1 & D2). apply NoDup_cons_iff in D2 as (D2 & D3).
    constructor; [|constructor; [|exact D3]]; cbn [In] in *; intuition congruence.
Qed.
(* steps of a function started on the heap h0 *)
Lemma do_z h0 h vs ss (r r' : out Z) args : own h0 h vs ss -> r = r' -> (forall v, In v args -> known vs v) ->
  agrees h0 (z_ret share h r args) r' (fun h' v z => gives h0 h vs ss args h' v z /\ keeps h h').
Proof. intros O <- Ha. apply agrees_from; [apply O|now apply z_ret_ok]. Qed.
Lemma do_of_bytes h0 h vs ss a s : own h0 h vs ss -> (a < length h)%nat -> s = str h a ->
  agrees h0 (m_of_bytes share h a) (Ret (bn_of_bytes s)) (fun h' v z => (own h0 h' (v :: vs) ss /\ val h' v z /\ (v = Imm z /\ immediate z \/ v = Blk (S (length h)) /\ ~ immediate z)) /\ keeps h h').
Proof. intros O Ha ->. apply agrees_from; [apply O|now apply of_bytes_ok]. Qed.
Lemma do_to_bytes h0 h vs ss nb n z : own h0 h vs ss -> val h n z ->
  agrees h0 (m_to_bytes h nb n) (bn_to_bytes nb z) (fun h' t b => own h0 h' vs ((t, b) :: ss) /\ keeps h h').
Proof. intros O V. apply agrees_from; [apply O|now apply to_bytes_ok]. Qed.
Lemma str_keep h h' a : keeps h h' -> (a < length h)%nat -> str h a = str h' a.
Proof. intros (_ & B) Ha. unfold str. now rewrite B. Qed.
End Share.

(* string and number values are carried from heap to heap *)
Ltac carry := match goal with K : keeps ?h ?h' |- _ =>
  let L := fresh "L" in assert (length h <= length h')%nat as L by apply K;
  repeat match goal with V : val h ?v ?z |- _ => apply (val_keep h h' v z K) in V end; move K at top end.
Ltac know := let v := fresh in let H := fresh in intros v H; cbn [In] in H; repeat (destruct H as [<-|H]); try contradiction; (left; cbn [In]; tauto) || (right; eexists; reflexivity).
