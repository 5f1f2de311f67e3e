(* Overlapping source and destination: the stream ciphers on memory against the functions on byte lists. *)
From Verif Require Import Prelude PreludeFacts BytesNum SpecStream StreamModel KeccakModel MiscModel EncModel CipherModel SpecAlias AliasModel StreamObj Rc4 Chacha.

Lemma range_ext n : forall m m' a, (forall i, a <= i < a + Z.of_nat n -> m i = m' i) -> range m a n = range m' a n.
Proof.
  induction n; intros m m' a H; cbn [range]; [reflexivity|]. rewrite (H a) by lia. f_equal. apply IHn. intros i Hi. apply H. lia.
Qed.
Lemma range_len m : forall n a, zlen (range m a n) = Z.of_nat n.
Proof. induction n; intros a; cbn [range]; [reflexivity|]. rewrite zlen_cons, IHn. lia. Qed.

(* the loop in general: step gives a byte of the keystream *)
Section Loop.
Variable K : Type.
Variable step : K -> Z * K.
Fixpoint list_loop (k : K) (l : bytes) : K * bytes :=
  match l with [] => (k, []) | b :: l => let (x, k) := step k in let (k, r) := list_loop k l in (k, Z.lxor b x :: r) end.
Fixpoint mem_loop (n : nat) (k : K) (m : mem) (s d : Z) : K * mem :=
  match n with O => (k, m) | S n => let (x, k) := step k in mem_loop n k (upd m d (Z.lxor (m s) x)) (s + 1) (d + 1) end.
Lemma loop_ok n : forall k m s d, d <= s \/ s + Z.of_nat n <= d ->
  mem_loop n k m s d = (fst (list_loop k (range m s n)), store m d (snd (list_loop k (range m s n)))).
Proof.
  induction n; intros k m s d H; cbn [mem_loop range list_loop]; [reflexivity|].
  destruct (step k) as [x k']. rewrite IHn by lia.
  rewrite (range_ext n (upd m d (Z.lxor (m s) x)) m (s + 1)).
  - destruct (list_loop k' (range m (s + 1) n)) as [k2 r]. reflexivity.
  - intros i Hi. unfold upd. destruct (Z.eqb_spec i d); [lia|reflexivity].
Qed.
End Loop.

Definition arc_step (k : list Z * Z * Z) : Z * (list Z * Z * Z) :=
  let '(st, x, y) := k in
  let x := Z.land (x + 1) 0xFF in
  let kx := kget st (Z.to_nat x) in
  let y := Z.land (kx + y) 0xFF in
  let ky := kget st (Z.to_nat y) in
  let st := kput st (Z.to_nat x) ky in
  let st := kput st (Z.to_nat y) kx in
  (kget st (Z.to_nat (Z.land (kx + ky) 0xFF)), (st, x, y)).
Lemma arc_mem_loop n : forall st x y m s d, arc_mem n st x y m s d = mem_loop _ arc_step n (st, x, y) m s d.
Proof.
  induction n; intros; [reflexivity|]. cbn [arc_mem mem_loop]. unfold arc_step at 1. rewrite IHn. reflexivity.
Qed.
Lemma arc_list_loop l : forall st x y, arc_loop st x y l = list_loop _ arc_step (st, x, y) l.
Proof.
  induction l; intros; [reflexivity|]. cbn [arc_loop list_loop]. unfold arc_step at 1. rewrite IHl.
  destruct (list_loop _ arc_step _ l) as [[[? ?] ?] ?]. reflexivity.
Qed.
Lemma chacha_mem_loop n : forall c m s d, chacha_mem n c m s d = mem_loop _ cc_byte n c m s d.
Proof. induction n; intros; [reflexivity|]. cbn [chacha_mem mem_loop]. destruct (cc_byte c). apply IHn. Qed.
Lemma chacha_list_loop l : forall c, chacha20_transform c l = list_loop _ cc_byte c l.
Proof. induction l; intros; [reflexivity|]. cbn [chacha20_transform list_loop]. destruct (cc_byte c). rewrite IHl. reflexivity. Qed.

Lemma bad_ranges_spec slen so dlen d len : bad_ranges slen so dlen d len = false <-> 0 <= len /\ 0 <= so /\ so + len <= slen /\ 0 <= d /\ d + len <= dlen.
Proof. unfold bad_ranges. lia. Qed.
Lemma store_outside l : forall m a i, i < a \/ a + zlen l <= i -> store m a l i = m i.
Proof.
  induction l; intros m b i H; cbn [store]; [reflexivity|]. rewrite zlen_cons in H. pose proof (zlen_nonneg l). rewrite IHl by lia.
  unfold upd. destruct (Z.eqb_spec i b); [lia|reflexivity].
Qed.
Lemma store_range l : forall m a, range (store m a l) a (length l) = l.
Proof.
  induction l; intros m b; cbn [store range length]; [reflexivity|]. f_equal.
  - rewrite store_outside by lia. unfold upd. now rewrite Z.eqb_refl.
  - apply IHl.
Qed.

Lemma store_put l : forall m a i, store m a l i = put m a l i.
Proof.
  induction l as [|c l IH]; intros m a i; unfold put; cbn [store].
  - change (zlen (@nil Z)) with 0. destruct ((a <=? i) && (i <? a + 0)) eqn:E; [lia|reflexivity].
  - rewrite IH. unfold put. rewrite zlen_cons. pose proof (zlen_nonneg l).
    destruct (Z.eq_dec i a) as [->|N].
    + replace ((a + 1 <=? a) && (a <? a + 1 + zlen l)) with false by lia. replace ((a <=? a) && (a <? a + (1 + zlen l))) with true by lia.
      unfold upd. rewrite Z.eqb_refl, Z.sub_diag. reflexivity.
    + destruct ((a + 1 <=? i) && (i <? a + 1 + zlen l)) eqn:E.
      * replace ((a <=? i) && (i <? a + (1 + zlen l))) with true by lia. replace (Z.to_nat (i - a)) with (S (Z.to_nat (i - (a + 1)))) by lia. reflexivity.
      * replace ((a <=? i) && (i <? a + (1 + zlen l))) with false by lia. unfold upd. destruct (Z.eqb_spec i a); [lia|reflexivity].
Qed.
Lemma put_ext m m' a l : (forall i, m i = m' i) -> forall i, put m a l i = put m' a l i.
Proof. intros H i. unfold put. destruct (_ && _); auto. Qed.
Lemma put_ok m a l : (forall i, byte_ok (m i)) -> bytes_ok l -> forall i, byte_ok (put m a l i).
Proof.
  intros H B i. unfold put. destruct ((a <=? i) && (i <? a + zlen l)) eqn:E; [|apply H]. apply (proj1 (Forall_forall _ _) B). apply nth_In. unfold zlen in E. lia.
Qed.
Lemma range_ok m : (forall i, byte_ok (m i)) -> forall n a, bytes_ok (range m a n).
Proof. intros H n. induction n; intros a; cbn [range]; constructor; [apply H|apply IHn]. Qed.

(* sequences of calls on an object that xors with a keystream *)
Section History.
Variables (K : Type) (tr : K -> mem -> Z -> Z -> Z -> Z -> Z -> Z -> Z -> K * mem * out unit).
Variables (prim : K -> bytes -> K * out bytes) (ks : nat -> Z) (rel : K -> nat -> Prop).
Hypothesis Hks : forall n, byte_ok (ks n).
Hypothesis Hp : forall k n l, rel k n -> bytes_ok l -> exists k', prim k l = (k', Ret (ks_xor ks n l)) /\ rel k' (n + length l)%nat.
Hypothesis Hbad : forall k m src slen so dst dlen d len, bad_ranges slen so dlen d len = true -> tr k m src slen so dst dlen d len = (k, m, Raise Invalid_argument).
Hypothesis Htr : forall k m src slen so dst dlen d len k' r, bad_ranges slen so dlen d len = false ->
  dst + d <= src + so \/ src + so + len <= dst + d -> prim k (range m (src + so) (Z.to_nat len)) = (k', Ret r) ->
  tr k m src slen so dst dlen d len = (k', store m (dst + d) r, Ret tt).
Lemma history_ok cs : forall k n m m', rel k n -> (forall i, m i = m' i) -> (forall i, byte_ok (m i)) -> Forall no_forward_overlap cs ->
  fst (mem_calls K tr k m cs) = fst (mem_history ks n m' cs) /\ forall i, snd (mem_calls K tr k m cs) i = snd (mem_history ks n m' cs) i.
Proof.
  induction cs as [|c cs IH]; intros k n m m' R E B F; cbn [mem_calls mem_history fst snd]; [split; [reflexivity|exact E]|].
  apply Forall_cons_iff in F. destruct F as (Fc & F).
  assert (V : mcall_valid c = negb (bad_ranges (mc_slen c) (mc_sofs c) (mc_dlen c) (mc_dofs c) (mc_len c))) by (unfold mcall_valid, bad_ranges; lia).
  destruct (bad_ranges (mc_slen c) (mc_sofs c) (mc_dlen c) (mc_dofs c) (mc_len c)) eqn:Hb; cbn [negb] in V; rewrite V.
  - rewrite Hbad by exact Hb. cbn [fst snd]. destruct (IH k n m m' R E B F) as (I1 & I2). split; [f_equal; exact I1|exact I2].
  - set (l := range m (mc_src c + mc_sofs c) (Z.to_nat (mc_len c))).
    assert (L : length l = Z.to_nat (mc_len c)) by (pose proof (range_len m (Z.to_nat (mc_len c)) (mc_src c + mc_sofs c)) as G; unfold zlen in G; subst l; lia).
    assert (Bl : bytes_ok l) by (apply range_ok; exact B).
    destruct (Hp k n l R Bl) as (k' & P & R'). rewrite (Htr _ _ _ _ _ _ _ _ _ k' _ Hb Fc P). cbn [fst snd].
    replace (range m' (mc_src c + mc_sofs c) (Z.to_nat (mc_len c))) with l by (apply range_ext; intros i _; apply E).
    rewrite L in R'.
    destruct (IH k' (n + Z.to_nat (mc_len c))%nat (store m (mc_dst c + mc_dofs c) (ks_xor ks n l)) (put m' (mc_dst c + mc_dofs c) (ks_xor ks n l)) R') as (I1 & I2).
    + intros i. rewrite store_put. apply put_ext, E.
    + intros i. rewrite store_put. apply put_ok; [exact B|apply ks_xor_ok; assumption].
    + exact F.
    + split; [f_equal; exact I1|exact I2].
Qed.
End History.

Lemma arc_alias key cs m : 1 <= zlen key <= 256 -> (forall i, byte_ok (m i)) -> Forall no_forward_overlap cs ->
  fst (arc_calls (arcfour_cook_key key) m cs) = fst (mem_history (rc4 key) 0 m cs) /\
  forall i, snd (arc_calls (arcfour_cook_key key) m cs) i = snd (mem_history (rc4 key) 0 m cs) i.
Proof.
  intros H B F. apply (history_ok arc arc_transform_mem arcfour_encrypt (rc4 key) (arc_rel key) (arc_Q key H) (arc_P key H)).
  - intros. unfold arc_transform_mem. now rewrite H0.
  - intros k m0 src slen so dst dlen d len k' r Hb Ho P. unfold arc_transform_mem. rewrite Hb. apply bad_ranges_spec in Hb.
    rewrite arc_mem_loop, loop_ok by lia. unfold arcfour_encrypt in P. rewrite arc_list_loop in P.
    destruct (list_loop _ arc_step _ _) as [[[st x] y] r']. inversion P. subst. reflexivity.
  - apply arc_rel_0, H.
  - reflexivity.
  - exact B.
  - exact F.
Qed.
Lemma chacha_alias fresh iv ctr key cs m : chacha_args iv ctr key -> (forall i, byte_ok (m i)) -> Forall no_forward_overlap cs ->
  fst (chacha_calls (chacha20_init fresh key (iv_of iv) ctr) m cs) = fst (mem_history (chacha20 key ctr (iv_of iv)) 0 m cs) /\
  forall i, snd (chacha_calls (chacha20_init fresh key (iv_of iv) ctr) m cs) i = snd (mem_history (chacha20 key ctr (iv_of iv)) 0 m cs) i.
Proof.
  intros H B F. apply (history_ok chacha chacha_transform_mem (fun c l => let (c, r) := chacha20_transform c l in (c, Ret r)) (chacha20 key ctr (iv_of iv)) (cc_rel key ctr (iv_of iv))).
  - apply (cc_Q iv ctr key H).
  - apply (cc_P iv ctr key H).
  - intros. unfold chacha_transform_mem. now rewrite H0.
  - intros c m0 src slen so dst dlen d len k' r Hb Ho P. unfold chacha_transform_mem. rewrite Hb. apply bad_ranges_spec in Hb.
    rewrite chacha_mem_loop, loop_ok by lia. rewrite chacha_list_loop in P.
    destruct (list_loop _ cc_byte _ _) as [c' r']. inversion P. subst. reflexivity.
  - apply (cc_rel_0 fresh iv ctr key H).
  - reflexivity.
  - exact B.
  - exact F.
Qed.
(* forward by one byte over itself: wrong *)
Lemma arc_forward : exists key m c, 1 <= zlen key <= 256 /\ mcall_valid c = true /\ mc_dst c = mc_src c /\
  exists i, snd (arc_calls (arcfour_cook_key key) m [c]) i <> snd (mem_history (rc4 key) 0 m [c]) i.
Proof.
  exists [75; 101; 121], (fun _ => 7), (MCall 0 8 0 0 8 1 2). split; [vm_compute; split; discriminate|]. split; [reflexivity|]. split; [reflexivity|]. exists 2. vm_compute. discriminate.
Qed.
Lemma chacha_forward : exists key m c, zlen key = 32 /\ mcall_valid c = true /\ mc_dst c = mc_src c /\
  exists i, snd (chacha_calls (chacha20_init zeros key (zeros 8) 0) m [c]) i <> snd (mem_history (chacha20 key 0 (zeros 8)) 0 m [c]) i.
Proof.
  exists (zeros 32), (fun _ => 7), (MCall 0 8 0 0 8 1 2). split; [reflexivity|]. split; [reflexivity|]. split; [reflexivity|]. exists 2. vm_compute. discriminate.
Qed.
