(* Proofs: the system generator on Windows. *)
From Verif Require Import Prelude PreludeFacts SpecTransducer RngModel SpecWinRng WinRngModel.

(* what CryptGenRandom is assumed to do: on success all the bytes, on failure no more than that *)
Definition gen_ok (gen : nat -> Z -> bool * bytes) : Prop :=
  forall k n, 0 <= n -> if fst (gen k n) then zlen (snd (gen k n)) = n else zlen (snd (gen k n)) <= n.
Definition pick_ok (pick : nat -> list Z -> Z) : Prop := forall k l, ~ In (pick k l) l.

Lemma bad_range_in_range buf ofs len : bad_range buf ofs len = negb (in_range buf ofs len).
Proof. unfold bad_range, in_range. destruct (Z.ltb_spec ofs 0), (Z.ltb_spec len 0), (Z.leb_spec 0 len), (Z.leb_spec 0 ofs); cbn; try lia; try reflexivity; rewrite Z.gtb_ltb, Z.leb_antisym, Bool.negb_involutive; reflexivity. Qed.

Lemma in_use_In w h : in_use w h = true <-> In h (w_handles w).
Proof.
  unfold in_use. rewrite existsb_exists. split.
  - intros (x & Hx & E). apply Z.eqb_eq in E. subst x. exact Hx.
  - intros H. exists h. split; [exact H|apply Z.eqb_refl].
Qed.

(* one request *)
Lemma win_fill gen h w buf ofs len : gen_ok gen ->
  (in_range buf ofs len = false -> r_bytes (win_rng gen h) w buf ofs len = ((w, buf), Raise Invalid_argument)) /\
  (in_range buf ofs len = true -> In h (w_handles w) -> let n := len mod 2 ^ 32 in let b := snd (gen (w_answers w) n) in
   exists w' r, r_bytes (win_rng gen h) w buf ofs len = ((w', splice buf ofs b), r) /\ w_handles w' = w_handles w /\
   ((r = Ret tt /\ zlen b = n) \/ (r = Raise (Error Entropy_source_closed) /\ zlen b <= n))) /\
  (in_range buf ofs len = true -> ~ In h (w_handles w) -> r_bytes (win_rng gen h) w buf ofs len = ((w, buf), Raise (Error Entropy_source_closed))).
Proof.
  intros G. cbn [win_rng r_bytes]. rewrite bad_range_in_range. split; [|split].
  - intros ->. reflexivity.
  - intros -> Hh. cbn zeta. cbn [negb]. unfold win_random_bytes, CryptGenRandom. apply in_use_In in Hh. rewrite Hh.
    pose proof (G (w_answers w) (len mod 2 ^ 32) ltac:(apply Z.mod_pos_bound; lia)) as Hg. destruct (gen (w_answers w) (len mod 2 ^ 32)) as [ok b]. cbn [fst snd] in *.
    eexists _, _. split; [reflexivity|]. split; [reflexivity|]. destruct ok; [left|right]; split; auto.
  - intros -> Hh. cbn [negb]. unfold win_random_bytes, CryptGenRandom. destruct (in_use w h) eqn:E; [apply in_use_In in E; contradiction|]. reflexivity.
Qed.

Lemma win_string_long gen h w fresh n : gen_ok gen -> In h (w_handles w) -> zlen (fresh (2 ^ 32 * n)) = 2 ^ 32 * n -> 0 < n -> 2 ^ 32 * n <= max_string_length ->
  fst (gen (w_answers w) 0) = true -> snd (rng_string fresh (win_rng gen h) w (2 ^ 32 * n)) = Ret (fresh (2 ^ 32 * n)).
Proof.
  intros G Hh Hf Hn Hm Hg. set (m := 2 ^ 32 * n) in *. unfold rng_string.
  assert ((m <? 0) || (m >? max_string_length) = false) as -> by (apply Bool.orb_false_intro; [apply Z.ltb_ge; subst m; lia|rewrite Z.gtb_ltb; apply Z.ltb_ge; exact Hm]).
  destruct (win_fill gen h w (fresh m) 0 m G) as (_ & F & _).
  assert (in_range (fresh m) 0 m = true) as R by (apply in_range_true; rewrite Hf; subst m; lia).
  specialize (F R Hh). assert (m mod 2 ^ 32 = 0) as Em by (subst m; rewrite Z.mul_comm; apply Z.mod_mul; lia). rewrite Em in F. cbn zeta in F.
  destruct F as (w' & r & E & _ & [[-> Hb]|[-> _]]).
  - assert (snd (gen (w_answers w) 0) = []) as Eb by (destruct (snd (gen (w_answers w) 0)); [reflexivity|unfold zlen in Hb; cbn in Hb; lia]).
    rewrite E, Eb. cbn [fst snd]. rewrite splice_nil || unfold splice. cbn. reflexivity.
  - exfalso. cbn [win_rng r_bytes] in E. rewrite bad_range_in_range, R in E. cbn [negb] in E. unfold win_random_bytes, CryptGenRandom in E. rewrite Em in E.
    apply in_use_In in Hh. rewrite Hh in E. destruct (gen (w_answers w) 0) as [ok b]. cbn [fst snd] in *. subst ok. discriminate E.
Qed.

(* programs: the open generators have handles in use, all different *)
Definition inv (w : world) (gs : list Z) (s : wspec) : Prop :=
  w_requests w = ws_requests s /\ w_answers w = ws_answers s /\ length gs = length (ws_open s) /\
  (forall g h, nth_error gs g = Some h -> nth_error (ws_open s) g = Some true -> In h (w_handles w)) /\
  (forall g g' h, nth_error gs g = Some h -> nth_error gs g' = Some h -> nth_error (ws_open s) g = Some true -> nth_error (ws_open s) g' = Some true -> g = g').

Lemma nth_close l g i : nth_error (close l g) i = if (i =? g)%nat then match nth_error l i with Some _ => Some false | None => None end else nth_error l i.
Proof. revert g i. induction l as [|b l IH]; intros [|g] [|i]; cbn; auto; try (destruct (_ =? _)%nat; reflexivity). Qed.
Lemma length_close l g : length (close l g) = length l.
Proof. revert g. induction l as [|b l IH]; intros [|g]; cbn; auto. Qed.

Section Prog.
Variable avail : nat -> bool.
Variable pick : nat -> list Z -> Z.
Variable gen : nat -> Z -> bool * bytes.
Hypothesis Hp : pick_ok pick.
Lemma win_step_ok w gs s o : inv w gs s -> use_ok s o -> 
  let r := win_step avail pick gen w gs o in snd r = snd (expected_step avail gen s o) /\ inv (fst (fst r)) (snd (fst r)) (fst (expected_step avail gen s o)).
Proof.
  intros (I1 & I2 & I3 & I4 & I5) Hu. destruct o as [|g buf ofs len|g]; cbn [win_step expected_step use_ok] in *.
  - unfold win_system_rng, CryptAcquireContext. rewrite I1. destruct (avail (ws_requests s)) eqn:Ea; cbn [fst snd].
    + split; [reflexivity|]. split; [cbn; congruence|]. split; [exact I2|]. cbn [ws_open w_handles]. split; [rewrite !app_length; cbn; lia|]. split.
      * intros g h Eh Eo. destruct (Nat.lt_ge_cases g (length gs)) as [Hg|Hg].
        -- rewrite nth_error_app1 in Eh, Eo by lia. right. eapply I4; eassumption.
        -- rewrite nth_error_app2 in Eh by lia. destruct (g - length gs)%nat as [|k]; cbn in Eh; [injection Eh as <-; left; reflexivity|destruct k; discriminate Eh].
      * assert (forall g h, nth_error (gs ++ [pick (ws_requests s) (w_handles w)]) g = Some h -> nth_error (ws_open s ++ [true]) g = Some true ->
          (g = length gs /\ h = pick (ws_requests s) (w_handles w)) \/ (g < length gs)%nat /\ nth_error gs g = Some h /\ nth_error (ws_open s) g = Some true /\ In h (w_handles w)) as K.
        { intros g h Eh Eo. destruct (Nat.lt_ge_cases g (length gs)) as [Hg|Hg].
          - rewrite nth_error_app1 in Eh, Eo by lia. right. split; [exact Hg|]. split; [exact Eh|]. split; [exact Eo|]. eapply I4; eassumption.
          - rewrite nth_error_app2 in Eh by lia. left. destruct (g - length gs)%nat as [|k] eqn:Ek; cbn in Eh; [injection Eh as <-; split; [lia|reflexivity]|destruct k; discriminate Eh]. }
        intros g g' h E1 E2 O1 O2. destruct (K g h E1 O1) as [(A1 & A2)|(A1 & A2 & A3 & A4)], (K g' h E2 O2) as [(B1 & B2)|(B1 & B2 & B3 & B4)].
        -- congruence.
        -- exfalso. rewrite A2 in B4. exact (Hp _ _ B4).
        -- exfalso. rewrite B2 in A4. exact (Hp _ _ A4).
        -- eapply I5; eassumption.
    + split; [reflexivity|]. repeat (split; [cbn; first [congruence|assumption]|]). exact I5.
  - destruct Hu as (Ho & Hl). assert (exists h, nth_error gs g = Some h) as (h & Eh).
    { destruct (nth_error gs g) eqn:E; [eauto|]. apply nth_error_None in E. assert (nth_error (ws_open s) g = None) by (apply nth_error_None; lia). congruence. }
    rewrite Eh. cbn [win_rng r_bytes]. rewrite bad_range_in_range. destruct (in_range buf ofs len) eqn:R; cbn [negb].
    + unfold win_random_bytes, CryptGenRandom. assert (In h (w_handles w)) as Hh by (eapply I4; eassumption). apply in_use_In in Hh. rewrite Hh.
      apply in_range_true in R. rewrite (Z.mod_small len) by lia. rewrite I2. destruct (gen (ws_answers s) len) as [ok b]. cbn [fst snd].
      split; [reflexivity|]. repeat (split; [cbn; first [congruence|assumption]|]). exact I5.
    + cbn [fst snd]. split; [reflexivity|]. unfold inv. auto.
  - assert (exists h, nth_error gs g = Some h) as (h & Eh).
    { destruct (nth_error gs g) eqn:E; [eauto|]. apply nth_error_None in E. assert (nth_error (ws_open s) g = None) by (apply nth_error_None; lia). congruence. }
    rewrite Eh. cbn [win_rng r_wipe fst snd]. split; [reflexivity|]. split; [exact I1|]. split; [exact I2|]. cbn [ws_open]. rewrite length_close. split; [exact I3|].
    assert (forall i, nth_error (close (ws_open s) g) i = Some true -> i <> g /\ nth_error (ws_open s) i = Some true) as K.
    { intros i. rewrite nth_close. destruct (Nat.eqb_spec i g); [destruct (nth_error (ws_open s) i); discriminate|auto]. }
    split.
    + intros i x Ex Eo. apply K in Eo as (Hi & Eo). unfold CryptReleaseContext. cbn [w_handles]. apply filter_In. split; [eapply I4; eassumption|].
      destruct (Z.eqb_spec x h) as [e|]; [|reflexivity]. subst x. exfalso. apply Hi. eapply I5; eassumption.
    + intros i j x E1 E2 O1 O2. apply K in O1 as (_ & O1). apply K in O2 as (_ & O2). eapply I5; eassumption.
Qed.
Lemma win_run_ok ops : forall w gs s, inv w gs s -> uses_ok avail gen s ops -> win_run avail pick gen w gs ops = expected avail gen s ops.
Proof.
  induction ops as [|o ops IH]; intros w gs s Hi Hu; [reflexivity|]. cbn [win_run expected uses_ok] in *. destruct Hu as (Hu & Hus).
  destruct (win_step_ok w gs s o Hi Hu) as (E & Hi'). destruct (win_step avail pick gen w gs o) as [[w' gs'] r]. cbn [fst snd] in *. rewrite E. f_equal. apply IH; assumption.
Qed.
End Prog.
Lemma win_programs avail pick gen ops : pick_ok pick -> uses_ok avail gen (WS 0 0 []) ops ->
  win_run avail pick gen (World 0 0 []) [] ops = expected avail gen (WS 0 0 []) ops.
Proof.
  intros Hp Hu. apply win_run_ok; [exact Hp| |exact Hu]. split; [reflexivity|]. split; [reflexivity|]. split; [reflexivity|]. split; intros [|g]; cbn; discriminate.
Qed.

(* a system that gives the smallest handle above those in use *)
Definition next_handle (k : nat) (l : list Z) : Z := 1 + fold_right Z.max 0 l.
Lemma next_handle_ok : pick_ok next_handle.
Proof.
  intros k l H. assert (forall x, In x l -> x <= fold_right Z.max 0 l) as M.
  { clear. induction l as [|y l IH]; intros x Hx; [destruct Hx|]. destruct Hx as [->|Hx]; cbn; [lia|specialize (IH x Hx); lia]. }
  apply M in H. unfold next_handle in H. lia.
Qed.
Lemma wiped_twice : exists avail pick gen ops1 ops2 buf, pick_ok pick /\ gen_ok gen /\
  nth_error (win_run avail pick gen (World 0 0 []) [] (ops1 ++ [WAsk 1 buf 0 4])) (length ops1) = Some ([1; 2; 3; 4], Ret tt) /\
  ops2 = ops1 ++ [WWipe 0] /\
  nth_error (win_run avail pick gen (World 0 0 []) [] (ops2 ++ [WAsk 1 buf 0 4])) (length ops2) = Some (buf, Raise (Error Entropy_source_closed)).
Proof.
  exists (fun _ => true), next_handle, (fun k n => (true, map (fun i => Z.of_nat i + 1) (seq 0 (Z.to_nat n)))), [WNew; WWipe 0; WNew], [WNew; WWipe 0; WNew; WWipe 0], (zeros 4).
  split; [exact next_handle_ok|]. split; [intros k n Hn; cbn; unfold zlen; rewrite map_length, seq_length; lia|]. repeat split; reflexivity.
Qed.
Lemma long_request : exists n, 0 < n <= max_string_length /\ forall gen h w fresh, gen_ok gen -> In h (w_handles w) -> (forall m, 0 <= m -> zlen (fresh m) = m) ->
  fst (gen (w_answers w) 0) = true -> snd (rng_string fresh (win_rng gen h) w n) = Ret (fresh n).
Proof.
  exists (2 ^ 32 * 1). split; [unfold max_string_length; lia|]. intros gen h w fresh G Hh Hf Hg. apply win_string_long; [exact G|exact Hh|apply Hf; lia|lia|unfold max_string_length; lia|exact Hg].
Qed.
