(* RSA, Paillier and DH over a memory: the results are those of the functions on values, and what is left in memory. *)
From Verif Require Import Prelude PreludeFacts BytesNum HashModel RngModel BnModel PkModel BnHeapModel SpecPkMem BnHeap.

Ltac splits := repeat match goal with |- _ /\ _ => split end.
Ltac mem := solve [assumption | reflexivity | left; mem | right; mem].
Ltac same_elements := let u := fresh in let H := fresh in
  intros u; repeat (rewrite ?in_app_iff; progress cbn [In app]); rewrite ?in_app_iff; split; intros H; repeat (destruct H as [H|H]); try contradiction; mem.
(* the number of a block, or zero *)
Definition left_ (h : heap) (v : bn) (z : Z) : Prop := match v with Imm _ => True | Blk a => (a < length h)%nat /\ (cell_at h a = Num z \/ cell_at h a = Num 0) end.
Lemma left_keep h h' v z : keeps h h' -> left_ h v z -> left_ h' v z.
Proof. intros (A & B). destruct v as [y|a]; [auto|]. intros (C & D). split; [lia|]. now rewrite B. Qed.
Lemma left_wipe h v z w : left_ h v z -> (match w with Imm _ => True | Blk a => (a < length h)%nat end) -> left_ (m_wipe h w) v z.
Proof.
  destruct v as [y|a], w as [x|b]; cbn [left_ m_wipe]; auto. intros (A & B) C. rewrite length_store by lia. split; [exact A|].
  destruct (Nat.eq_dec a b) as [->|Hn]; [right; now rewrite store_same|rewrite store_other by lia; exact B].
Qed.
Lemma left_of h0 h vs ss v z : own h0 h vs ss -> In v vs -> val h v z -> left_ h v z.
Proof. intros O Hv (V1 & V2). pose proof (o_num _ _ _ _ O v Hv) as N. destruct v as [y|a]; [exact I|]. destruct N as (N1 & y & N2). split; [exact V2|]. left. cbn [num] in V1. rewrite N2 in *. now subst. Qed.
Lemma val_wipe h v z w : val h v z -> (match v with Imm _ => True | Blk _ => v <> w end) -> (match w with Imm _ => True | Blk a => (a < length h)%nat end) -> val (m_wipe h w) v z.
Proof.
  intros (V1 & V2) Hn Hw. destruct w as [x|b]; [split; assumption|]. cbn [m_wipe]. destruct v as [y|a]; [split; assumption|]. split; [|now rewrite length_store].
  cbn [num] in *. rewrite store_other; [exact V1|exact Hw|congruence].
Qed.
Definition in_heap (h : heap) (v : bn) : Prop := match v with Imm _ => True | Blk a => (a < length h)%nat end.
Lemma val_in h v z : val h v z -> in_heap h v. Proof. intros (_ & H). exact H. Qed.
Lemma in_wipe h v w : in_heap h v -> in_heap h w -> in_heap (m_wipe h w) v.
Proof. destruct v as [y|a], w as [x|b]; cbn [in_heap m_wipe]; auto. intros. now rewrite length_store. Qed.

Definition sep (v w : bn) : Prop := match v with Imm _ => True | Blk _ => v <> w end.
Lemma gives_sep h0 h vs ss args h' v z w : gives h0 h vs ss args h' v z -> in_heap h w -> (forall u, In u args -> sep u w) -> sep v w.
Proof.
  intros (_ & _ & [(-> & _)|[(-> & _)|H]]) Hw Ha; [exact I| |now apply Ha]. cbn [sep]. intros <-. cbn [in_heap] in Hw. lia.
Qed.
Lemma rem_sep h0 h vs ss a p h' v za zp x : gives h0 h vs ss [a; p] h' v (Z.rem za zp) -> val h' p zp -> zp <> 0 -> in_heap h x -> sep x a -> sep x v.
Proof.
  intros (_ & V & [(-> & _)|[(-> & _)|[H|[H|[]]]]]) Vp Hz Hx Hs; [destruct x; [exact I|discriminate]| |now subst v|].
  - destruct x as [y|i]; [exact I|]. cbn [sep in_heap] in *. intros E. injection E as E. lia.
  - subst p. exfalso. destruct V as (V & _), Vp as (Vp & _). rewrite V in Vp. pose proof (Z.rem_bound_abs za zp Hz). lia.
Qed.
Lemma fresh_sep h v z w : v = Imm z /\ immediate z \/ v = Blk (S (length h)) /\ ~ immediate z -> in_heap h w -> sep v w.
Proof. intros [(-> & _)|(-> & _)] Hw; [exact I|]. cbn [sep]. intros <-. cbn [in_heap] in Hw. lia. Qed.
Lemma left_wipe_all z v : forall ws h, left_ h v z -> Forall (in_heap h) ws -> left_ (m_wipe_all ws h) v z.
Proof.
  induction ws as [|w ws IH]; intros h L F; [exact L|]. cbn [m_wipe_all fold_left]. inversion F; subst. apply IH; [now apply left_wipe|].
  apply Forall_forall. intros u Hu. apply in_wipe; [|assumption]. now apply (proj1 (Forall_forall _ _) H2).
Qed.
Lemma own_in h0 h vs ss : own h0 h vs ss -> Forall (in_heap h) vs.
Proof. intros O. apply Forall_forall. intros [y|a] Hv; [exact I|]. pose proof (o_num _ _ _ _ O _ Hv) as (H & _). cbn. lia. Qed.
Section Share.
Variable share : heap -> Z -> list bn -> nat.

Lemma fail_ok {A B} h0 h e Q : keeps h0 h -> @agrees A B h0 (h, Raise e) (Raise e) Q.
Proof. intros K. split; [exact K|reflexivity]. Qed.
(* read a string of the caller *)
Lemma do_key h0 h vs ss a : own h0 h vs ss -> (a < length h0)%nat ->
  agrees h0 (m_of_bytes share h a) (Ret (bn_of_bytes (str h0 a))) (fun h' v z => (own h0 h' (v :: vs) ss /\ val h' v z /\ (v = Imm z /\ immediate z \/ v = Blk (S (length h)) /\ ~ immediate z)) /\ keeps h h').
Proof. intros O Ha. pose proof (o_keep _ _ _ _ O) as K. apply do_of_bytes; [exact O|destruct K; lia|now apply str_keep]. Qed.

Lemma own_wiped h0 h ws ss vs : own h0 h vs ss -> (forall v, In v vs <-> In v ws) -> own h0 (m_wipe_all ws h) [] ss.
Proof. intros O H. apply own_wipe_all. rewrite app_nil_r. now apply (own_incl _ _ vs). Qed.

Ltac key := eapply agrees_let; [apply do_key; [eassumption|assumption]|let h := fresh "h" in let v := fresh "v" in let O := fresh "O" in let V := fresh "V" in let A := fresh "A" in let K := fresh "K" in intros h v ((O & V & A) & K); carry].
Ltac zval := repeat match goal with V : val ?h ?v ?z |- context [num ?h ?v] => rewrite (proj1 V) end.
Ltac zop := eapply agrees_bind; [eapply do_z; [eassumption|zval; reflexivity|know]|let h := fresh "h" in let v := fresh "v" in let z := fresh "z" in let O := fresh "O" in let V := fresh "V" in let A := fresh "A" in let K := fresh "K" in intros h v z ((O & V & A) & K); carry].
Ltac zlet := eapply agrees_let; [eapply do_z; [eassumption|zval; reflexivity|know]|let h := fresh "h" in let v := fresh "v" in let O := fresh "O" in let V := fresh "V" in let A := fresh "A" in let K := fresh "K" in intros h v ((O & V & A) & K); carry].

Lemma rsa_crypt_ok h0 n k msg size : (msg < length h0)%nat -> (n < length h0)%nat -> (k < length h0)%nat ->
  agrees h0 (let! (h, m) := m_of_bytes share h0 msg in let! (h, n) := m_of_bytes share h n in let! (h, e) := m_of_bytes share h k in
    if num h m >=? num h n then (h, Raise (Error Message_too_long)) else
    let! (h, r) := m_mod_power share h m e n in let! (h, s) := m_to_bytes h (Some size) r in (m_wipe_all [m; n; e; r] h, Ret s))
   (if bn_of_bytes (str h0 msg) >=? bn_of_bytes (str h0 n) then Raise (Error Message_too_long) else
    olet r := bn_mod_power (bn_of_bytes (str h0 msg)) (bn_of_bytes (str h0 k)) (bn_of_bytes (str h0 n)) in bn_to_bytes (Some size) r)
   (fun h t b => own h0 h [] [(t, b)]).
Proof.
  intros Hm Hn Hk. pose proof (own_init h0) as O. key. key. key. zval. destruct (_ >=? _); [apply fail_ok; apply O2|]. unfold m_mod_power, bn_mod_power. zop.
  eapply agrees_tail; [eapply do_to_bytes; eassumption|]. intros h4 t b (O4 & K4).
  pose proof (own_wiped h0 h4 [v; v0; v1; v2] _ _ O4 ltac:(same_elements)) as W. split; [apply W|exact W].
Qed.
(* reading the result *)
Lemma result_str h0 h vs ss t b : own h0 h vs ss -> In (t, b) ss -> str h t = b.
Proof. intros O H. destruct (o_str _ _ _ _ O t b H) as (_ & E). unfold str. now rewrite E. Qed.
Lemma agrees_string h0 r p (Q : heap -> nat -> bytes -> Prop) : agrees h0 r p Q -> (forall h t b, Q h t b -> str h t = b) -> keeps h0 (fst r) /\ string_of r = p.
Proof. intros (K & H) G. split; [exact K|]. unfold string_of. destruct (snd r) as [t|e| |], p as [b|e'| |]; try contradiction; cbn [obind]; [f_equal; now apply G|now f_equal|reflexivity|reflexivity]. Qed.
Lemma rsa_encrypt_agrees h key msg : present h (msg :: rsa_pub_strings key) ->
  agrees h (m_rsa_encrypt share h key msg) (rsa_encrypt (rsa_pub_of h key) (str h msg)) (fun h' t b => own h h' [] [(t, b)]).
Proof. intros P. inversion P as [|? ? P1 P']; subst. inversion P' as [|? ? P2 P'']; subst. inversion P'' as [|? ? P3 _]; subst. exact (rsa_crypt_ok h (mrp_n key) (mrp_e key) msg (mrp_size key) P1 P2 P3). Qed.
Lemma rsa_decrypt_agrees h key msg : present h (msg :: rsa_priv_strings key) ->
  agrees h (m_rsa_decrypt share h key msg) (rsa_decrypt (rsa_priv_of h key) (str h msg)) (fun h' t b => own h h' [] [(t, b)]).
Proof. intros P. inversion P as [|? ? P1 P']; subst. inversion P' as [|? ? P2 P'']; subst. inversion P'' as [|? ? P3 _]; subst. exact (rsa_crypt_ok h (mrk_n key) (mrk_d key) msg (mrk_size key) P1 P2 P3). Qed.

(* ---- decryption by the Chinese Remainder Theorem ---- *)
Ltac incl_tac := let u := fresh in let H := fresh in intros u; split; intros H; cbn [In app] in *; repeat (destruct H as [<-|H]; [auto 20|]); try contradiction; auto 20.

Definition crt_values (za zp zq zdp zdq zqinv : Z) : list Z :=
  let mp := Zpow_facts.Zpow_mod (Z.rem za zp) zdp (Z.abs zp) in let mq := Zpow_facts.Zpow_mod (Z.rem za zq) zdq (Z.abs zq) in
  let d := mp - mq in let diff := bn_sub_mod mp mq zp in
  [zq * (Z.rem (diff * zqinv) zp); Z.rem (diff * zqinv) zp; diff * zqinv; diff; d; mq; mp].

Lemma do_zlet {A B} h0 h vs ss (r : out Z) z args (k : heap -> bn -> heap * out A) (p : out B) Q : own h0 h vs ss -> r = Ret z -> (forall v, In v args -> known vs v) ->
  (forall h' v, gives h0 h vs ss args h' v z -> keeps h h' -> agrees h0 (k h' v) p Q) -> agrees h0 (bind (z_ret share h r args) k) p Q.
Proof. intros O E Ha G. eapply agrees_let; [eapply do_z; [exact O|exact E|exact Ha]|]. intros h' v (H & K). now apply G. Qed.
Lemma do_zfail {A B} h0 h (r : out Z) e args (k : heap -> bn -> heap * out A) Q : keeps h0 h -> r = Raise e -> @agrees A B h0 (bind (z_ret share h r args) k) (Raise e) Q.
Proof. intros K ->. cbn [z_ret bind]. now apply fail_ok. Qed.
Lemma known_more vs ws v : known vs v -> known (ws ++ vs) v.
Proof. intros [H|H]; [left; apply in_or_app; now right|now right]. Qed.
Lemma known_cons vs w v : known vs v -> known (w :: vs) v.
Proof. apply (known_more vs [w]). Qed.
Lemma known_head vs v : known (v :: vs) v. Proof. left. now left. Qed.
Ltac kn := let u := fresh in let H := fresh in intros u H; cbn [In] in H; repeat (destruct H as [<-|H]); try contradiction;
  repeat first [assumption | apply known_head | apply known_cons | (right; eexists; reflexivity)].
Ltac carry2 K := match type of K with keeps ?h ?h' =>
  repeat match goal with V : val h ?v ?z |- _ => apply (val_keep h h' v z K) in V end end.

Lemma crt_ok h0 h vs ss a p q dp dq qinv za zp zq zdp zdq zqinv : own h0 h vs ss ->
  val h a za -> val h p zp -> val h q zq -> val h dp zdp -> val h dq zdq -> val h qinv zqinv ->
  known vs a -> known vs p -> known vs q -> known vs qinv -> sep p a -> sep q a -> sep qinv a ->
  agrees h0 (m_mod_power_CRT share h a p q dp dq qinv) (bn_mod_power_CRT za zp zq zdp zdq zqinv)
    (fun h' v z => val h' v z /\ exists us, own h0 h' (v :: us ++ vs) ss /\ Forall2 (left_ h') us (crt_values za zp zq zdp zdq zqinv)).
Proof.
  intros O Va Vp Vq Vdp Vdq Vqi Ka Kp Kq Kqi Sp Sq Sqi.
  unfold m_mod_power_CRT, bn_mod_power_CRT, m_rem, m_mod_power, bn_mod_power.
  zval. destruct (zp =? 0) eqn:Ep.
  { match goal with |- context [z_rem ?x ?y] => replace (z_rem x y) with (@Raise Z Division_by_zero) by (unfold z_rem; now rewrite Ep) end. cbn [obind z_ret bind]. apply fail_ok. apply O. }
  match goal with |- context [z_rem ?x ?y] => let r := eval unfold z_rem in (z_rem x y) in match r with context [Ret ?w] => replace (z_rem x y) with (Ret w) by (unfold z_rem; now rewrite Ep) end end. cbn [obind].
  eapply do_zlet; [exact O|reflexivity|kn|]. intros h1 amodp G1 K1. pose proof (proj1 G1) as O1. pose proof (proj1 (proj2 G1)) as V1.
  assert (in_heap h p /\ in_heap h q /\ in_heap h qinv) as (Ip & Iq & Iqi) by (repeat split; eapply val_in; eassumption).
  carry2 K1. assert (forall x, in_heap h x -> sep x a -> sep x amodp) as S1 by (intros x H1 H2; exact (rem_sep _ _ _ _ _ _ _ _ _ _ x G1 Vp ltac:(lia) H1 H2)).
  zval. destruct (zq =? 0) eqn:Eq.
  { match goal with |- context [z_rem ?x ?y] => replace (z_rem x y) with (@Raise Z Division_by_zero) by (unfold z_rem; now rewrite Eq) end. cbn [obind z_ret bind]. apply fail_ok. apply O1. }
  match goal with |- context [z_rem ?x ?y] => let r := eval unfold z_rem in (z_rem x y) in match r with context [Ret ?w] => replace (z_rem x y) with (Ret w) by (unfold z_rem; now rewrite Eq) end end. cbn [obind].
  eapply do_zlet; [exact O1|reflexivity|kn|]. intros h2 amodq G2 K2. pose proof (proj1 G2) as O2. pose proof (proj1 (proj2 G2)) as V2.
  assert (forall x, in_heap h x -> in_heap h1 x) as I1 by (intros [?|?] H; [exact I|cbn [in_heap] in *; destruct K1; lia]).
  carry2 K2. assert (forall x, in_heap h x -> sep x a -> sep x amodq) as S2 by (intros x H1 H2; exact (rem_sep _ _ _ _ _ _ _ _ _ _ x G2 Vq ltac:(lia) (I1 x H1) H2)).
  pose proof (S1 p Ip Sp) as Sp1. pose proof (S2 p Ip Sp) as Sp2. pose proof (S1 q Iq Sq) as Sq1. pose proof (S2 q Iq Sq) as Sq2. pose proof (S1 qinv Iqi Sqi) as Sqi1. pose proof (S2 qinv Iqi Sqi) as Sqi2.
  clear S1 S2 G1 G2 K1 K2 I1 Ip Iq Iqi.
  zval. destruct ((zdp <=? 0) || Z.even zp) eqn:E3.
  { match goal with |- context [z_powm_sec ?x ?y ?z] => replace (z_powm_sec x y z) with (@Raise Z Invalid_argument) by (unfold z_powm_sec; now rewrite E3) end. cbn [obind z_ret bind]. apply fail_ok. apply O2. }
  match goal with |- context [z_powm_sec ?x ?y ?z] => let r := eval unfold z_powm_sec in (z_powm_sec x y z) in match r with context [Ret ?w] => replace (z_powm_sec x y z) with (Ret w) by (unfold z_powm_sec; now rewrite E3) end end. cbn [obind].
  eapply do_zlet; [exact O2|reflexivity|kn|]. intros h3 mp G3 K3. pose proof (proj1 G3) as O3. pose proof (proj1 (proj2 G3)) as V3.
  assert (sep mp amodp /\ sep mp amodq) as (Smp1 & Smp2) by (split; (eapply gives_sep; [exact G3|eapply val_in; eassumption|intros u []])). carry2 K3. clear G3 K3.
  zval. destruct ((zdq <=? 0) || Z.even zq) eqn:E4.
  { match goal with |- context [z_powm_sec ?x ?y ?z] => replace (z_powm_sec x y z) with (@Raise Z Invalid_argument) by (unfold z_powm_sec; now rewrite E4) end. cbn [obind z_ret bind]. apply fail_ok. apply O3. }
  match goal with |- context [z_powm_sec ?x ?y ?z] => let r := eval unfold z_powm_sec in (z_powm_sec x y z) in match r with context [Ret ?w] => replace (z_powm_sec x y z) with (Ret w) by (unfold z_powm_sec; now rewrite E4) end end. cbn [obind].
  eapply do_zlet; [exact O3|reflexivity|kn|]. intros h4 mq G4 K4. pose proof (proj1 G4) as O4. pose proof (proj1 (proj2 G4)) as V4.
  assert (sep mq amodp /\ sep mq amodq) as (Smq1 & Smq2) by (split; (eapply gives_sep; [exact G4|eapply val_in; eassumption|intros u []])). carry2 K4. clear G4 K4.
  set (zmp := Zpow_facts.Zpow_mod (Z.rem za zp) zdp (Z.abs zp)) in *. set (zmq := Zpow_facts.Zpow_mod (Z.rem za zq) zdq (Z.abs zq)) in *.
  (* the difference *)
  eapply (agrees_let h0 _ (bn_sub_mod zmp zmq zp) _ _ (fun h' v z => exists d, own h0 h' (v :: d :: mq :: mp :: amodq :: amodp :: vs) ss /\ val h' v z /\ val h' d (zmp - zmq) /\ sep v amodp /\ sep v amodq /\ keeps h4 h')).
  { unfold m_sub_mod, m_sub, m_add, bn_sub_mod. zval. eapply do_zlet; [exact O4|reflexivity|kn|]. intros h5 d G5 K5. pose proof (proj1 G5) as O5. pose proof (proj1 (proj2 G5)) as V5.
    assert (sep d amodp /\ sep d amodq) as (Sd1 & Sd2) by (split; (eapply gives_sep; [exact G5|eapply val_in; eassumption|intros u [<-|[<-|[]]]; assumption])). carry2 K5.
    zval. destruct (_ <? 0).
    - eapply agrees_weaken; [eapply do_z; [exact O5|reflexivity|kn]|]. intros h6 v z (G6 & K6). exists d. splits; [apply G6|apply G6|exact (val_keep _ _ _ _ K6 V5)| | |exact (keeps_trans _ _ _ K5 K6)];
        (eapply gives_sep; [exact G6|eapply val_in; eassumption|intros u [<-|[<-|[]]]; assumption]).
    - split; [apply O5|]. exists d. splits; try assumption. cbn [fst]. apply own_share; [exact O5|]. apply (o_num _ _ _ _ O5). now left. }
  intros h5 diff (d & O5 & V5 & V6 & Sf1 & Sf2 & K5). carry2 K5. clear K5. set (zdiff := bn_sub_mod zmp zmq zp) in *.
  unfold m_mult. zval.
  eapply do_zlet; [exact O5|reflexivity|kn|]. intros h6 dqi G7 K7. pose proof (proj1 G7) as O7. pose proof (proj1 (proj2 G7)) as V7.
  assert (sep dqi amodp /\ sep dqi amodq) as (Sg1 & Sg2) by (split; (eapply gives_sep; [exact G7|eapply val_in; eassumption|intros u [<-|[<-|[]]]; assumption])). carry2 K7. clear G7 K7.
  zval. match goal with |- context [z_rem ?x ?y] => replace (z_rem x y) with (Ret (Z.rem x y)) by (unfold z_rem; now rewrite Ep) end. cbn [obind].
  eapply do_zlet; [exact O7|reflexivity|kn|]. intros h7 dqm G8 K8. pose proof (proj1 G8) as O8. pose proof (proj1 (proj2 G8)) as V8.
  assert (sep dqm amodp /\ sep dqm amodq) as (Sh1 & Sh2) by (split; (eapply gives_sep; [exact G8|eapply val_in; eassumption|intros u [<-|[<-|[]]]; assumption])). carry2 K8. clear G8 K8.
  zval. eapply do_zlet; [exact O8|reflexivity|kn|]. intros h8 x G9 K9. pose proof (proj1 G9) as O9. pose proof (proj1 (proj2 G9)) as V9.
  assert (sep x amodp /\ sep x amodq) as (Sx1 & Sx2) by (split; (eapply gives_sep; [exact G9|eapply val_in; eassumption|intros u [<-|[<-|[]]]; assumption])). carry2 K9. clear G9 K9.
  unfold m_add. zval. eapply do_zlet; [exact O9|reflexivity|kn|]. intros h9 res G10 K10. pose proof (proj1 G10) as O10. pose proof (proj1 (proj2 G10)) as V10.
  assert (sep res amodp /\ sep res amodq) as (Sr1 & Sr2) by (split; (eapply gives_sep; [exact G10|eapply val_in; eassumption|intros u [<-|[<-|[]]]; assumption])). carry2 K10. clear G10 K10.
  cbv zeta. pose proof (val_in _ _ _ V1) as J1. pose proof (in_wipe _ _ _ (val_in _ _ _ V2) J1) as J2.
  assert (own h0 (m_wipe (m_wipe h9 amodp) amodq) (res :: [x; dqm; dqi; diff; d; mq; mp] ++ vs) ss) as OW.
  { apply own_wipe, own_wipe. apply (own_incl _ _ _ _ _ O10). same_elements. }
  split; [apply OW|]. cbn [fst snd]. split.
  - apply val_wipe; [apply val_wipe; assumption|exact Sr2|exact J2].
  - exists [x; dqm; dqi; diff; d; mq; mp]. split; [exact OW|]. unfold crt_values. fold zmp zmq zdiff.
    assert (forall u z, In u [x; dqm; dqi; diff; d; mq; mp] -> val h9 u z -> left_ (m_wipe (m_wipe h9 amodp) amodq) u z) as LW.
    { intros u z Hu Vu. apply left_wipe; [apply left_wipe; [|exact J1]|exact J2]. apply (left_of _ _ _ _ _ _ O10); [|exact Vu]. cbn [In] in *. repeat (destruct Hu as [Hu|Hu]); try contradiction; mem. }
    repeat (apply Forall2_cons; [apply LW; [cbn [In]; mem|assumption]|]). constructor.
Qed.
(* the numbers left by decrypt_CRT *)
Definition crt_left (h : heap) (key : m_rsa_private) (msg : nat) : list Z :=
  let n a := bn_of_bytes (str h a) in crt_values (n msg) (n (mrk_p key)) (n (mrk_q key)) (n (mrk_dp key)) (n (mrk_dq key)) (n (mrk_qinv key)).
Lemma rsa_crt_agrees h key msg : present h (msg :: rsa_priv_strings key) ->
  agrees h (m_rsa_decrypt_CRT share h key msg) (rsa_decrypt_CRT (rsa_priv_of h key) (str h msg))
    (fun h' t b => (exists us, own h h' us [(t, b)] /\ Forall2 (left_ h') us (crt_left h key msg))).
Proof.
  intros P. unfold present, rsa_priv_strings in P. repeat match goal with P : Forall _ (_ :: _) |- _ => apply Forall_cons_iff in P; destruct P as (? & P) end. clear P.
  unfold m_rsa_decrypt_CRT, rsa_decrypt_CRT, rsa_priv_of. cbn [rk_size rk_n rk_d rk_p rk_q rk_dp rk_dq rk_qinv].
  pose proof (own_init h) as O. key. pose proof (val_in _ _ _ V) as I0. key. pose proof (val_in _ _ _ V) as I1. key. pose proof (fresh_sep _ _ _ v A1 I1) as S1. pose proof (val_in _ _ _ V) as I2.
  key. pose proof (fresh_sep _ _ _ v A2 I2) as S2. key. key. pose proof (val_in _ _ _ V) as I3. key. pose proof (fresh_sep _ _ _ v A5 I3) as S3.
  zval. destruct (_ >=? _); [apply fail_ok; apply O6|].
  eapply agrees_bind; [eapply crt_ok; try eassumption; (left; cbn [In]; mem)|]. intros h8 r zr (Vr & us & Or & Lr).
  eapply agrees_tail; [eapply do_to_bytes; eassumption|]. intros h9 t b (Ot & Kt).
  assert (own h h9 ([v; v0; v1; v2; v3; v4; v5; r] ++ us) [(t, b)]) as Ow.
  { apply (own_incl _ _ _ _ _ Ot). same_elements. }
  pose proof (own_in _ _ _ _ Ow) as Fw. apply Forall_app in Fw as (Fw & _).
  pose proof (own_wipe_all _ _ _ _ _ Ow) as W. split; [apply W|]. cbn [fst snd]. exists us. split; [exact W|].
  clear - Lr Kt Fw. unfold crt_left. cbv zeta. induction Lr as [|u z us' l L Lr IH]; [constructor|]. constructor; [|exact IH]. apply left_wipe_all; [|exact Fw]. exact (left_keep _ _ _ _ Kt L).
Qed.
End Share.
