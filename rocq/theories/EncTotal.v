(* What the encoding transducers compute on whole messages. *)
From Verif Require Import Prelude PreludeFacts SpecTransducer SpecEnc Encodings.
Ltac Zify.zify_post_hook ::= Z.div_mod_to_equations.

Lemma m_run_cons M sg c l :
  m_run M sg (c :: l) = match m_byte M sg c with
    | (sg1, o1, Some e) => (sg1, o1, Some e)
    | (sg1, o1, None) => let '(sg2, o2, e2) := m_run M sg1 l in (sg2, o1 ++ o2, e2) end.
Proof. reflexivity. Qed.

Lemma m_total_cons M sg c l :
  m_total M sg (c :: l) = match m_byte M sg c with
    | (sg1, o1, Some e) => (sg1, o1, Some e)
    | (sg1, o1, None) => let '(sg2, o2, e2) := m_total M sg1 l in (sg2, o1 ++ o2, e2) end.
Proof.
  unfold m_total. rewrite m_run_cons. destruct (m_byte M sg c) as [[s1 o1] [e|]]; [reflexivity|].
  destruct (m_run M s1 l) as [[s2 o2] [e2|]]; cbn [m_then]; [reflexivity|].
  destruct (m_finish M s2) as [[s3 o3] e3]. rewrite app_assoc. reflexivity.
Qed.

Lemma npad3 a b c l : b64_npad (a :: b :: c :: l) = b64_npad l.
Proof. unfold b64_npad. rewrite !zlen_cons. f_equal. lia. Qed.

Lemma b64_text3 pad a b c l : b64_text pad (a :: b :: c :: l) = b64e_group [a; b; c] ++ b64_text pad l.
Proof.
  unfold b64_text, b64e_group. cbn [b64_digits]. rewrite npad3, !map_app, <- !app_assoc. reflexivity.
Qed.

(* ---- compact ---- *)
Lemma b64e_total_compact pad l : forall col, let r := m_total (b64e_mealy false pad) ([], col) l in
  r_out r = b64_text pad l /\ r_exn r = None.
Proof.
  induction l as [|a|a b|a b c l IH] using b64_digits_range3; intros col r.
  - subst r. unfold m_total. cbn [m_run m_then b64e_mealy m_finish orb andb]. unfold r_out, r_exn. cbn [fst snd].
    split; [|reflexivity]. unfold b64_text. rewrite app_nil_r. destruct pad; reflexivity.
  - subst r. unfold m_total. cbn [m_run m_then b64e_mealy m_byte m_finish orb andb app].
    change (zlen (@nil Z) =? 2) with false. cbn match. cbn [m_then m_finish app fst snd]. rewrite app_nil_r. split; reflexivity.
  - subst r. unfold m_total. cbn [m_run m_then b64e_mealy m_byte m_finish orb andb app].
    change (zlen (@nil Z) =? 2) with false. cbn match. change (zlen [a] =? 2) with false. cbn [m_then m_finish app fst snd]. rewrite app_nil_r. split; reflexivity.
  - specialize (IH (col + 4)). subst r. rewrite b64_text3.
    rewrite !m_total_cons. cbn [b64e_mealy m_byte]. change (zlen (@nil Z) =? 2) with false. cbn match.
    rewrite !m_total_cons. cbn [b64e_mealy m_byte app]. change (zlen [a] =? 2) with false. cbn match.
    rewrite !m_total_cons. cbn [b64e_mealy m_byte app]. change (zlen [a; b] =? 2) with true. cbn [andb]. cbn match.
    fold (b64e_mealy false pad). destruct (m_total (b64e_mealy false pad) ([], col + 4) l) as [[s2 o2] e2].
    cbn [r_out r_exn fst snd app] in *. destruct IH as (-> & ->). split; reflexivity.
Qed.

(* ---- multi-line ---- *)
Lemma lines72_fuel : forall n m l, (length l < n)%nat -> (length l < m)%nat -> lines72 n l = lines72 m l.
Proof.
  induction n as [|n IH]; intros m l Hn Hm; [lia|]. destruct m as [|m]; [lia|]. cbn [lines72].
  destruct (zlen l >=? 54) eqn:E; [|reflexivity].
  do 2 f_equal. apply IH; rewrite skipn_length; unfold zlen in E; lia.
Qed.

(* what is left to write in column col *)
Definition ml_rest (col : Z) (l : bytes) : bytes :=
  let k := Z.to_nat ((72 - col) / 4 * 3) in
  if (length l <? k)%nat
  then b64_text true l ++ (if (col >? 0) || (zlen l >=? 3) then [10] else [])
  else b64_text true (firstn k l) ++ [10] ++ b64_multiline (skipn k l).

Lemma ml_rest_0 l : b64_multiline l = ml_rest 0 l.
Proof.
  unfold b64_multiline, ml_rest. change (Z.to_nat ((72 - 0) / 4 * 3)) with 54%nat. cbn [lines72].
  destruct (length l <? 54)%nat eqn:E; [apply Nat.ltb_lt in E|apply Nat.ltb_ge in E].
  - replace (zlen l >=? 54) with false by (unfold zlen; lia). reflexivity.
  - replace (zlen l >=? 54) with true by (unfold zlen; lia). do 2 f_equal.
    unfold b64_multiline. apply lines72_fuel; rewrite ?skipn_length; lia.
Qed.

Lemma b64e_total_multi pad l : forall col, 0 <= col < 72 -> col mod 4 = 0 ->
  let r := m_total (b64e_mealy true pad) ([], col) l in
  r_out r = ml_rest col l /\ r_exn r = None.
Proof.
  induction l as [|a|a b|a b c l IH] using b64_digits_range3; intros col Hc Hm r.
  - subst r. unfold m_total, ml_rest. cbn [m_run m_then b64e_mealy m_finish orb andb]. unfold r_out, r_exn. cbn [fst snd].
    split; [|reflexivity]. replace (length (@nil Z) <? Z.to_nat ((72 - col) / 4 * 3))%nat with true by (symmetry; apply Nat.ltb_lt; cbn [length]; lia).
    change (zlen (@nil Z) >=? 3) with false. rewrite orb_false_r. reflexivity.
  - subst r. unfold m_total, ml_rest. cbn [m_run m_then b64e_mealy m_byte m_finish orb andb app].
    replace (length [a] <? Z.to_nat ((72 - col) / 4 * 3))%nat with true by (symmetry; apply Nat.ltb_lt; cbn [length]; lia).
    change (zlen (@nil Z) =? 2) with false. cbn match. cbn [m_then m_finish app fst snd].
    change (zlen [a] >=? 3) with false. rewrite orb_false_r. unfold b64_text, r_out. cbn [fst snd]. rewrite <- app_assoc. split; reflexivity.
  - subst r. unfold m_total, ml_rest. cbn [m_run m_then b64e_mealy m_byte m_finish orb andb app].
    replace (length [a; b] <? Z.to_nat ((72 - col) / 4 * 3))%nat with true by (symmetry; apply Nat.ltb_lt; cbn [length]; lia).
    change (zlen (@nil Z) =? 2) with false. cbn match. change (zlen [a] =? 2) with false. cbn [m_then m_finish app fst snd].
    change (zlen [a; b] >=? 3) with false. rewrite orb_false_r. unfold b64_text, r_out. cbn [fst snd]. rewrite <- app_assoc. split; reflexivity.
  - subst r.
    rewrite !m_total_cons. cbn [b64e_mealy m_byte]. change (zlen (@nil Z) =? 2) with false. cbn match.
    rewrite !m_total_cons. cbn [b64e_mealy m_byte app]. change (zlen [a] =? 2) with false. cbn match.
    rewrite !m_total_cons. cbn [b64e_mealy m_byte app]. change (zlen [a; b] =? 2) with true. cbn [andb]. cbn match.
    fold (b64e_mealy true pad).
    destruct (col + 4 >=? 72) eqn:E.
    + specialize (IH 0 ltac:(lia) eq_refl). destruct (m_total (b64e_mealy true pad) ([], 0) l) as [[s2 o2] e2].
      cbn [r_out r_exn fst snd app] in *. destruct IH as (-> & ->). split; [|reflexivity].
      rewrite <- ml_rest_0. unfold ml_rest. replace (Z.to_nat ((72 - col) / 4 * 3)) with 3%nat by lia.
      cbn [length]. replace (S (S (S (length l))) <? 3)%nat with false by (symmetry; apply Nat.ltb_ge; lia).
      cbn [firstn skipn]. rewrite b64_text3. unfold b64_text. cbn [b64_digits map app].
      replace (repeat 61 (b64_npad [])) with (@nil Z) by reflexivity. rewrite app_nil_r, <- app_assoc. reflexivity.
    + specialize (IH (col + 4) ltac:(lia) ltac:(lia)). destruct (m_total (b64e_mealy true pad) ([], col + 4) l) as [[s2 o2] e2].
      cbn [r_out r_exn fst snd app] in *. destruct IH as (-> & ->). split; [|reflexivity].
      unfold ml_rest. set (k := Z.to_nat ((72 - (col + 4)) / 4 * 3)).
      replace (Z.to_nat ((72 - col) / 4 * 3)) with (3 + k)%nat by (unfold k; lia). cbn [length plus].
      replace (col + 4 >? 0) with true by lia. cbn [orb].
      replace (zlen (a :: b :: c :: l) >=? 3) with true by (rewrite !zlen_cons; pose proof (zlen_nonneg l); lia). rewrite orb_true_r.
      change (S (S (S (length l))) <? S (S (S k)))%nat with (length l <? k)%nat.
      destruct (length l <? k)%nat; cbn [firstn skipn]; rewrite b64_text3, <- app_assoc; reflexivity.
Qed.

Lemma b64e_total_multiline pad l : let r := m_total (b64e_mealy true pad) ([], 0) l in
  r_out r = b64_multiline l /\ r_exn r = None.
Proof. rewrite ml_rest_0. apply b64e_total_multi; [lia|reflexivity]. Qed.

(* ---- hexadecimal ---- *)
Lemma hexe_total l : let r := m_total hexe_mealy tt l in r_out r = hex_text l /\ r_exn r = None.
Proof.
  induction l as [|c l IH]; intros r; [split; reflexivity|]. subst r. rewrite m_total_cons. cbn [hexe_mealy m_byte].
  fold hexe_mealy. destruct (m_total hexe_mealy tt l) as [[s2 o2] e2]. cbn [r_out r_exn fst snd] in *. destruct IH as (-> & ->). split; reflexivity.
Qed.

Definition opt_result (e : exn) (o : option bytes) (r : bytes * option exn) : Prop :=
  match o with Some x => r = (x, None) | None => snd r = Some e end.

Lemma hexd_total_gen t : forall pend, (length pend <= 1)%nat ->
  opt_result (Error Bad_encoding)
    (match text_values hex_value t with Some vs => hex_bytes (pend ++ vs) | None => None end)
    (r_out (m_total hexd_mealy pend t), r_exn (m_total hexd_mealy pend t)).
Proof.
  induction t as [|c t IH]; intros pend Hp.
  - destruct pend as [|p [|? ?]]; cbn; try reflexivity. cbn in Hp. lia.
  - rewrite m_total_cons. cbn [hexd_mealy m_byte text_values]. fold hexd_mealy.
    destruct (blank c) eqn:Eb.
    + specialize (IH pend Hp). destruct (m_total hexd_mealy pend t) as [[s2 o2] e2]. exact IH.
    + destruct (hex_value c) as [v|]; [|reflexivity].
      destruct pend as [|p [|? ?]]; [| |cbn in Hp; lia].
      * specialize (IH [v] ltac:(cbn; lia)). destruct (m_total hexd_mealy [v] t) as [[s2 o2] e2].
        cbn [r_out r_exn fst snd app] in *. destruct (text_values hex_value t); exact IH.
      * specialize (IH [] ltac:(cbn; lia)). destruct (m_total hexd_mealy [] t) as [[s2 o2] e2].
        cbn [r_out r_exn fst snd app] in *. destruct (text_values hex_value t) as [vs|]; [|exact IH].
        cbn [hex_bytes]. destruct (hex_bytes vs); unfold opt_result in *; [|exact IH]. congruence.
Qed.
Lemma hexd_total t : opt_result (Error Bad_encoding) (hex_decoded t)
    (r_out (m_total hexd_mealy [] t), r_exn (m_total hexd_mealy [] t)).
Proof. apply (hexd_total_gen t []). cbn. lia. Qed.

(* ---- base 64 decoding ---- *)
Lemma b64d_total_fin t : forall pend, (length pend <= 3)%nat ->
  opt_result (Error Bad_encoding)
    (if forallb (fun c => blank c || (c =? 61)) t then b64_bytes pend else None)
    (r_out (m_total b64d_mealy (pend, true) t), r_exn (m_total b64d_mealy (pend, true) t)).
Proof.
  induction t as [|c t IH]; intros pend Hp.
  - cbn [forallb]. unfold m_total. cbn [m_run m_then b64d_mealy m_finish]. destruct (b64_bytes pend); reflexivity.
  - rewrite m_total_cons. cbn [b64d_mealy m_byte forallb]. fold b64d_mealy. specialize (IH pend Hp).
    destruct (c =? 61) eqn:E61.
    + rewrite orb_true_r. cbn [andb]. destruct (m_total b64d_mealy (pend, true) t) as [[s2 o2] e2]. exact IH.
    + rewrite orb_false_r. destruct (blank c); cbn [andb].
      * destruct (m_total b64d_mealy (pend, true) t) as [[s2 o2] e2]. exact IH.
      * destruct (b64_value c); reflexivity.
Qed.

Lemma b64d_total_gen t : forall pend, (length pend <= 3)%nat ->
  opt_result (Error Bad_encoding)
    (if forallb (fun c => blank c || (c =? 61)) (from_eq t) then
       match text_values b64_value (before_eq t) with Some vs => b64_bytes (pend ++ vs) | None => None end
     else None)
    (r_out (m_total b64d_mealy (pend, false) t), r_exn (m_total b64d_mealy (pend, false) t)).
Proof.
  induction t as [|c t IH]; intros pend Hp.
  - cbn [forallb from_eq before_eq text_values]. rewrite app_nil_r. unfold m_total. cbn [m_run m_then b64d_mealy m_finish].
    destruct (b64_bytes pend); reflexivity.
  - cbn [from_eq before_eq]. destruct (c =? 61) eqn:E61.
    + rewrite m_total_cons. cbn [b64d_mealy m_byte]. fold b64d_mealy. rewrite E61.
      pose proof (b64d_total_fin t pend Hp) as F. cbn [text_values]. rewrite app_nil_r. cbn [forallb]. rewrite E61, orb_true_r. cbn [andb].
      destruct (m_total b64d_mealy (pend, true) t) as [[s2 o2] e2]. exact F.
    + rewrite m_total_cons. cbn [b64d_mealy m_byte text_values]. fold b64d_mealy. rewrite E61.
      destruct (blank c) eqn:Eb.
      * specialize (IH pend Hp). destruct (m_total b64d_mealy (pend, false) t) as [[s2 o2] e2]. exact IH.
      * destruct (b64_value c) as [v|]; [|destruct (forallb _ (from_eq t)); reflexivity].
        assert (D : (length pend <= 2)%nat ->
          opt_result (Error Bad_encoding)
            (if forallb (fun c => blank c || (c =? 61)) (from_eq t) then
               match match text_values b64_value (before_eq t) with Some vs => Some (v :: vs) | None => None end with
               | Some vs => b64_bytes (pend ++ vs) | None => None end else None)
            (let r := let '(sg2, o2, e2) := m_total b64d_mealy (pend ++ [v], false) t in (sg2, [] ++ o2, e2) in (r_out r, r_exn r))).
        { intros Hl. specialize (IH (pend ++ [v]) ltac:(rewrite app_length; cbn; lia)).
          destruct (m_total b64d_mealy (pend ++ [v], false) t) as [[s2 o2] e2]. cbn [app r_out r_exn fst snd] in *.
          destruct (text_values b64_value (before_eq t)) as [vs|]; [|exact IH]. rewrite <- app_assoc in IH. exact IH. }
        destruct pend as [|p0 [|p1 [|p2 [|? r]]]]; try (apply D; cbn; lia); [|cbn in Hp; lia].
        specialize (IH [] ltac:(cbn; lia)). destruct (m_total b64d_mealy ([], false) t) as [[s2 o2] e2].
        cbn [r_out r_exn fst snd app] in *.
        destruct (forallb _ (from_eq t)); [|exact IH].
        destruct (text_values b64_value (before_eq t)) as [vs|]; [|exact IH].
        cbn [b64_bytes]. destruct (b64_bytes vs); unfold opt_result in *; [|exact IH]. cbn [fst snd] in *. congruence.
Qed.
Lemma b64d_total t : opt_result (Error Bad_encoding) (b64_decoded t)
    (r_out (m_total b64d_mealy ([], false) t), r_exn (m_total b64d_mealy ([], false) t)).
Proof. apply (b64d_total_gen t []). cbn. lia. Qed.

(* ---- round trips, on the specifications ---- *)
Lemma hex_value_char n : 0 <= n < 16 -> hex_value (hex_char n) = Some n /\ blank (hex_char n) = false.
Proof.
  intros H.
  assert (G : (match hex_value (hex_char n) with Some m => m =? n | None => false end && negb (blank (hex_char n)))%bool = true).
  { revert n H. apply range_forallb with (n := 16%nat). vm_compute. reflexivity. }
  apply andb_true_iff in G. destruct G as (G1 & G2). destruct (hex_value (hex_char n)); [|discriminate].
  split; [f_equal; lia|]. destruct (blank (hex_char n)); [discriminate|reflexivity].
Qed.
Lemma b64_value_char n : 0 <= n < 64 -> b64_value (b64_char n) = Some n /\ blank (b64_char n) = false /\ (b64_char n =? 61) = false.
Proof.
  intros H.
  assert (G : (match b64_value (b64_char n) with Some m => m =? n | None => false end && negb (blank (b64_char n)) && negb (b64_char n =? 61))%bool = true).
  { revert n H. apply range_forallb with (n := 64%nat). vm_compute. reflexivity. }
  apply andb_true_iff in G. destruct G as (G1 & G3). apply andb_true_iff in G1. destruct G1 as (G1 & G2).
  destruct (b64_value (b64_char n)); [|discriminate].
  split; [f_equal; lia|]. destruct (blank (b64_char n)); [discriminate|]. destruct (b64_char n =? 61); [discriminate|]. split; reflexivity.
Qed.

(* removing the blanks of a text *)
Definition no_blank (t : bytes) : bytes := filter (fun c => negb (blank c)) t.

Lemma text_values_no_blank value t : text_values value t = text_values value (no_blank t).
Proof.
  induction t as [|c t IH]; [reflexivity|]. cbn [no_blank filter text_values]. fold (no_blank t).
  destruct (blank c) eqn:E; cbn [negb]; [exact IH|]. cbn [text_values]. rewrite E, IH. reflexivity.
Qed.
Lemma before_eq_no_blank t : no_blank (before_eq t) = before_eq (no_blank t).
Proof.
  induction t as [|c t IH]; [reflexivity|]. cbn [no_blank filter before_eq]. fold (no_blank t).
  destruct (c =? 61) eqn:E.
  - replace (blank c) with false by (unfold blank; lia). cbn [negb before_eq]. rewrite E. reflexivity.
  - cbn [filter]. fold (no_blank (before_eq t)). destruct (blank c); cbn [negb]; [exact IH|]. cbn [before_eq]. rewrite E, IH. reflexivity.
Qed.
Lemma from_eq_no_blank t : forallb (fun c => blank c || (c =? 61)) (from_eq t) = forallb (fun c => blank c || (c =? 61)) (from_eq (no_blank t)).
Proof.
  assert (G : forall t, forallb (fun c => blank c || (c =? 61)) t = forallb (fun c => blank c || (c =? 61)) (no_blank t)).
  { induction t0 as [|c r IH]; [reflexivity|]. cbn [no_blank filter forallb]. fold (no_blank r). destruct (blank c) eqn:E; cbn [negb orb andb forallb]; [exact IH|].
    rewrite E, IH. reflexivity. }
  induction t as [|c t IH]; [reflexivity|]. cbn [no_blank filter from_eq]. fold (no_blank t). destruct (c =? 61) eqn:E.
  - rewrite G. cbn [no_blank filter]. fold (no_blank t). replace (blank c) with false by (unfold blank; lia). cbn [negb from_eq]. rewrite E. reflexivity.
  - destruct (blank c) eqn:Eb; cbn [negb]; [exact IH|]. cbn [from_eq]. rewrite E. exact IH.
Qed.
Lemma b64_decoded_no_blank t : b64_decoded t = b64_decoded (no_blank t).
Proof.
  unfold b64_decoded. rewrite from_eq_no_blank, (text_values_no_blank _ (before_eq t)), before_eq_no_blank. reflexivity.
Qed.
Lemma hex_decoded_no_blank t : hex_decoded t = hex_decoded (no_blank t).
Proof. unfold hex_decoded. rewrite text_values_no_blank. reflexivity. Qed.

Lemma hex_decoded_text l : bytes_ok l -> hex_decoded (hex_text l) = Some l.
Proof.
  unfold hex_decoded. induction l as [|b l IH]; intros H; [reflexivity|].
  apply Forall_cons_iff in H. destruct H as (Hb & Hl). specialize (IH Hl). unfold byte_ok in Hb.
  cbn [hex_text flat_map app text_values]. fold (hex_text l).
  destruct (hex_value_char (b / 16) ltac:(lia)) as (-> & ->). destruct (hex_value_char (b mod 16) ltac:(lia)) as (-> & ->).
  destruct (text_values hex_value (hex_text l)) as [vs|]; [|discriminate]. cbn [hex_bytes]. rewrite IH. do 2 f_equal. lia.
Qed.

Lemma text_values_chars ds : Forall (fun d => 0 <= d < 64) ds -> text_values b64_value (map b64_char ds) = Some ds.
Proof.
  induction ds as [|d ds IH]; intros H; [reflexivity|]. apply Forall_cons_iff in H. destruct H as (Hd & H).
  cbn [map text_values]. destruct (b64_value_char d Hd) as (-> & -> & _). rewrite (IH H). reflexivity.
Qed.
Lemma before_eq_chars ds n : Forall (fun d => 0 <= d < 64) ds -> before_eq (map b64_char ds ++ repeat 61 n) = map b64_char ds.
Proof.
  induction ds as [|d ds IH]; intros H.
  - cbn [map app]. destruct n; reflexivity.
  - apply Forall_cons_iff in H. destruct H as (Hd & H). cbn [map app before_eq]. destruct (b64_value_char d Hd) as (_ & _ & ->). rewrite (IH H). reflexivity.
Qed.
Lemma from_eq_chars ds n : Forall (fun d => 0 <= d < 64) ds -> from_eq (map b64_char ds ++ repeat 61 n) = repeat 61 n.
Proof.
  induction ds as [|d ds IH]; intros H.
  - cbn [map app]. destruct n; reflexivity.
  - apply Forall_cons_iff in H. destruct H as (Hd & H). cbn [map app from_eq]. destruct (b64_value_char d Hd) as (_ & _ & ->). apply (IH H).
Qed.
Lemma b64_bytes_digits l : bytes_ok l -> b64_bytes (b64_digits l) = Some l.
Proof.
  induction l as [|a|a b|a b c l IH] using b64_digits_range3; intros H.
  - reflexivity.
  - apply Forall_cons_iff in H. destruct H as (Ha & _). unfold byte_ok in *.
    cbn [b64_digits digits4 firstn b64_bytes bytes3]. unfold group64, group24. do 2 f_equal. lia.
  - apply Forall_cons_iff in H. destruct H as (Ha & H). apply Forall_cons_iff in H. destruct H as (Hb & _). unfold byte_ok in *.
    cbn [b64_digits digits4 firstn b64_bytes bytes3]. unfold group64, group24.
    f_equal. f_equal; [lia|f_equal; lia].
  - apply Forall_cons_iff in H. destruct H as (Ha & H). apply Forall_cons_iff in H. destruct H as (Hb & H).
    apply Forall_cons_iff in H. destruct H as (Hc & H). unfold byte_ok in *. specialize (IH H).
    cbn [b64_digits digits4 app b64_bytes]. rewrite IH. unfold bytes3, group64, group24.
    f_equal. cbn [app]. f_equal; [lia|f_equal; [lia|f_equal; lia]].
Qed.
Lemma b64_decoded_text pad l : bytes_ok l -> b64_decoded (b64_text pad l) = Some l.
Proof.
  intros H. pose proof (b64_digits_range l H) as R.
  assert (E : exists n, b64_text pad l = map b64_char (b64_digits l) ++ repeat 61 n).
  { unfold b64_text. destruct pad; [eexists; reflexivity|exists 0%nat; reflexivity]. }
  destruct E as (n & ->). unfold b64_decoded. rewrite from_eq_chars, before_eq_chars, text_values_chars by exact R.
  replace (forallb _ (repeat 61 n)) with true; [apply b64_bytes_digits; exact H|].
  symmetry. apply forallb_forall. intros x Hx. apply repeat_spec in Hx. subst x. reflexivity.
Qed.

(* the multi-line text without its newlines is the padded text *)
Lemma no_blank_app a b : no_blank (a ++ b) = no_blank a ++ no_blank b.
Proof. unfold no_blank. apply filter_app. Qed.
Lemma no_blank_text pad l : bytes_ok l -> no_blank (b64_text pad l) = b64_text pad l.
Proof.
  intros H. pose proof (b64_digits_range l H) as R. unfold b64_text. rewrite no_blank_app. f_equal.
  - induction R as [|d ds Hd R IH]; [reflexivity|]. cbn [map no_blank filter]. destruct (b64_value_char d Hd) as (_ & -> & _).
    cbn [negb]. f_equal. exact IH.
  - destruct pad; [|reflexivity]. induction (b64_npad l) as [|n IH]; [reflexivity|]. cbn [repeat no_blank filter].
    change (negb (blank 61)) with true. cbn match. f_equal. exact IH.
Qed.
Lemma b64_digits_app k : forall l, (length l >= 3 * k)%nat -> b64_digits l = b64_digits (firstn (3 * k) l) ++ b64_digits (skipn (3 * k) l).
Proof.
  induction k as [|k IH]; intros l Hl; [reflexivity|]. replace (3 * S k)%nat with (S (S (S (3 * k)))) in * by lia.
  destruct l as [|a [|b [|c l]]]; cbn [length] in Hl; try lia. cbn [firstn skipn b64_digits]. rewrite <- app_assoc. f_equal. apply IH. lia.
Qed.
Lemma b64_text_app k l : (length l >= 3 * k)%nat -> b64_text true l = b64_text true (firstn (3 * k) l) ++ b64_text true (skipn (3 * k) l).
Proof.
  intros H. unfold b64_text. rewrite (b64_digits_app k l H) at 1. rewrite map_app, <- !app_assoc. f_equal.
  assert (N1 : b64_npad (firstn (3 * k) l) = 0%nat) by (unfold b64_npad, zlen; rewrite firstn_length; lia).
  assert (N2 : b64_npad (skipn (3 * k) l) = b64_npad l) by (unfold b64_npad, zlen; rewrite skipn_length; f_equal; lia).
  rewrite N1, N2. reflexivity.
Qed.
Lemma multiline_no_blank_gen n : forall l, bytes_ok l -> (length l < n)%nat -> no_blank (lines72 n l) = b64_text true l.
Proof.
  induction n as [|n IH]; intros l Hl Hn; [lia|]. cbn [lines72]. destruct (zlen l >=? 54) eqn:E.
  - assert (F1 : bytes_ok (firstn 54 l)) by (apply Forall_firstn; exact Hl).
    assert (F2 : bytes_ok (skipn 54 l)) by (apply Forall_skipn; exact Hl).
    rewrite !no_blank_app, (no_blank_text true _ F1). change (no_blank [10]) with (@nil Z). cbn [app].
    rewrite IH by (try exact F2; rewrite skipn_length; unfold zlen in E; lia).
    symmetry. apply (b64_text_app 18). unfold zlen in E. lia.
  - rewrite no_blank_app, (no_blank_text true _ Hl). destruct (zlen l >=? 3); cbn; apply app_nil_r.
Qed.
Lemma multiline_no_blank l : bytes_ok l -> no_blank (b64_multiline l) = b64_text true l.
Proof. intros H. apply multiline_no_blank_gen; [exact H|lia]. Qed.
Lemma b64_decoded_multiline l : bytes_ok l -> b64_decoded (b64_multiline l) = Some l.
Proof. intros H. rewrite b64_decoded_no_blank, multiline_no_blank by exact H. apply b64_decoded_text. exact H. Qed.
