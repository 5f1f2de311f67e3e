(* Consequences about the shape of encoded texts. *)
From Verif Require Import Prelude PreludeFacts SpecTransducer TransformModel CipherModel CipherSpec CipherApi EncModel SpecEnc EncLawful EncTotal EncApi Toy.
Ltac Zify.zify_post_hook ::= Z.div_mod_to_equations.

Lemma b64_decoded_blanks pad msg t : bytes_ok msg -> no_blank t = b64_text pad msg -> b64_decoded t = Some msg.
Proof. intros Hok H. rewrite b64_decoded_no_blank, H. apply b64_decoded_text. exact Hok. Qed.

(* "====", "AAAA=", "AA=", "AB==" *)
Definition illformed : list bytes := [[61; 61; 61; 61]; [65; 65; 65; 65; 61]; [65; 65; 61]; [65; 66; 61; 61]].
Lemma b64_illformed : exists ts, length ts = 4%nat /\ forall t, In t ts ->
  (exists r, run_string (base64_decode_obj toy_fresh) t = Ret r) /\
  ~ exists pad msg, bytes_ok msg /\ b64_text pad msg = no_blank t.
Proof.
  exists illformed. split; [reflexivity|]. intros t Ht.
  assert (A : exists r, b64_decoded t = Some r /\ b64_text true r <> no_blank t /\ b64_text false r <> no_blank t /\
     run_string (base64_decode_obj toy_fresh) t = Ret r).
  { unfold illformed in Ht. cbn [In] in Ht. repeat destruct Ht as [<-|Ht]; try contradiction;
      (eexists; split; [reflexivity|]; split; [vm_compute; discriminate|]; split; [vm_compute; discriminate|vm_compute; reflexivity]). }
  destruct A as (r & A1 & A2 & A3 & A4). split; [exists r; exact A4|].
  intros (pad & msg & Hok & H). pose proof (b64_decoded_blanks pad msg t Hok ltac:(symmetry; exact H)) as E.
  rewrite A1 in E. injection E as ->. destruct pad; contradiction.
Qed.

Lemma multiline_not_76 : exists msg l1 l2,
  run_string (base64_encode_obj toy_fresh true true) msg = Ret (l1 ++ [10] ++ l2) /\ ~ In 10 l1 /\ zlen l1 <> 76 /\ 0 < zlen l2.
Proof.
  exists (zeros 55), (repeat 65 72), [65; 65; 61; 61]. split; [vm_compute; reflexivity|].
  split; [intros H; apply repeat_spec in H; discriminate|]. split; [vm_compute; discriminate|reflexivity].
Qed.

Lemma b64_digits_len n : forall l, (length l <= n)%nat -> zlen (b64_digits l) = (4 * zlen l + 2) / 3.
Proof.
  induction n as [|n IH]; intros l Hl.
  - destruct l; [reflexivity|cbn in Hl; lia].
  - destruct l as [|a [|b [|c l]]]; try reflexivity. cbn [b64_digits]. rewrite zlen_app, (IH l) by (cbn in Hl; lia).
    change (zlen (digits4 (group24 a b c))) with 4. rewrite !zlen_cons. lia.
Qed.
Lemma zlen_map {A B} (f : A -> B) l : zlen (map f l) = zlen l.
Proof. unfold zlen. rewrite map_length. reflexivity. Qed.
Lemma b64_text_len l : zlen (b64_text true l) = (zlen l + 2) / 3 * 4.
Proof.
  unfold b64_text. rewrite zlen_app, zlen_map, (b64_digits_len (length l) l) by lia.
  unfold b64_npad. unfold zlen at 2. rewrite repeat_length. pose proof (zlen_nonneg l). lia.
Qed.
Lemma b64_text_no_newline l : bytes_ok l -> Forall (fun c => c <> 10) (b64_text true l).
Proof.
  intros Hok. pose proof (no_blank_text true l Hok) as H. rewrite <- H. apply Forall_forall. intros c Hc ->.
  unfold no_blank in Hc. apply filter_In in Hc. destruct Hc as (_ & Hc). discriminate Hc.
Qed.

Lemma lines72_layout n : forall l, (length l < n)%nat -> bytes_ok l ->
  exists lines last fin, lines72 n l = concat (map (fun l => l ++ [10]) lines) ++ last ++ fin /\
    concat lines ++ last = b64_text true l /\
    Forall (fun l => zlen l = 72) lines /\ zlen last <= 72 /\ (fin = [] \/ fin = [10]) /\
    (fin = [] <-> zlen l mod 54 < 3).
Proof.
  induction n as [|n IH]; intros l Hn Hok; [lia|]. cbn [lines72]. destruct (zlen l >=? 54) eqn:E.
  - assert (L : (54 <= length l)%nat) by (unfold zlen in E; lia).
    destruct (IH (skipn 54 l)) as (lines & last & fin & H1 & H2 & H3 & H4 & H5 & H6); [rewrite skipn_length; lia|apply Forall_skipn; exact Hok|].
    assert (LF : zlen (firstn 54 l) = 54) by (unfold zlen; rewrite firstn_length; lia).
    assert (LS : zlen (skipn 54 l) = zlen l - 54) by (unfold zlen; rewrite skipn_length; lia).
    exists (b64_text true (firstn 54 l) :: lines), last, fin. split; [|split; [|split; [|split; [exact H4|split; [exact H5|]]]]].
    + cbn [map concat]. rewrite H1, <- !app_assoc. reflexivity.
    + cbn [concat]. rewrite <- app_assoc, H2. symmetry. apply (b64_text_app 18). lia.
    + constructor; [rewrite b64_text_len, LF; reflexivity|exact H3].
    + rewrite H6, LS. lia.
  - exists [], (b64_text true l), (if zlen l >=? 3 then [10] else []). cbn [map concat app].
    pose proof (zlen_nonneg l). split; [reflexivity|]. split; [reflexivity|]. split; [constructor|].
    split; [rewrite b64_text_len; lia|]. destruct (zlen l >=? 3) eqn:E3; split; [right; reflexivity| |left; reflexivity|].
    + split; [discriminate|lia].
    + split; [lia|reflexivity].
Qed.

Lemma multiline_layout fresh : (forall n, 0 <= n -> zlen (fresh n) = n) ->
  forall msg, bytes_ok msg -> 2 * zlen msg + 18 <= max_string_length ->
  exists lines last fin, whole (base64_encode_obj fresh true true) msg (Ret (concat (map (fun l => l ++ [10]) lines) ++ last ++ fin)) /\
    concat lines ++ last = b64_text true msg /\
    Forall (fun l => zlen l = 72) lines /\ zlen last <= 72 /\ (fin = [] \/ fin = [10]) /\
    Forall (fun c => c <> 10) (concat lines ++ last) /\
    (fin = [] <-> zlen msg mod 54 < 3).
Proof.
  intros fresh_len msg Hok Hsz. destruct (lines72_layout (S (length msg)) msg ltac:(lia) Hok) as (lines & last & fin & H1 & H2 & H3 & H4 & H5 & H6).
  exists lines, last, fin. rewrite <- H1.
  split; [exact (base64_encode_whole fresh fresh_len true true msg Hok Hsz)|].
  split; [exact H2|]. split; [exact H3|]. split; [exact H4|]. split; [exact H5|].
  split; [rewrite H2; apply b64_text_no_newline; exact Hok|exact H6].
Qed.

Lemma hex_value_iff c : (exists v, hex_value c = Some v) <-> 48 <= c <= 57 \/ 65 <= c <= 70 \/ 97 <= c <= 102.
Proof.
  unfold hex_value. split.
  - intros (v & H). destruct ((48 <=? c) && (c <=? 57)) eqn:E1; [lia|].
    destruct ((65 <=? c) && (c <=? 70)) eqn:E2; [lia|]. destruct ((97 <=? c) && (c <=? 102)) eqn:E3; [lia|discriminate].
  - intros H. destruct ((48 <=? c) && (c <=? 57)) eqn:E1; [eauto|].
    destruct ((65 <=? c) && (c <=? 70)) eqn:E2; [eauto|]. destruct ((97 <=? c) && (c <=? 102)) eqn:E3; [eauto|lia].
Qed.

Lemma text_values_iff t : (exists vs, text_values hex_value t = Some vs) <->
  Forall (fun c => blank c = true \/ 48 <= c <= 57 \/ 65 <= c <= 70 \/ 97 <= c <= 102) t.
Proof.
  induction t as [|c t IH]; [split; [constructor|eexists; reflexivity]|]. rewrite Forall_cons_iff, <- IH. cbn [text_values].
  destruct (blank c) eqn:B; [split; [intros H; auto|intros (_ & H); exact H]|]. rewrite <- hex_value_iff. split.
  - intros (vs & H). destruct (hex_value c); [|discriminate]. destruct (text_values hex_value t); [|discriminate]. eauto.
  - intros ([H|(v & ->)] & (vs & ->)); [discriminate|eauto].
Qed.
Lemma text_values_len value t : forall vs, text_values value t = Some vs -> zlen vs = zlen (no_blank t).
Proof.
  induction t as [|c t IH]; intros vs H; cbn [text_values] in H; [injection H as <-; reflexivity|].
  unfold no_blank. cbn [filter]. fold (no_blank t). destruct (blank c); cbn [negb]; [auto|].
  destruct (value c); [|discriminate]. destruct (text_values value t) as [vs'|]; [|discriminate]. injection H as <-.
  rewrite !zlen_cons, (IH vs'); reflexivity.
Qed.
Lemma hex_bytes_iff n : forall l, (length l <= n)%nat -> (exists r, hex_bytes l = Some r) <-> zlen l mod 2 = 0.
Proof.
  induction n as [|n IH]; intros l Hl.
  - destruct l; [|cbn in Hl; lia]. split; [reflexivity|eexists; reflexivity].
  - destruct l as [|a [|b l]]; [split; [reflexivity|eexists; reflexivity]|split; [intros (r & H); discriminate|discriminate]|].
    rewrite !zlen_cons. cbn [hex_bytes]. specialize (IH l ltac:(cbn in Hl; lia)).
    assert (E : (zlen l + 1 + 1) mod 2 = zlen l mod 2) by lia. rewrite ?E. replace (1 + (1 + zlen l)) with (zlen l + 1 + 1) by lia. rewrite E, <- IH. split.
    + intros (r & H). destruct (hex_bytes l); [eauto|discriminate].
    + intros (r & ->). eauto.
Qed.
Lemma hex_accepts_iff t :
  (exists r, hex_decoded t = Some r) <->
  Forall (fun c => blank c = true \/ 48 <= c <= 57 \/ 65 <= c <= 70 \/ 97 <= c <= 102) t /\
  zlen (no_blank t) mod 2 = 0.
Proof.
  unfold hex_decoded. rewrite <- text_values_iff. split.
  - intros (r & H). destruct (text_values hex_value t) as [vs|] eqn:E; [|discriminate]. split; [eauto|].
    rewrite <- (text_values_len _ _ _ E). apply (hex_bytes_iff (length vs)); eauto.
  - intros ((vs & E) & H). rewrite E. rewrite <- (text_values_len _ _ _ E) in H. apply (hex_bytes_iff (length vs)); auto.
Qed.
