(* Base64 and Hexa implement their transducers, and what these compute on
   whole messages. *)
From Verif Require Import Prelude PreludeFacts BufOutModel BufOut SpecTransducer SpecEnc
  TransformModel Transform TransformTotal EncModel Charwise.
Ltac Zify.zify_post_hook ::= Z.div_mod_to_equations.

Lemma range_forallb (P : Z -> bool) n : forallb P (map Z.of_nat (seq 0 n)) = true ->
  forall x, 0 <= x < Z.of_nat n -> P x = true.
Proof.
  intros H x Hx. rewrite forallb_forall in H. apply H. apply in_map_iff. exists (Z.to_nat x).
  split; [lia|]. apply in_seq. lia.
Qed.

Lemma bytes_get_ok l i : 0 <= i < zlen l -> bytes_get l i = Ret (nthZ l i).
Proof. intros H. unfold bytes_get. replace ((0 <=? i) && (i <? zlen l)) with true by lia. reflexivity. Qed.

Lemma tbl_ok n : 0 <= n < 64 -> tbl n = Ret (b64_char n).
Proof.
  intros H. unfold tbl. rewrite bytes_get_ok by exact H. f_equal.
  apply Z.eqb_eq. revert n H. apply range_forallb with (n := 64%nat). vm_compute. reflexivity.
Qed.

Lemma hextbl_ok n : 0 <= n < 16 -> bytes_get hex_conv_table n = Ret (hex_char n).
Proof.
  intros H. rewrite bytes_get_ok by exact H. f_equal.
  apply Z.eqb_eq. revert n H. apply range_forallb with (n := 16%nat). vm_compute. reflexivity.
Qed.

Lemma b64_char_byte n : 0 <= n < 64 -> byte_ok (b64_char n).
Proof. intros H. unfold byte_ok, b64_char. repeat match goal with |- context [if ?b then _ else _] => destruct b eqn:? end; lia. Qed.

(* the bit-level expressions as arithmetic *)
Lemma land3 x : Z.land x 3 = x mod 4. Proof. exact (Z.land_ones x 2 ltac:(lia)). Qed.
Lemma land15 x : Z.land x 15 = x mod 16. Proof. exact (Z.land_ones x 4 ltac:(lia)). Qed.
Lemma land63 x : Z.land x 63 = x mod 64. Proof. exact (Z.land_ones x 6 ltac:(lia)). Qed.
Lemma shr2 x : Z.shiftr x 2 = x / 4. Proof. exact (Z.shiftr_div_pow2 x 2 ltac:(lia)). Qed.
Lemma shr4 x : Z.shiftr x 4 = x / 16. Proof. exact (Z.shiftr_div_pow2 x 4 ltac:(lia)). Qed.
Lemma shr6 x : Z.shiftr x 6 = x / 64. Proof. exact (Z.shiftr_div_pow2 x 6 ltac:(lia)). Qed.
Lemma shl2 x : Z.shiftl x 2 = x * 4. Proof. exact (Z.shiftl_mul_pow2 x 2 ltac:(lia)). Qed.
Lemma shl4 x : Z.shiftl x 4 = x * 16. Proof. exact (Z.shiftl_mul_pow2 x 4 ltac:(lia)). Qed.
Lemma shl6 x : Z.shiftl x 6 = x * 64. Proof. exact (Z.shiftl_mul_pow2 x 6 ltac:(lia)). Qed.
Ltac bitarith := rewrite ?land3, ?land15, ?land63, ?shr2, ?shr4, ?shr6, ?shl2, ?shl4, ?shl6.

Lemma digits4_range v : 0 <= v < 16777216 -> Forall (fun d => 0 <= d < 64) (digits4 v).
Proof. intros H. unfold digits4. repeat constructor; lia. Qed.
Lemma group24_range a b c : byte_ok a -> byte_ok b -> byte_ok c -> 0 <= group24 a b c < 16777216.
Proof. unfold byte_ok, group24. lia. Qed.

Lemma group24_digits a b c : byte_ok a -> byte_ok b -> byte_ok c ->
  a / 4 = group24 a b c / 262144 /\ a mod 4 * 16 + b / 16 = (group24 a b c / 4096) mod 64 /\
  b mod 16 * 4 + c / 64 = (group24 a b c / 64) mod 64 /\ c mod 64 = group24 a b c mod 64.
Proof. unfold byte_ok, group24. intros. repeat split; lia. Qed.

Lemma b64_digits_range3 (P : bytes -> Prop) :
  P [] -> (forall a, P [a]) -> (forall a b, P [a; b]) ->
  (forall a b c l, P l -> P (a :: b :: c :: l)) -> forall l, P l.
Proof.
  intros H0 H1 H2 H3 l.
  assert (G : forall n l, (length l <= n)%nat -> P l).
  { induction n as [|n IH]; intros [|a [|b [|c r]]] Hn; cbn [length] in Hn; auto; try lia.
    apply H3, IH. lia. }
  apply (G (length l)). lia.
Qed.

Lemma b64_digits_range l : bytes_ok l -> Forall (fun d => 0 <= d < 64) (b64_digits l).
Proof.
  induction l as [|a|a b|a b c l IH] using b64_digits_range3; intros H; cbn [b64_digits].
  - constructor.
  - apply Forall_cons_iff in H. destruct H as (H1 & H2). unfold byte_ok in *.
    apply Forall_firstn, digits4_range, group24_range; unfold byte_ok; lia.
  - apply Forall_cons_iff in H. destruct H as (H1 & H2). apply Forall_cons_iff in H2. destruct H2 as (H2 & _). unfold byte_ok in *.
    apply Forall_firstn, digits4_range, group24_range; unfold byte_ok; lia.
  - apply Forall_cons_iff in H. destruct H as (H1 & H). apply Forall_cons_iff in H. destruct H as (H2 & H).
    apply Forall_cons_iff in H. destruct H as (H3 & H4).
    apply Forall_app. split; [apply digits4_range, group24_range; assumption|]. auto.
Qed.

Lemma b64e_group_ok l : bytes_ok l -> bytes_ok (b64e_group l).
Proof.
  intros H. unfold b64e_group. apply Forall_forall. intros x Hx. apply in_map_iff in Hx.
  destruct Hx as (d & <- & Hd). apply b64_char_byte. pose proof (b64_digits_range l H) as R.
  rewrite Forall_forall in R. apply R, Hd.
Qed.

Lemma sub_nth (l : bytes) n i : 0 <= i < n -> n <= zlen l -> nthZ l i = nthZ (sub l 0 n) i.
Proof.
  intros H1 H2. unfold nthZ, sub. cbn [Z.to_nat skipn]. rewrite nth_firstn_lt by lia. reflexivity.
Qed.

Lemma bytes_ok_repeat c n : byte_ok c -> bytes_ok (repeat c n).
Proof. intros H. induction n; [constructor|constructor; assumption]. Qed.

Lemma b64_decode_char_ok c :
  base64_decode_char c = match b64_value c with
                         | Some v => Ret v
                         | None => if blank c then Ret (-1) else Raise (Error Bad_encoding) end.
Proof.
  unfold base64_decode_char, b64_value, blank.
  destruct ((65 <=? c) && (c <=? 90)); [reflexivity|]. destruct ((97 <=? c) && (c <=? 122)); [reflexivity|].
  destruct ((48 <=? c) && (c <=? 57)); [reflexivity|]. destruct (c =? 43); [reflexivity|].
  destruct (c =? 47); [reflexivity|]. destruct ((c =? 32) || (c =? 9) || (c =? 10) || (c =? 13)); reflexivity.
Qed.

Lemma b64_value_range c v : b64_value c = Some v -> 0 <= v < 64 /\ blank c = false.
Proof.
  unfold b64_value, blank.
  repeat match goal with |- context [if ?b then _ else _] => destruct b eqn:? end; intros H; try discriminate; injection H as <-; lia.
Qed.

Lemma bd_c_ok a b c d l : 0 <= a < 64 -> 0 <= b < 64 -> 0 <= c < 64 -> 0 <= d < 64 -> l = [a; b; c; d] ->
  bd_c0 l = Ret (group64 a b c d / 65536) /\ bd_c1 l = Ret ((group64 a b c d / 256) mod 256) /\
  bd_c2 l = Ret (group64 a b c d mod 256).
Proof.
  intros Ha Hb Hc Hd ->. unfold bd_c0, bd_c1, bd_c2.
  change (bytes_get [a; b; c; d] 0) with (@Ret Z a). change (bytes_get [a; b; c; d] 1) with (@Ret Z b).
  change (bytes_get [a; b; c; d] 2) with (@Ret Z c). change (bytes_get [a; b; c; d] 3) with (@Ret Z d).
  cbn [obind]. bitarith. unfold chr.
  replace ((0 <=? a * 4 + b / 16) && (a * 4 + b / 16 <? 256)) with true by lia.
  replace ((0 <=? b mod 16 * 16 + c / 4) && (b mod 16 * 16 + c / 4 <? 256)) with true by lia.
  replace ((0 <=? c mod 4 * 64 + d) && (c mod 4 * 64 + d <? 256)) with true by lia.
  unfold group64. repeat split; f_equal; lia.
Qed.

Lemma bytes3_ok v : 0 <= v < 16777216 -> bytes_ok (bytes3 v).
Proof. intros H. unfold bytes3. repeat constructor; unfold byte_ok; lia. Qed.

Lemma group64_range a b c d : 0 <= a < 64 -> 0 <= b < 64 -> 0 <= c < 64 -> 0 <= d < 64 -> 0 <= group64 a b c d < 16777216.
Proof. unfold group64. lia. Qed.

Lemma hex_char_byte n : 0 <= n < 16 -> byte_ok (hex_char n).
Proof. intros H. unfold byte_ok, hex_char. destruct (n <? 10) eqn:?; lia. Qed.

Lemma hex_decode_char_ok c :
  hex_decode_char c = match hex_value c with
                      | Some v => Ret v
                      | None => if blank c then Ret (-1) else Raise (Error Bad_encoding) end.
Proof.
  unfold hex_decode_char, hex_value, blank.
  destruct ((48 <=? c) && (c <=? 57)); [reflexivity|]. destruct ((65 <=? c) && (c <=? 70)); [reflexivity|].
  destruct ((97 <=? c) && (c <=? 102)); [reflexivity|].
  destruct ((c =? 32) || (c =? 9) || (c =? 10) || (c =? 13)); reflexivity.
Qed.

Lemma hex_value_range c v : hex_value c = Some v -> 0 <= v < 16 /\ blank c = false.
Proof.
  unfold hex_value, blank.
  repeat match goal with |- context [if ?b then _ else _] => destruct b eqn:? end; intros H; try discriminate; injection H as <-; lia.
Qed.

Lemma lor_shl4 a b : 0 <= a < 16 -> 0 <= b < 16 -> Z.lor (Z.shiftl a 4) b = a * 16 + b.
Proof.
  intros Ha Hb.
  assert (H : forall a b, 0 <= a < 16 -> 0 <= b < 16 -> (Z.lor (Z.shiftl a 4) b =? a * 16 + b) = true).
  { intros a' b' Ha' Hb'.
    pose proof (range_forallb (fun a => forallb (fun b => Z.lor (Z.shiftl a 4) b =? a * 16 + b) (map Z.of_nat (seq 0 16))) 16) as R.
    specialize (R ltac:(vm_compute; reflexivity) a' Ha').
    exact (range_forallb _ 16 R b' Hb'). }
  specialize (H a b Ha Hb). lia.
Qed.

Section Enc.
Variable fresh : Z -> bytes.
Hypothesis fresh_len : forall n, 0 <= n -> zlen (fresh n) = n.

(* ---- base 64 encoding ---- *)
Definition b64e_rel (x : b64e) (s : bytes * Z) : Prop :=
  zlen (be_ibuf x) = 3 /\ be_ipos x = zlen (fst s) /\ zlen (fst s) <= 2 /\
  sub (be_ibuf x) 0 (be_ipos x) = fst s /\ bytes_ok (fst s) /\ be_col x = snd s.

Section B64.
Variables multiline padding : bool.
Let M := b64e_mealy multiline padding.


Lemma b64e_put_ok s sg q c : cwR b64e M b64e_rel s sg q -> byte_ok c -> room M q (m_byte M sg c) ->
  matches true (cwR b64e M b64e_rel) q (m_byte M sg c) (b64e_put_char fresh multiline s c).
Proof.
  destruct s as [x b]. destruct sg as [pend col]. intros (HR & Hi & Hq & Hqok) Hc Hf.
  cbn [fst snd] in *. destruct HR as (L3 & Hip & Hp2 & Hsub & Hpok & Hcol). cbn [fst snd] in *.
  pose proof (zlen_nonneg pend).
  unfold b64e_put_char, be_set_char. cbn [fst snd].
  rewrite bytes_set_ok by lia. cbn [bind]. unfold be_upd. cbn [fst snd be_ibuf be_ipos be_col].
  set (ib := splice (be_ibuf x) (be_ipos x) [c]) in *.
  assert (Lib : zlen ib = 3) by (unfold ib; rewrite zlen_splice; rewrite ?zlen_one; lia).
  assert (Sib : sub ib 0 (be_ipos x + 1) = pend ++ [c]) by (unfold ib; rewrite splice_1 by lia; rewrite Hsub; reflexivity).
  unfold M in Hf |- *. cbn [b64e_mealy m_byte m_st] in Hf |- *. unfold room in Hf.
  rewrite <- Hip. destruct (be_ipos x =? 2) eqn:E2.
  2:{ replace (zlen pend =? 2) with false in Hf by lia.
      replace (be_ipos x + 1 =? 3) with false by lia.
      unfold matches, r_exn, r_st, r_out. cbn [fst snd]. split; [reflexivity|]. rewrite app_nil_r.
      repeat split; cbn [fst snd be_ibuf be_ipos be_col]; try assumption; try (rewrite ?zlen_app, ?zlen_one; lia); try (apply Hi).
      apply bytes_ok_app. split; [assumption|constructor; [assumption|constructor]]. }
  replace (zlen pend =? 2) with true in Hf by lia.
  replace (be_ipos x + 1 =? 3) with true by lia.
  replace (be_ipos x + 1) with 3 in Sib by lia. rewrite sub_0_all in Sib by lia.
  destruct pend as [|b0 [|b1 [|? ?]]]; try (unfold zlen in *; cbn [length] in *; lia).
  rewrite Sib in Lib |- *. cbn [app] in Hf, Lib |- *.
  rewrite !bytes_get_ok by (rewrite Lib; lia). cbn [bind nthZ].
  change (nthZ [b0; b1; c] 0) with b0. change (nthZ [b0; b1; c] 1) with b1. change (nthZ [b0; b1; c] 2) with c.
  apply Forall_cons_iff in Hpok. destruct Hpok as (Hb0 & Hpok). apply Forall_cons_iff in Hpok. destruct Hpok as (Hb1 & _).
  pose proof (group24_range b0 b1 c Hb0 Hb1 Hc) as Hv.
  set (out := b64e_group [b0; b1; c]) in *.
  assert (Eout : [tbl (Z.shiftr b0 2); tbl (Z.shiftl (Z.land b0 3) 4 + Z.shiftr b1 4);
       tbl (Z.shiftl (Z.land b1 15) 2 + Z.shiftr c 6); tbl (Z.land c 63)] = map Ret out).
  { unfold out, b64e_group. cbn [b64_digits app map digits4].
    bitarith. unfold byte_ok in *. rewrite !tbl_ok by lia.
    destruct (group24_digits b0 b1 c Hb0 Hb1 Hc) as (-> & -> & -> & ->). reflexivity. }
  assert (Lout : zlen out = 4) by reflexivity.
  rewrite Eout.
  destruct (multiline && (col + 4 >=? 72)) eqn:Em.
  - unfold r_out in Hf. cbn [fst snd] in Hf. rewrite zlen_app, zlen_one in Hf.
    destruct (c_emit (X := b64e) fresh fresh_len b q out Hi Hq ltac:(lia)) as (b1' & b2' & A1 & A2 & A3 & A4 & A5).
    rewrite Lout in *. rewrite A1. cbn [bind]. rewrite A2. cbn [bind]. rewrite A3. cbn [fst snd be_ibuf be_ipos be_col].
    rewrite Hcol, Em.
    destruct (c_emit (X := b64e) fresh fresh_len _ _ [10] A4 A5 ltac:(rewrite zlen_app, zlen_one; lia)) as (b3 & b4 & B1 & B2 & B3 & B4 & B5).
    rewrite zlen_one in *. rewrite B1. cbn [bind].
    specialize (B2 (B64E [b0; b1; c] 0 (col + 4))). cbn [map c_sets bind] in B2.
    destruct (c_set (B64E [b0; b1; c] 0 (col + 4), b3) 0 10) as [s' [u|e| |]] eqn:Es; try discriminate.
    cbn [bind] in B2. injection B2 as ->. cbn [bind]. rewrite B3. cbn [fst snd be_ibuf be_ipos be_col].
    unfold matches, r_exn, r_st, r_out. cbn [fst snd]. split; [reflexivity|].
    rewrite app_assoc.
    repeat split; cbn [fst snd be_ibuf be_ipos be_col]; try assumption; try reflexivity; try lia; try (apply B4); try constructor.
    repeat (apply bytes_ok_app; split); try assumption.
    + apply b64e_group_ok. repeat constructor; apply Hb0 || apply Hb1 || apply Hc.
    + repeat constructor; unfold byte_ok; lia.
  - unfold r_out in Hf. cbn [fst snd] in Hf.
    destruct (c_emit (X := b64e) fresh fresh_len b q out Hi Hq ltac:(lia)) as (b1' & b2' & A1 & A2 & A3 & A4 & A5).
    rewrite Lout in *. rewrite A1. cbn [bind]. rewrite A2. cbn [bind]. rewrite A3. cbn [fst snd be_ibuf be_ipos be_col].
    rewrite Hcol, Em.
    unfold matches, r_exn, r_st, r_out. cbn [fst snd]. split; [reflexivity|].
    repeat split; cbn [fst snd be_ibuf be_ipos be_col]; try assumption; try reflexivity; try lia; try (apply A4); try constructor.
    apply bytes_ok_app; split; [assumption|].
    apply b64e_group_ok. repeat constructor; apply Hb0 || apply Hb1 || apply Hc.
Qed.


(* Bytes.fill at oend, then oend advanced *)
Lemma c_fill {X} (x : X) b q c n : 0 <= n -> bo_inv b -> bo_contents b = q -> zlen q + n <= max_string_length ->
  exists b1 b2, c_ensure fresh (x, b) n = ((x, b1), Ret tt) /\
    bytes_fill (obuf b1) (oend b1) n c = Ret b2 /\
    bo_inv (BO b2 (obeg b1) (oend b1 + n)) /\
    bo_contents (BO b2 (obeg b1) (oend b1 + n)) = q ++ repeat c (Z.to_nat n).
Proof.
  intros Hn Hi <- Hq.
  destruct (ensure_capacity_ok fresh fresh_len b n Hi ltac:(lia) Hq) as (b1 & E1 & E2 & E3 & E4).
  exists b1, (splice (obuf b1) (oend b1) (repeat c (Z.to_nat n))).
  pose proof E2 as (P1 & P2 & P3).
  split; [unfold c_ensure, on_bo; cbn [fst snd]; rewrite E1; reflexivity|].
  split; [unfold bytes_fill; replace (in_range (obuf b1) (oend b1) n) with true by (symmetry; apply in_range_true; lia); reflexivity|].
  assert (Hz : zlen (repeat c (Z.to_nat n)) = n) by (rewrite zlen_repeat; lia).
  rewrite <- E3. rewrite <- Hz at 2. rewrite <- Hz at 4. apply bo_append; [exact E2|lia|reflexivity].
Qed.

Lemma b64e_finish_ok s sg q : cwR b64e M b64e_rel s sg q -> room M q (m_finish M sg) ->
  matches true (cwR b64e M b64e_rel) q (m_finish M sg) (b64e_finish fresh multiline padding s).
Proof.
  destruct s as [x b]. destruct sg as [pend col]. intros (HR & Hi & Hq & Hqok) Hf.
  cbn [fst snd] in *. destruct HR as (L3 & Hip & Hp2 & Hsub & Hpok & Hcol). cbn [fst snd] in *.
  pose proof (zlen_nonneg pend).
  unfold M in Hf |- *. cbn [b64e_mealy m_finish m_st] in Hf |- *. unfold room, r_out in Hf. cbn [fst snd] in Hf.
  rewrite !zlen_app in Hf.
  set (eqs := if multiline || padding then repeat 61 (b64_npad pend) else []) in *.
  set (nl := if multiline && (col >? 0) then [10] else []) in *.
  assert (Heq : bytes_ok eqs) by (unfold eqs; destruct (multiline || padding); [apply bytes_ok_repeat; unfold byte_ok; lia|constructor]).
  assert (Hnl : bytes_ok nl) by (unfold nl; destruct (multiline && (col >? 0)); [repeat constructor; unfold byte_ok; lia|constructor]).
  pose proof (zlen_nonneg eqs). pose proof (zlen_nonneg nl).
  unfold b64e_finish. cbn [fst snd].
  (* first part *)
  assert (P1 : exists b', (if be_ipos x =? 1 then
      let! (s, u) := c_ensure fresh (x, b) 2 in
      let! (s, b0) := (s, bytes_get (be_ibuf (fst s)) 0) in
      let! (s, u) := c_sets s 0 [tbl (Z.shiftr b0 2); tbl (Z.shiftl (Z.land b0 3) 4)] in
      (c_adv s 2, Ret tt)
    else if be_ipos x =? 2 then
      let! (s, u) := c_ensure fresh (x, b) 3 in
      let! (s, b0) := (s, bytes_get (be_ibuf (fst s)) 0) in
      let! (s, b1) := (s, bytes_get (be_ibuf (fst s)) 1) in
      let! (s, u) := c_sets s 0
        [tbl (Z.shiftr b0 2); tbl (Z.shiftl (Z.land b0 3) 4 + Z.shiftr b1 4); tbl (Z.shiftl (Z.land b1 15) 2)] in
      (c_adv s 3, Ret tt)
    else ((x, b), Ret tt)) = ((x, b'), Ret tt) /\ bo_inv b' /\ bo_contents b' = q ++ b64e_group pend).
  { rewrite Hip. assert (HN : forall i, 0 <= i < zlen pend -> bytes_get (be_ibuf x) i = Ret (nthZ pend i)).
    { intros i Hi'. rewrite bytes_get_ok by lia. rewrite (sub_nth (be_ibuf x) (be_ipos x)) by lia. rewrite Hsub. reflexivity. }
    destruct pend as [|b0 [|b1 [|? ?]]]; try (unfold zlen in Hp2; cbn [length] in Hp2; lia).
    - exists b. cbn [zlen length Z.of_nat Z.eqb]. split; [reflexivity|]. split; [exact Hi|]. cbn. rewrite app_nil_r. exact Hq.
    - change (zlen [b0] =? 1) with true. cbn match.
      apply Forall_cons_iff in Hpok. destruct Hpok as (Hb0 & _).
      destruct (c_emit (X := b64e) fresh fresh_len b q (b64e_group [b0]) Hi Hq ltac:(lia)) as (b1' & b2' & A1 & A2 & A3 & A4 & A5).
      change (zlen (b64e_group [b0])) with 2 in *. rewrite A1. cbn [bind fst snd]. rewrite HN by (unfold zlen; cbn; lia).
      cbn [bind]. change (nthZ [b0] 0) with b0.
      assert (Eout : [tbl (Z.shiftr b0 2); tbl (Z.shiftl (Z.land b0 3) 4)] = map Ret (b64e_group [b0])).
      { unfold b64e_group. cbn [b64_digits app map digits4 firstn].
        bitarith. unfold byte_ok in *. rewrite !tbl_ok by lia.
        destruct (group24_digits b0 0 0 Hb0) as (-> & E2 & _); unfold byte_ok; try lia.
        change (0 / 16) with 0 in E2. rewrite Z.add_0_r in E2. rewrite E2. reflexivity. }
      rewrite Eout, A2. cbn [bind]. rewrite A3. eexists. split; [reflexivity|]. split; assumption.
    - change (zlen [b0; b1] =? 1) with false. change (zlen [b0; b1] =? 2) with true. cbn match.
      apply Forall_cons_iff in Hpok. destruct Hpok as (Hb0 & Hpok). apply Forall_cons_iff in Hpok. destruct Hpok as (Hb1 & _).
      destruct (c_emit (X := b64e) fresh fresh_len b q (b64e_group [b0; b1]) Hi Hq ltac:(lia)) as (b1' & b2' & A1 & A2 & A3 & A4 & A5).
      change (zlen (b64e_group [b0; b1])) with 3 in *. rewrite A1. cbn [bind fst snd]. rewrite !HN by (unfold zlen; cbn; lia).
      cbn [bind]. change (nthZ [b0; b1] 0) with b0. change (nthZ [b0; b1] 1) with b1.
      assert (Eout : [tbl (Z.shiftr b0 2); tbl (Z.shiftl (Z.land b0 3) 4 + Z.shiftr b1 4); tbl (Z.shiftl (Z.land b1 15) 2)] = map Ret (b64e_group [b0; b1])).
      { unfold b64e_group. cbn [b64_digits app map digits4 firstn].
        bitarith. unfold byte_ok in *. rewrite !tbl_ok by lia.
        destruct (group24_digits b0 b1 0 Hb0 Hb1) as (-> & -> & E2 & _); unfold byte_ok; try lia.
        change (0 / 64) with 0 in E2. rewrite Z.add_0_r in E2. rewrite E2. reflexivity. }
      rewrite Eout, A2. cbn [bind]. rewrite A3. eexists. split; [reflexivity|]. split; assumption. }
  destruct P1 as (b1 & -> & I1 & C1). cbn [bind fst snd].
  assert (P2 : exists b', (if multiline || padding then
      let num_equals := if be_ipos x =? 1 then 2 else if be_ipos x =? 2 then 1 else 0 in
      let! (s, u) := c_ensure fresh (x, b1) num_equals in
      match bytes_fill (obuf (snd s)) (oend (snd s)) num_equals 61 with
      | Ret ob => (c_adv (fst s, BO ob (obeg (snd s)) (oend (snd s))) num_equals, Ret tt)
      | Raise e => (s, Raise e) | Undef => (s, Undef) | Hang => (s, Hang)
      end
    else ((x, b1), Ret tt)) = ((x, b'), Ret tt) /\ bo_inv b' /\ bo_contents b' = (q ++ b64e_group pend) ++ eqs).
  { unfold eqs in *. destruct (multiline || padding).
    - set (n := if be_ipos x =? 1 then 2 else if be_ipos x =? 2 then 1 else 0).
      assert (En : Z.to_nat n = b64_npad pend).
      { unfold b64_npad. f_equal. unfold n. rewrite Hip. assert (zlen pend = 0 \/ zlen pend = 1 \/ zlen pend = 2) as [->|[->| ->]] by lia; reflexivity. }
      assert (Hn : 0 <= n) by (unfold n; destruct (be_ipos x =? 1); [lia|]; destruct (be_ipos x =? 2); lia).
      rewrite zlen_repeat, <- En in *.
      destruct (c_fill x b1 _ 61 n Hn I1 C1) as (b2 & b3 & -> & F2 & F3 & F4); [rewrite zlen_app; lia|].
      cbn [bind fst snd]. rewrite F2. unfold c_adv. cbn [fst snd obuf obeg oend].
      eexists. split; [reflexivity|]. split; assumption.
    - exists b1. rewrite app_nil_r. auto. }
  destruct P2 as (b2 & P2 & I2 & C2). cbv zeta in P2. rewrite P2. clear P2. cbn [bind fst snd].
  assert (P3 : exists b', (if multiline && (be_col x >? 0) then
      let! (s, u) := c_ensure fresh (x, b2) 1 in
      let! (s, u) := c_set s 0 10 in
      (c_adv s 1, Ret tt)
    else ((x, b2), Ret tt)) = ((x, b'), Ret tt) /\ bo_inv b' /\ bo_contents b' = ((q ++ b64e_group pend) ++ eqs) ++ nl).
  { unfold nl in *. rewrite Hcol. destruct (multiline && (col >? 0)).
    - rewrite zlen_one in *.
      destruct (c_emit (X := b64e) fresh fresh_len _ _ [10] I2 C2 ltac:(rewrite !zlen_app, zlen_one; lia)) as (b3 & b4 & B1 & B2 & B3 & B4 & B5).
      rewrite zlen_one in *. rewrite B1. cbn [bind].
      specialize (B2 x). cbn [map c_sets bind] in B2.
      destruct (c_set (x, b3) 0 10) as [s' [u|e| |]] eqn:Es; try discriminate.
      cbn [bind] in B2. injection B2 as ->. cbn [bind]. rewrite B3. eexists. split; [reflexivity|]. split; assumption.
    - exists b2. rewrite app_nil_r. auto. }
  destruct P3 as (b3 & -> & I3 & C3). cbn [bind fst snd]. unfold be_upd. cbn [fst snd be_ibuf be_ipos be_col].
  unfold matches, r_exn, r_st, r_out. cbn [fst snd]. split; [reflexivity|].
  rewrite !app_assoc.
  repeat split; cbn [fst snd be_ibuf be_ipos be_col]; try assumption; try apply I3.
  repeat (apply bytes_ok_app; split); try assumption. apply b64e_group_ok. assumption.
Qed.

Theorem b64e_implements : implements true (base64_encode fresh multiline padding) M (std_fits M 0) (cwR b64e M b64e_rel).
Proof.
  apply charwise_implements.
  - apply b64e_put_ok.
  - intros s sg q c HR Hc Hf. unfold put_byte_chr. unfold byte_ok in Hc.
    replace ((0 <=? c) && (c <? 256)) with true by lia. apply b64e_put_ok; assumption.
  - intros. unfold matches, r_exn. cbn. eauto.
  - apply b64e_finish_ok.
Qed.

Lemma b64e_new_R : cwR b64e M b64e_rel (base64_encode_new fresh) ([], 0) [].
Proof.
  unfold base64_encode_new, cwR, b64e_rel. cbn [fst snd be_ibuf be_ipos be_col].
  repeat split; try constructor; try lia; try (apply fresh_len; lia); try (unfold zlen; cbn [length]; lia);
  apply bo_new_inv; try assumption; unfold max_string_length; lia.
Qed.
End B64.

(* ---- base 64 decoding ---- *)
Definition b64d_rel (x : b64d) (s : list Z * bool) : Prop :=
  zlen (bd_ibuf x) = 4 /\ bd_ipos x = zlen (fst s) /\ zlen (fst s) <= 3 /\
  sub (bd_ibuf x) 0 (bd_ipos x) = fst s /\ Forall (fun d => 0 <= d < 64) (fst s) /\ bd_fin x = snd s.




Lemma b64d_put_ok s sg q c : cwR b64d b64d_mealy b64d_rel s sg q -> byte_ok c -> room b64d_mealy q (m_byte b64d_mealy sg c) ->
  matches true (cwR b64d b64d_mealy b64d_rel) q (m_byte b64d_mealy sg c) (b64d_put_char fresh s c).
Proof.
  destruct s as [x b]. destruct sg as [pend fin]. intros (HR & Hi & Hq & Hqok) Hc Hf.
  cbn [fst snd] in *. destruct HR as (L4 & Hip & Hp3 & Hsub & Hpok & Hfin). cbn [fst snd] in *.
  pose proof (zlen_nonneg pend).
  unfold b64d_put_char. cbn [b64d_mealy m_byte m_st] in Hf |- *. unfold room in Hf.
  destruct (c =? 61) eqn:E61.
  { unfold bd_upd, matches, r_exn, r_st, r_out. cbn [fst snd]. split; [reflexivity|]. rewrite app_nil_r.
    repeat split; cbn [fst snd bd_ibuf bd_ipos bd_fin]; try assumption; apply Hi. }
  rewrite b64_decode_char_ok. pose proof (b64_value_range c) as HV.
  destruct (b64_value c) as [v|].
  2:{ destruct (blank c); cbn [bind].
      - change (-1 >=? 0) with false. unfold matches, r_exn, r_st, r_out. cbn [fst snd]. split; [reflexivity|]. rewrite app_nil_r.
        repeat split; try assumption; apply Hi.
      - unfold matches, r_exn. cbn [snd]. eauto. }
  destruct (HV v eq_refl) as (Hv & Hb). rewrite Hb in *. cbn [bind]. replace (v >=? 0) with true by lia.
  cbn [fst snd]. rewrite Hfin. destruct fin; [unfold matches, r_exn; cbn [snd]; eauto|].
  unfold bd_set. cbn [fst snd]. rewrite bytes_set_ok by lia. cbn [bind]. unfold bd_upd. cbn [fst snd bd_ibuf bd_ipos bd_fin].
  set (ib := splice (bd_ibuf x) (bd_ipos x) [v]) in *.
  assert (Lib : zlen ib = 4) by (unfold ib; rewrite zlen_splice; rewrite ?zlen_one; lia).
  assert (Sib : sub ib 0 (bd_ipos x + 1) = pend ++ [v]) by (unfold ib; rewrite splice_1 by lia; rewrite Hsub; reflexivity).
  destruct (bd_ipos x =? 3) eqn:E3.
  2:{ replace (bd_ipos x + 1 =? 4) with false by lia.
      assert (Hm : forall A (y z : A), match pend with [_; _; _] => y | _ => z end = z).
      { intros. destruct pend as [|? [|? [|? [|? ?]]]]; try reflexivity. exfalso. unfold zlen in *. cbn [length] in *. lia. }
      assert (Hm' : match pend with
                | [a; b0; d] => ([], false, bytes3 (group64 a b0 d v), None)
                | _ => (pend ++ [v], false, [], @None exn) end = (pend ++ [v], false, [], None)).
      { destruct pend as [|? [|? [|? [|? ?]]]]; try reflexivity. exfalso. unfold zlen in *. cbn [length] in *. lia. }
      rewrite Hm' in *.
      unfold matches, r_exn, r_st, r_out. cbn [fst snd]. split; [reflexivity|]. rewrite app_nil_r.
      repeat split; cbn [fst snd bd_ibuf bd_ipos bd_fin]; try assumption; try (rewrite ?zlen_app, ?zlen_one; lia); try (apply Hi).
      apply Forall_app. split; [assumption|constructor; [lia|constructor]]. }
  replace (bd_ipos x + 1 =? 4) with true by lia.
  replace (bd_ipos x + 1) with 4 in * by lia. rewrite sub_0_all in Sib by lia.
  destruct pend as [|p0 [|p1 [|p2 [|? ?]]]]; try (unfold zlen in *; cbn [length] in *; lia).
  rewrite Sib in Lib |- *. cbn [app] in Lib |- *.
  apply Forall_cons_iff in Hpok. destruct Hpok as (H0 & Hpok). apply Forall_cons_iff in Hpok. destruct Hpok as (H1 & Hpok).
  apply Forall_cons_iff in Hpok. destruct Hpok as (H2 & _).
  destruct (bd_c_ok p0 p1 p2 v [p0; p1; p2; v] H0 H1 H2 Hv eq_refl) as (E0 & E1 & E2).
  unfold r_out in Hf. cbn [fst snd] in Hf.
  destruct (c_emit (X := b64d) fresh fresh_len b q (bytes3 (group64 p0 p1 p2 v)) Hi Hq ltac:(lia)) as (b1' & b2' & A1 & A2 & A3 & A4 & A5).
  change (zlen (bytes3 (group64 p0 p1 p2 v))) with 3 in *.
  rewrite A1. cbn [bind fst snd bd_ibuf]. rewrite E0, E1, E2.
  change [Ret (group64 p0 p1 p2 v / 65536); Ret ((group64 p0 p1 p2 v / 256) mod 256); Ret (group64 p0 p1 p2 v mod 256)]
    with (map (@Ret Z) (bytes3 (group64 p0 p1 p2 v))).
  rewrite A2. cbn [bind]. rewrite A3. cbn [fst snd bd_ibuf bd_fin].
  unfold matches, r_exn, r_st, r_out. cbn [fst snd]. split; [reflexivity|].
  repeat split; cbn [fst snd bd_ibuf bd_ipos bd_fin]; try assumption; try reflexivity; try lia; try (apply A4); try constructor.
  apply bytes_ok_app; split; [assumption|]. apply bytes3_ok, group64_range; assumption.
Qed.

Lemma b64d_finish_ok s sg q : cwR b64d b64d_mealy b64d_rel s sg q -> room b64d_mealy q (m_finish b64d_mealy sg) ->
  matches true (cwR b64d b64d_mealy b64d_rel) q (m_finish b64d_mealy sg) (b64d_finish fresh s).
Proof.
  destruct s as [x b]. destruct sg as [pend fin]. intros (HR & Hi & Hq & Hqok) Hf.
  cbn [fst snd] in *. destruct HR as (L4 & Hip & Hp3 & Hsub & Hpok & Hfin). cbn [fst snd] in *.
  unfold b64d_finish. cbn [b64d_mealy m_finish m_st] in Hf |- *. unfold room in Hf. unfold bd_upd. cbn [fst snd bd_ibuf bd_ipos bd_fin].
  rewrite Hip.
  assert (RR : forall b' q', bo_inv b' -> bo_contents b' = q' -> bytes_ok q' ->
     cwR b64d b64d_mealy b64d_rel (B64D (bd_ibuf x) (zlen pend) true, b') (pend, true) q').
  { intros. repeat split; cbn [fst snd bd_ibuf bd_ipos bd_fin]; try assumption; try apply H; try (rewrite <- Hip; assumption). }
  assert (HN : forall i, 0 <= i < zlen pend -> bytes_get (bd_ibuf x) i = Ret (nthZ pend i)).
  { intros i Hi'. rewrite bytes_get_ok by lia. rewrite (sub_nth (bd_ibuf x) (bd_ipos x)) by lia. rewrite Hsub. reflexivity. }
  destruct pend as [|p0 [|p1 [|p2 [|? ?]]]].
  - cbn [b64_bytes] in *. change (zlen (@nil Z) =? 1) with false. change (zlen (@nil Z) =? 2) with false. change (zlen (@nil Z) =? 3) with false.
    unfold matches, r_exn, r_st, r_out. cbn [fst snd]. split; [reflexivity|]. rewrite app_nil_r. apply RR; assumption.
  - change (zlen [p0] =? 1) with true. cbn [b64_bytes]. unfold matches, r_exn. cbn [snd]. eauto.
  - change (zlen [p0; p1] =? 1) with false. change (zlen [p0; p1] =? 2) with true.
    apply Forall_cons_iff in Hpok. destruct Hpok as (H0 & Hpok). apply Forall_cons_iff in Hpok. destruct Hpok as (H1 & Hpok).
    cbn [b64_bytes] in *. unfold r_out in Hf. cbn [fst snd] in Hf.
    destruct (bd_c_ok p0 p1 0 0 [p0; p1; 0; 0] H0 H1 ltac:(lia) ltac:(lia) eq_refl) as (E0 & E1 & E2).
    set (l := firstn 1 (bytes3 (group64 p0 p1 0 0))) in *.
    destruct (c_emit (X := b64d) fresh fresh_len b q l Hi Hq ltac:(lia)) as (b1' & b2' & A1 & A2 & A3 & A4 & A5).
    change (zlen l) with 1 in *. rewrite A1. cbn [bind fst snd bd_ibuf].
    assert (E : bd_c0 (bd_ibuf x) = bd_c0 [p0; p1; 0; 0]).
    { unfold bd_c0. rewrite !HN by (unfold zlen; cbn; lia). reflexivity. }
    rewrite E, E0. change [Ret (group64 p0 p1 0 0 / 65536)] with (map (@Ret Z) l). rewrite A2. cbn [bind]. rewrite A3.
    unfold matches, r_exn, r_st, r_out. cbn [fst snd]. split; [reflexivity|]. apply RR; try assumption.
    apply bytes_ok_app; split; [assumption|]. apply Forall_firstn, bytes3_ok, group64_range; lia.
  - change (zlen [p0; p1; p2] =? 1) with false. change (zlen [p0; p1; p2] =? 2) with false. change (zlen [p0; p1; p2] =? 3) with true.
    apply Forall_cons_iff in Hpok. destruct Hpok as (H0 & Hpok). apply Forall_cons_iff in Hpok. destruct Hpok as (H1 & Hpok).
    apply Forall_cons_iff in Hpok. destruct Hpok as (H2 & _).
    cbn [b64_bytes] in *. unfold r_out in Hf. cbn [fst snd] in Hf.
    destruct (bd_c_ok p0 p1 p2 0 [p0; p1; p2; 0] H0 H1 H2 ltac:(lia) eq_refl) as (E0 & E1 & E2).
    set (l := firstn 2 (bytes3 (group64 p0 p1 p2 0))) in *.
    destruct (c_emit (X := b64d) fresh fresh_len b q l Hi Hq ltac:(lia)) as (b1' & b2' & A1 & A2 & A3 & A4 & A5).
    change (zlen l) with 2 in *. rewrite A1. cbn [bind fst snd bd_ibuf].
    assert (E : bd_c0 (bd_ibuf x) = bd_c0 [p0; p1; p2; 0] /\ bd_c1 (bd_ibuf x) = bd_c1 [p0; p1; p2; 0]).
    { unfold bd_c0, bd_c1. rewrite !HN by (unfold zlen; cbn; lia). split; reflexivity. }
    destruct E as (-> & ->). rewrite E0, E1.
    change [Ret (group64 p0 p1 p2 0 / 65536); Ret ((group64 p0 p1 p2 0 / 256) mod 256)] with (map (@Ret Z) l). rewrite A2. cbn [bind]. rewrite A3.
    unfold matches, r_exn, r_st, r_out. cbn [fst snd]. split; [reflexivity|]. apply RR; try assumption.
    apply bytes_ok_app; split; [assumption|]. apply Forall_firstn, bytes3_ok, group64_range; lia.
  - exfalso. unfold zlen in Hp3. cbn [length] in Hp3. lia.
Qed.

Theorem b64d_implements : implements true (base64_decode fresh) b64d_mealy (std_fits b64d_mealy 0) (cwR b64d b64d_mealy b64d_rel).
Proof.
  apply charwise_implements.
  - apply b64d_put_ok.
  - intros s sg q c HR Hc Hf. unfold put_byte_chr. unfold byte_ok in Hc.
    replace ((0 <=? c) && (c <? 256)) with true by lia. apply b64d_put_ok; assumption.
  - intros. unfold matches, r_exn. cbn. eauto.
  - apply b64d_finish_ok.
Qed.

Lemma b64d_new_R : cwR b64d b64d_mealy b64d_rel (base64_decode_new fresh) ([], false) [].
Proof.
  unfold base64_decode_new, cwR, b64d_rel. cbn [fst snd bd_ibuf bd_ipos bd_fin].
  repeat split; try constructor; try lia; try (unfold zlen; cbn [length]; lia);
  apply bo_new_inv; try assumption; unfold max_string_length; lia.
Qed.

(* ---- hexadecimal ---- *)
Definition hexe_rel (x : unit) (s : unit) : Prop := True.

Lemma hexe_put_ok s sg q c : cwR unit hexe_mealy hexe_rel s sg q -> byte_ok c -> room hexe_mealy q (m_byte hexe_mealy sg c) ->
  matches true (cwR unit hexe_mealy hexe_rel) q (m_byte hexe_mealy sg c) (hexe_put_byte fresh s c).
Proof.
  destruct s as [x b]. intros (HR & Hi & Hq & Hqok) Hc Hf. cbn [fst snd] in *. unfold room in Hf.
  unfold hexe_put_byte. cbn [hexe_mealy m_byte m_st] in Hf |- *. unfold r_out in Hf. cbn [fst snd] in Hf.
  set (l := [hex_char (c / 16); hex_char (c mod 16)]) in *.
  destruct (c_emit (X := unit) fresh fresh_len b q l Hi Hq ltac:(lia)) as (b1' & b2' & A1 & A2 & A3 & A4 & A5).
  change (zlen l) with 2 in *. rewrite A1. cbn [bind].
  unfold byte_ok in Hc.
  assert (E : [bytes_get hex_conv_table (lsr63 c 4); bytes_get hex_conv_table (Z.land c 15)] = map Ret l).
  { unfold lsr63. rewrite Z.mod_small by lia. bitarith. rewrite !hextbl_ok by lia. reflexivity. }
  rewrite E, A2. cbn [bind]. rewrite A3.
  unfold matches, r_exn, r_st, r_out. cbn [fst snd]. split; [reflexivity|].
  repeat split; cbn [fst snd]; try assumption; try (apply A4).
  apply bytes_ok_app; split; [assumption|]. repeat constructor; apply hex_char_byte; lia.
Qed.

Theorem hexe_implements : implements true (hexa_encode fresh) hexe_mealy (std_fits hexe_mealy 0) (cwR unit hexe_mealy hexe_rel).
Proof.
  apply charwise_implements; try apply hexe_put_ok;
  (intros s sg q HR Hf; unfold matches, r_exn, r_st, r_out; cbn [hexe_mealy m_flush m_finish fst snd nop]; rewrite app_nil_r; split; [reflexivity|exact HR]).
Qed.
Lemma hexe_new_R : cwR unit hexe_mealy hexe_rel (hexa_encode_new fresh) tt [].
Proof.
  unfold hexa_encode_new, cwR, hexe_rel. cbn [fst snd].
  repeat split; try constructor; apply bo_new_inv; try assumption; unfold max_string_length; lia.
Qed.

Definition hexd_rel (x : hexd) (s : list Z) : Prop :=
  zlen (hd_ibuf x) = 2 /\ hd_ipos x = zlen s /\ zlen s <= 1 /\
  sub (hd_ibuf x) 0 (hd_ipos x) = s /\ Forall (fun d => 0 <= d < 16) s.


Lemma hexd_put_ok s sg q c : cwR hexd hexd_mealy hexd_rel s sg q -> byte_ok c -> room hexd_mealy q (m_byte hexd_mealy sg c) ->
  matches true (cwR hexd hexd_mealy hexd_rel) q (m_byte hexd_mealy sg c) (hexd_put_char fresh s c).
Proof.
  destruct s as [x b]. intros (HR & Hi & Hq & Hqok) Hc Hf. cbn [fst snd] in *.
  destruct HR as (L2 & Hip & Hp1 & Hsub & Hpok). cbn [fst snd] in *. rename sg into pend.
  unfold hexd_put_char. cbn [hexd_mealy m_byte m_st] in Hf, pend |- *. unfold room in Hf. pose proof (zlen_nonneg pend).
  rewrite hex_decode_char_ok. pose proof (hex_value_range c) as HV.
  destruct (hex_value c) as [v|].
  2:{ destruct (blank c); cbn [bind].
      - change (-1 >=? 0) with false. unfold matches, r_exn, r_st, r_out. cbn [fst snd]. split; [reflexivity|]. rewrite app_nil_r.
        repeat split; try assumption; apply Hi.
      - unfold matches, r_exn. cbn [snd]. eauto. }
  destruct (HV v eq_refl) as (Hv & Hb). rewrite Hb in *. cbn [bind]. replace (v >=? 0) with true by lia.
  unfold hd_set. cbn [fst snd]. rewrite bytes_set_ok by lia. cbn [bind]. unfold hd_upd. cbn [fst snd hd_ibuf hd_ipos].
  set (ib := splice (hd_ibuf x) (hd_ipos x) [v]) in *.
  assert (Lib : zlen ib = 2) by (unfold ib; rewrite zlen_splice; rewrite ?zlen_one; lia).
  assert (Sib : sub ib 0 (hd_ipos x + 1) = pend ++ [v]) by (unfold ib; rewrite splice_1 by lia; rewrite Hsub; reflexivity).
  destruct pend as [|p0 [|? ?]].
  - replace (hd_ipos x + 1 =? 2) with false by (unfold zlen in Hip; cbn [length] in Hip; lia).
    unfold matches, r_exn, r_st, r_out. cbn [fst snd]. split; [reflexivity|]. rewrite app_nil_r. cbn [app] in Sib.
    unfold zlen in Hip; cbn [length] in Hip.
    repeat split; cbn [fst snd hd_ibuf hd_ipos]; try assumption; try (rewrite ?zlen_one; lia); try (apply Hi).
    constructor; [lia|constructor].
  - replace (hd_ipos x + 1 =? 2) with true by (unfold zlen in Hip; cbn [length] in Hip; lia).
    replace (hd_ipos x + 1) with 2 in * by (unfold zlen in Hip; cbn [length] in Hip; lia). rewrite sub_0_all in Sib by lia.
    rewrite Sib in Lib |- *. cbn [app] in Lib |- *. apply Forall_cons_iff in Hpok. destruct Hpok as (H0 & _).
    unfold r_out in Hf. cbn [fst snd] in Hf.
    destruct (c_emit (X := hexd) fresh fresh_len b q [p0 * 16 + v] Hi Hq ltac:(lia)) as (b1' & b2' & A1 & A2 & A3 & A4 & A5).
    rewrite zlen_one in *. rewrite A1. cbn [bind fst snd hd_ibuf].
    assert (E : hd_c [p0; v] = Ret (p0 * 16 + v)).
    { unfold hd_c. change (bytes_get [p0; v] 0) with (@Ret Z p0). change (bytes_get [p0; v] 1) with (@Ret Z v). cbn [obind].
      rewrite lor_shl4 by assumption. unfold chr. replace ((0 <=? p0 * 16 + v) && (p0 * 16 + v <? 256)) with true by lia. reflexivity. }
    rewrite E. change [Ret (p0 * 16 + v)] with (map (@Ret Z) [p0 * 16 + v]). rewrite A2. cbn [bind]. rewrite A3.
    cbn [fst snd hd_ibuf hd_ipos].
    unfold matches, r_exn, r_st, r_out. cbn [fst snd]. split; [reflexivity|].
    repeat split; cbn [fst snd hd_ibuf hd_ipos]; try assumption; try reflexivity; try lia; try (apply A4); try constructor.
    apply bytes_ok_app; split; [assumption|]. repeat constructor; unfold byte_ok; lia.
  - exfalso. unfold zlen in Hp1. cbn [length] in Hp1. lia.
Qed.

Lemma hexd_end_ok er s sg q (M := hexd_mealy) : cwR hexd M hexd_rel s sg q ->
  matches true (cwR hexd M hexd_rel) q
    (match sg with [] => (sg, [], None) | _ => (sg, [], Some er) end)
    (if negb (hd_ipos (fst s) =? 0) then (s, Raise er) else (s, Ret tt)).
Proof.
  intros HR. pose proof HR as ((L2 & Hip & Hp1 & Hsub & Hpok) & _). rewrite Hip. cbn [hexd_mealy M m_st] in sg.
  destruct sg as [|p0 [|? ?]].
  - change (negb (zlen (@nil Z) =? 0)) with false. unfold matches, r_exn, r_st, r_out. cbn [fst snd].
    rewrite app_nil_r. split; [reflexivity|exact HR].
  - change (negb (zlen [p0] =? 0)) with true. unfold matches, r_exn. cbn [snd]. eauto.
  - exfalso. unfold zlen in Hp1. cbn [length] in Hp1. lia.
Qed.

Theorem hexd_implements : implements true (hexa_decode fresh) hexd_mealy (std_fits hexd_mealy 0) (cwR hexd hexd_mealy hexd_rel).
Proof.
  apply charwise_implements.
  - apply hexd_put_ok.
  - intros s sg q c HR Hc Hf. unfold put_byte_chr. unfold byte_ok in Hc.
    replace ((0 <=? c) && (c <? 256)) with true by lia. apply hexd_put_ok; assumption.
  - intros s sg q HR _. apply hexd_end_ok. exact HR.
  - intros s sg q HR _. apply hexd_end_ok. exact HR.
Qed.
Lemma hexd_new_R : cwR hexd hexd_mealy hexd_rel (hexa_decode_new fresh) [] [].
Proof.
  unfold hexa_decode_new, cwR, hexd_rel. cbn [fst snd hd_ibuf hd_ipos].
  repeat split; try constructor; try lia; try (unfold zlen; cbn [length]; lia);
  apply bo_new_inv; try assumption; unfold max_string_length; lia.
Qed.
End Enc.
