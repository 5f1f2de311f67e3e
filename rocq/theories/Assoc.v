(* Proof of C107. *)
From Verif Require Import Prelude PreludeFacts SpecTransducer TransformModel CipherModel Lawful EncApi LibTransform SpecWipe SpecAssoc.

Section Any.
Variables T1 T2 T3 : transform.
Notation L := (compose (compose T1 T2) T3).
Notation R := (compose T1 (compose T2 T3)).
Lemma step_same w (s1 : t_st T1) (s2 : t_st T2) (s3 : t_st T3) : not_end w = true ->
  exists s1' s2' s3' ob, w_step L ((s1, s2), s3) w = (((s1', s2'), s3'), ob) /\ w_step R (s1, (s2, s3)) w = ((s1', (s2', s3')), ob).
Proof.
  intros Hw. destruct w as [o|]; [destruct o; try discriminate Hw|]; cbn [w_step t_step]; unfold compose, comp_transfer, on1, on2, unit_obs, int_obs, bytes_obs, substring_obs;
  cbn [t_st t_put_substring t_put_string t_put_char t_put_byte t_available t_get_string t_get_substring t_get_char t_get_byte t_wipe fst snd bind];
  repeat (match goal with
  | |- context [match ?r with pair _ _ => _ end] => destruct r as [? ?]
  | |- context [bind (?a, ?b) _] => destruct b as [?|?| |] eqn:?
  | |- context [t_put_substring T1 s1 ?b ?o ?l] => destruct (t_put_substring T1 s1 b o l) as [? [[]|?| |]]
  | |- context [t_put_string T1 s1 ?b] => destruct (t_put_string T1 s1 b) as [? [[]|?| |]]
  | |- context [t_put_char T1 s1 ?b] => destruct (t_put_char T1 s1 b) as [? [[]|?| |]]
  | |- context [t_put_byte T1 s1 ?b] => destruct (t_put_byte T1 s1 b) as [? [[]|?| |]]
  | |- context [t_get_substring T1 ?a] => destruct (t_get_substring T1 a) as [? [[[? ?] ?]|?| |]]
  | |- context [t_put_substring T2 s2 ?b ?o ?l] => destruct (t_put_substring T2 s2 b o l) as [? [[]|?| |]]
  | |- context [t_get_substring T2 ?a] => destruct (t_get_substring T2 a) as [? [[[? ?] ?]|?| |]]
  | |- context [t_wipe T1 ?a] => destruct (t_wipe T1 a) as [? [[]|?| |]]
  | |- context [t_wipe T2 ?a] => destruct (t_wipe T2 a) as [? [[]|?| |]]
  end; cbn [fst snd bind]); do 4 eexists; split; reflexivity.
Qed.
Theorem any_same l : forall s1 s2 s3, forallb not_end l = true -> snd (w_run L ((s1, s2), s3) l) = snd (w_run R (s1, (s2, s3)) l).
Proof.
  induction l as [|w l IH]; intros s1 s2 s3 Hl; [reflexivity|]. cbn [forallb] in Hl. apply andb_prop in Hl. destruct Hl as (Hw & Hl).
  destruct (step_same w s1 s2 s3 Hw) as (a & b & c & ob & E1 & E2). cbn [w_run]. rewrite E1, E2. specialize (IH a b c Hl).
  destruct (w_run L (a, b, c) l) as [x1 y1], (w_run R (a, (b, c)) l) as [x2 y2]. cbn [snd] in *. now rewrite IH.
Qed.
End Any.

Section Lib.
Variable fresh : Z -> bytes.
Hypothesis fresh_len : forall n, 0 <= n -> zlen (fresh n) = n.
Lemma lib_out o K A msg r : lib_transform fresh o K A -> bytes_ok msg -> K * zlen msg + 2 * A <= max_string_length -> run_string o msg = Ret r ->
  zlen r <= K * zlen msg + 2 * A /\ bytes_ok r.
Proof.
  intros H Hok Hl Hr. destruct (lib_lawful fresh fresh_len o K A H) as (st & M & sg & HL).
  pose proof (lawful_string st o M sg K A HL msg Hok Hl) as E. pose proof (lawful_total_bound st o M sg K A HL msg Hok) as B.
  destruct (r_exn (m_total M sg msg)); [destruct E as (e' & E & _); congruence|]. rewrite E in Hr. injection Hr as <-. now apply B.
Qed.
Lemma lib_pos o K A : lib_transform fresh o K A -> 1 <= K /\ 0 <= A.
Proof. intros H. destruct (lib_lawful fresh fresh_len o K A H) as (st & M & sg & F & R & OK & HI & G & _). pose proof (g_KA _ _ _ _ _ G). lia. Qed.
Variables (o1 o2 o3 : tobj) (K1 A1 K2 A2 K3 A3 : Z) (msg : bytes).
Hypothesis H1 : lib_transform fresh o1 K1 A1.
Hypothesis H2 : lib_transform fresh o2 K2 A2.
Hypothesis H3 : lib_transform fresh o3 K3 A3.
Hypothesis Hok : bytes_ok msg.
Hypothesis Hl : K1 * K2 * K3 * zlen msg + 8 * (K2 * K3 * A1 + K3 * A2 + A3) <= max_string_length.
Notation L := (composed (composed o1 o2) o3).
Notation R := (composed o1 (composed o2 o3)).
Lemma sizes : (K1 * K2) * K3 * zlen msg + 2 * (K3 * (K2 * A1 + 2 * A2) + 2 * A3) <= max_string_length /\
  K1 * (K2 * K3) * zlen msg + 2 * ((K2 * K3) * A1 + 2 * (K3 * A2 + 2 * A3)) <= max_string_length /\
  K1 * K2 * zlen msg + 2 * (K2 * A1 + 2 * A2) <= max_string_length /\
  K1 * zlen msg + 2 * A1 <= max_string_length /\
  forall n, 0 <= n <= K1 * zlen msg + 2 * A1 -> K2 * K3 * n + 2 * (K3 * A2 + 2 * A3) <= max_string_length.
Proof.
  destruct (lib_pos _ _ _ H1), (lib_pos _ _ _ H2), (lib_pos _ _ _ H3). pose proof (zlen_nonneg msg) as Hz. revert Hl Hz. generalize (zlen msg). clear Hok. intros z Hl Hz.
  assert (Ha : 0 <= K1 * K2 * z) by nia. assert (Hb : 0 <= K2 * A1) by nia. assert (Hb' : 0 <= K2 * K3 * A1) by nia. assert (Hc : 0 <= K3 * A2) by nia.
  assert (Hd : K1 * K2 * z <= K1 * K2 * K3 * z) by nia. assert (He : K2 * A1 <= K2 * K3 * A1) by nia. assert (Hf : A2 <= K3 * A2) by nia.
  assert (Hg : K1 * z <= K1 * K2 * z) by nia. assert (Hh : A1 <= K2 * A1) by nia.
  repeat apply conj; try lia. intros n Hn. assert (Hj : K2 * K3 * n <= K2 * K3 * (K1 * z + 2 * A1)) by (apply Z.mul_le_mono_nonneg_l; nia).
  replace (K2 * K3 * (K1 * z + 2 * A1)) with (K1 * K2 * K3 * z + 2 * (K2 * K3 * A1)) in Hj by ring. lia.
Qed.
Lemma left_ret r : run_string L msg = Ret r <-> exists r1 r2, run_string o1 msg = Ret r1 /\ run_string o2 r1 = Ret r2 /\ run_string o3 r2 = Ret r.
Proof.
  destruct sizes as (S1 & S2 & S3 & S4 & S5).
  rewrite (proj1 (lib_compose_string fresh fresh_len (composed o1 o2) _ _ o3 K3 A3 msg (LT_compose fresh _ _ _ _ _ _ H1 H2) H3 Hok S1) r). split.
  - intros (r2 & E & E3). apply (proj1 (lib_compose_string fresh fresh_len o1 K1 A1 o2 K2 A2 msg H1 H2 Hok S3)) in E. destruct E as (r1 & E1 & E2). exists r1, r2. auto.
  - intros (r1 & r2 & E1 & E2 & E3). exists r2. split; [|exact E3]. apply (proj1 (lib_compose_string fresh fresh_len o1 K1 A1 o2 K2 A2 msg H1 H2 Hok S3)). exists r1. auto.
Qed.
Lemma right_ret r : run_string R msg = Ret r <-> exists r1 r2, run_string o1 msg = Ret r1 /\ run_string o2 r1 = Ret r2 /\ run_string o3 r2 = Ret r.
Proof.
  destruct sizes as (S1 & S2 & S3 & S4 & S5).
  assert (Q : forall r1, run_string o1 msg = Ret r1 -> bytes_ok r1 /\ K2 * K3 * zlen r1 + 2 * (K3 * A2 + 2 * A3) <= max_string_length).
  { intros r1 E1. destruct (lib_out o1 K1 A1 msg r1 H1 Hok S4 E1) as (B1 & B2). split; [exact B2|]. apply S5. pose proof (zlen_nonneg r1). lia. }
  rewrite (proj1 (lib_compose_string fresh fresh_len o1 K1 A1 (composed o2 o3) _ _ msg H1 (LT_compose fresh _ _ _ _ _ _ H2 H3) Hok S2) r). split.
  - intros (r1 & E1 & E). destruct (Q r1 E1) as (Q1 & Q2). apply (proj1 (lib_compose_string fresh fresh_len o2 K2 A2 o3 K3 A3 r1 H2 H3 Q1 Q2)) in E. destruct E as (r2 & E2 & E3). exists r1, r2. auto.
  - intros (r1 & r2 & E1 & E2 & E3). destruct (Q r1 E1) as (Q1 & Q2). exists r1. split; [exact E1|]. apply (proj1 (lib_compose_string fresh fresh_len o2 K2 A2 o3 K3 A3 r1 H2 H3 Q1 Q2)). exists r2. auto.
Qed.
Theorem lib_assoc : (exists r, whole L msg (Ret r) /\ whole R msg (Ret r)) \/ (exists e e', run_string L msg = Raise e /\ run_string R msg = Raise e').
Proof.
  destruct sizes as (S1 & S2 & S3 & S4 & S5).
  pose proof (LT_compose fresh _ _ _ _ _ _ (LT_compose fresh _ _ _ _ _ _ H1 H2) H3) as HL. pose proof (LT_compose fresh _ _ _ _ _ _ H1 (LT_compose fresh _ _ _ _ _ _ H2 H3)) as HR.
  destruct (proj2 (lib_compose_string fresh fresh_len (composed o1 o2) _ _ o3 K3 A3 msg (LT_compose fresh _ _ _ _ _ _ H1 H2) H3 Hok S1)) as [[r E]|[e E]].
  - left. exists r. split; [exact (lib_whole fresh fresh_len _ _ _ msg r HL Hok S1 E)|]. apply (lib_whole fresh fresh_len _ _ _ msg r HR Hok S2). apply right_ret. now apply left_ret.
  - right. destruct (proj2 (lib_compose_string fresh fresh_len o1 K1 A1 (composed o2 o3) _ _ msg H1 (LT_compose fresh _ _ _ _ _ _ H2 H3) Hok S2)) as [[r E']|[e' E']].
    + exfalso. apply right_ret in E'. apply left_ret in E'. rewrite E' in E. discriminate E.
    + exists e, e'. auto.
Qed.
End Lib.
