(* Proof of C106. *)
From Verif Require Import Prelude SpecTransducer BufOutModel TransformModel HashModel HashSpec BlockModel CipherModel MacModel SharedModel SpecShared
  AesModel AesniModel DesModel BlowfishModel WipeHash.

Definition good_lens {S K} (l : lens S K) : Prop :=
  (forall s k, l_get l (l_put l s k) = k) /\ (forall s, l_put l s (l_get l s) = s) /\ (forall s a b, l_put l (l_put l s a) b = l_put l s b).
Lemma good_in {A B K} (f : lens A B) (g : lens B K) : good_lens f -> good_lens g -> good_lens (lens_in f g).
Proof.
  intros (F1 & F2 & F3) (G1 & G2 & G3). repeat split; intros; cbn.
  - now rewrite F1, G1.
  - now rewrite G2, F2.
  - now rewrite F1, F3, G3.
Qed.
Lemma good_self {K} : good_lens (@at_self K). Proof. repeat split. Qed.
Lemma good_mode C : good_lens (at_mode C). Proof. repeat split; intros; destruct s; reflexivity. Qed.
Lemma good_cipher C : good_lens (at_cipher C). Proof. repeat split; intros; destruct s; reflexivity. Qed.
Lemma good_mac C : good_lens (at_mac C). Proof. repeat split; intros; destruct s; reflexivity. Qed.
Lemma good_fst {A B} : good_lens (@at_fst A B). Proof. repeat split; intros; destruct s; reflexivity. Qed.
Lemma good_snd {A B} : good_lens (@at_snd A B). Proof. repeat split; intros; destruct s; reflexivity. Qed.

(* a computation on a state that leaves f of it unchanged *)
Definition keeps {S K A} (f : S -> K) (k : K) (r : S * out A) : Prop := f (fst r) = k.
Lemma keeps_bind {S K A B} (f : S -> K) k (r : S * out A) (g : S -> A -> S * out B) :
  keeps f k r -> (forall s a, f s = k -> keeps f k (g s a)) -> keeps f k (let! (s, a) := r in g s a).
Proof. intros H G. destruct r as [s [a|e| |]]; cbn [bind]; [now apply G| | |]; exact H. Qed.

Section Modes.
Context {K : Type} (C : block_cipher) (g : bc_st C -> K).
Definition bkeeps := forall s src so dst d, g (fst (fst (bc_transform C s src so dst d))) = g s.
Hypothesis HC : bkeeps.
Definition gm (s : mode_st C * bytes) : K := g (ms_c (fst s)).
Lemma k_iv k s r : gm s = k -> keeps gm k (to_iv C s r). Proof. intros H. destruct r; exact H. Qed.
Lemma k_tmp k s r : gm s = k -> keeps gm k (to_tmp C s r). Proof. intros H. destruct r; exact H. Qed.
Lemma k_dst k s r : gm s = k -> keeps gm k (to_dst C s r). Proof. intros H. destruct r; exact H. Qed.
Lemma k_c1 k s src so d : gm s = k -> keeps gm k (c_transform_dst C s src so d). Proof. intros H. unfold keeps, gm. cbn. rewrite HC. exact H. Qed.
Lemma k_c2 k s : gm s = k -> keeps gm k (c_transform_iv_tmp C s). Proof. intros H. unfold keeps, gm. cbn. rewrite HC. exact H. Qed.
Lemma k_c3 k s : gm s = k -> keeps gm k (c_transform_iv_iv C s). Proof. intros H. unfold keeps, gm. cbn. rewrite HC. exact H. Qed.
Lemma mode_keeps_of (f : mode_st C -> bytes -> Z -> bytes -> Z -> (mode_st C * bytes) * out unit) :
  (forall s src so dst d, keeps gm (g (ms_c s)) (f s src so dst d)) -> forall s src so dst d, g (ms_c (fst (fst (f s src so dst d)))) = g (ms_c s).
Proof. intros H s src so dst d. exact (H s src so dst d). Qed.
End Modes.
Ltac kk := repeat (apply keeps_bind; [|let s := fresh "s" in let a := fresh "a" in let H := fresh "H" in intros s a H]);
  try (first [apply k_iv | apply k_tmp | apply k_dst | apply k_c1 | apply k_c2 | apply k_c3]; first [assumption | reflexivity]).
Lemma modes_keep {K} C (g : bc_st C -> K) n : bkeeps C g ->
  bkeeps (cbc_encrypt C) (fun s => g (ms_c s)) /\ bkeeps (cbc_decrypt C) (fun s => g (ms_c s)) /\ bkeeps (cfb_encrypt C n) (fun s => g (ms_c s)) /\
  bkeeps (cfb_decrypt C n) (fun s => g (ms_c s)) /\ bkeeps (ofb C n) (fun s => g (ms_c s)) /\ bkeeps (ctr C n) (fun s => g (ms_c s)).
Proof.
  intros HC. repeat apply conj.
  all: match goal with |- bkeeps ?M _ => refine (mode_keeps_of C g (bc_transform M) _) end; intros s src so dst d; cbn [bc_transform cbc_encrypt cbc_decrypt cfb_encrypt cfb_decrypt ofb ctr]; kk.
  cbn zeta. destruct (_ =? 0); assumption.
Qed.

Lemma keeps_unit_obs {S K} (f : S -> K) k (r : S * out unit) : keeps f k r -> f (fst (unit_obs r)) = k.
Proof. intros H. destruct r as [s [a|e| |]]; exact H. Qed.
Lemma keeps_bytes_obs {S K} (f : S -> K) k (r : S * out bytes) : keeps f k r -> f (fst (bytes_obs r)) = k.
Proof. intros H. destruct r as [s [a|e| |]]; exact H. Qed.
Section Cipher.
Context {K : Type} (fresh : Z -> bytes) (C : block_cipher) (g : bc_st C -> K).
Hypothesis HC : bkeeps C g.
Definition gc (s : cs C) : K := g (c_c C s).
Lemma k_ibuf k s r : gc s = k -> keeps gc k (to_ibuf C s r). Proof. intros H. destruct r; exact H. Qed.
Lemma k_bo {A} k s (r : bo * out A) : gc s = k -> keeps gc k (lift (set_bo C s) r). Proof. intros H. destruct r as [b [a|e| |]]; exact H. Qed.
Lemma k_block k s : gc s = k -> keeps gc k (process_block fresh C s).
Proof.
  intros H. unfold process_block. apply keeps_bind; [now apply k_bo|]. intros s1 u H1. apply keeps_bind; [|intros s2 u2 H2; exact H2].
  unfold keeps, gc. cbn. rewrite HC. exact H1.
Qed.
Lemma k_put f : forall k s src ofs len, gc s = k -> keeps gc k (put_loop fresh C f s src ofs len).
Proof.
  induction f as [|f IH]; intros k s src ofs len H; cbn [put_loop]; [exact H|].
  destruct (len <=? 0); [exact H|]. destruct (_ <=? _).
  - apply keeps_bind; [now apply k_ibuf|]. intros s1 u H1. exact H1.
  - cbn zeta. apply keeps_bind; [now apply k_ibuf|]. intros s1 u H1. apply keeps_bind; [now apply k_block|]. intros s2 u2 H2. apply IH. exact H2.
Qed.
Lemma k_char k s c : gc s = k -> keeps gc k (cipher_put_char fresh C s c).
Proof.
  intros H. unfold cipher_put_char. destruct (_ <? _).
  - apply keeps_bind; [now apply k_ibuf|]. intros s1 u H1. exact H1.
  - apply keeps_bind; [now apply k_block|]. intros s1 u H1. apply keeps_bind; [now apply k_ibuf|]. intros s2 u2 H2. exact H2.
Qed.
Lemma k_flush k s : gc s = k -> keeps gc k (cipher_flush fresh C s).
Proof. intros H. unfold cipher_flush. destruct (_ =? 0); [exact H|]. destruct (_ =? _); [|exact H]. apply keeps_bind; [now apply k_block|]. intros s1 u H1. exact H1. Qed.
Lemma k_pad p k s : gc s = k -> keeps gc k (padded_encrypt_finish fresh C p s).
Proof.
  intros H. unfold padded_encrypt_finish. apply keeps_bind.
  - destruct (_ >=? _); [|exact H]. apply keeps_bind; [now apply k_block|]. intros s1 u H1. exact H1.
  - intros s1 u H1. apply keeps_bind; [now apply k_ibuf|]. intros s2 u2 H2. now apply k_block.
Qed.
Lemma k_strip p k s : gc s = k -> keeps gc k (padded_decrypt_finish fresh C p s).
Proof.
  intros H. unfold padded_decrypt_finish. destruct (negb _); [exact H|]. cbn zeta. apply keeps_bind; [unfold keeps, gc; cbn; rewrite HC; exact H|].
  intros s1 u H1. apply keeps_bind; [exact H1|]. intros s2 v H2. apply keeps_bind; [now apply k_bo|]. intros s3 u3 H3. apply keeps_bind; [exact H3|]. intros s4 ob H4. exact H4.
Qed.
Lemma k_step fin o s : (forall k s, gc s = k -> keeps gc k (fin s)) -> gc (fst (t_step (cipher_with_finish fresh C fin) s o)) = gc s.
Proof.
  intros Hf. destruct o; cbn [t_step cipher_with_finish t_put_substring t_put_string t_put_char t_put_byte t_flush t_finish t_available t_get_string t_get_substring t_get_char t_get_byte];
  try (apply (keeps_unit_obs gc); first [apply k_put | apply k_char | apply k_flush | apply Hf]; reflexivity); try reflexivity.
  all: match goal with |- context [lift ?p ?r] => pose proof (k_bo (gc s) s r eq_refl) as H; destruct (lift p r) as [s' [x|e| |]]; try destruct x as [[? ?] ?] end; exact H.
Qed.
Lemma k_call fin c s : (forall k s, gc s = k -> keeps gc k (fin s)) -> wiping c = false -> gc (fst (tr_call (cipher_with_finish fresh C fin) s c)) = gc s.
Proof. intros Hf. destruct c; cbn [wiping tr_call]; intros H; [now apply k_step|reflexivity|reflexivity|discriminate]. Qed.
End Cipher.

Section Mac.
Context {K : Type} (C : block_cipher) (g : bc_st C -> K).
Hypothesis HC : bkeeps C g.
Definition gh (s : mst C) : K := g (mc_c s).
Lemma k_buf k s r : gh s = k -> keeps gh k (m_to_buf C s r). Proof. intros H. destruct r; exact H. Qed.
Lemma k_mt k s : gh s = k -> keeps gh k (m_transform C s). Proof. intros H. unfold keeps, gh, m_transform. cbn. rewrite HC. exact H. Qed.
Lemma k_mb k s : gh s = k -> keeps gh k (m_block C s).
Proof. intros H. unfold m_block. apply keeps_bind; [now apply k_buf|]. intros s1 u H1. now apply k_mt. Qed.
Lemma k_add f : forall k s src ofs len, gh s = k -> keeps gh k (m_add C f s src ofs len).
Proof.
  induction f as [|f IH]; intros k s src ofs len H; cbn [m_add]; [exact H|].
  destruct (len <=? 0); [exact H|]. destruct (_ <=? _).
  - apply keeps_bind; [now apply k_buf|]. intros s1 u H1. exact H1.
  - cbn zeta. apply keeps_bind; [now apply k_buf|]. intros s1 u H1. apply keeps_bind; [now apply k_mb|]. intros s2 u2 H2. apply IH. exact H2.
Qed.
Lemma k_mchar k s c : gh s = k -> keeps gh k (mac_add_char C s c).
Proof.
  intros H. unfold mac_add_char. destruct (_ <? _).
  - apply keeps_bind; [now apply k_buf|]. intros s1 u H1. exact H1.
  - apply keeps_bind; [now apply k_mb|]. intros s1 u H1. apply keeps_bind; [now apply k_buf|]. intros s2 u2 H2. exact H2.
Qed.
Lemma k_result p k s : gh s = k -> keeps gh k (mac_result C p s).
Proof.
  intros H. unfold mac_result. apply keeps_bind.
  - destruct (_ =? _); [|exact H]. apply keeps_bind; [now apply k_mb|]. intros s1 u H1. exact H1.
  - intros s1 u H1. apply keeps_bind; [|intros s2 u2 H2; exact H2]. destruct p as [p|].
    + apply keeps_bind; [now apply k_buf|]. intros s2 u2 H2. apply keeps_bind; [now apply k_mb|]. intros s3 u3 H3. exact H3.
    + destruct (negb _); exact H1.
Qed.
Lemma k_cresult k1 k2 k s : gh s = k -> keeps gh k (cmac_result C k1 k2 s).
Proof.
  intros H. unfold cmac_result. cbn zeta. apply keeps_bind; [destruct (_ =? _); [exact H|now apply k_buf]|].
  intros s1 u H1. apply keeps_bind; [now apply k_buf|]. intros s2 u2 H2. apply keeps_bind; [now apply k_buf|]. intros s3 u3 H3.
  apply keeps_bind; [now apply k_mt|]. intros s4 u4 H4. exact H4.
Qed.
Lemma k_hstep p o s : gh (fst (unit_obs (h_step (mac C p) s o))) = gh s.
Proof. apply (keeps_unit_obs gh). destruct o; cbn [h_step mac mac_with h_add_substring h_add_string h_add_char h_add_byte]; first [apply k_add | apply k_mchar]; reflexivity. Qed.
Lemma k_lift {S A} (f : S -> K) (put : mst C -> S) k (r : mst C * out A) : (forall m, f (put m) = gh m) -> keeps gh k r -> keeps f k (lift put r).
Proof. intros Hp H. destruct r as [m [a|e| |]]; unfold keeps in *; cbn in *; now rewrite Hp. Qed.
End Mac.

(* ---- classes that use C0 ---- *)
Definition lawful (C0 : block_cipher) (cl : client (bc_st C0)) : Prop :=
  (forall s k, cl_get cl (cl_put cl s k) = k) /\ (forall s, cl_put cl s (cl_get cl s) = s) /\ (forall s a b, cl_put cl (cl_put cl s a) b = cl_put cl s b) /\
  forall s c, cl_get cl (fst (cl_call cl s c)) = if wiping c then bc_wipe C0 (cl_get cl s) else cl_get cl s.
Lemma over_ok C0 C l : stateless C0 -> over C0 C l -> good_lens l /\ bkeeps C (l_get l) /\ forall s, l_get l (bc_wipe C s) = bc_wipe C0 (l_get l s).
Proof.
  intros H0 HO. induction HO.
  1: { split; [apply good_self|]. split; [exact H0|reflexivity]. }
  all: destruct IHHO as (G & B & W).
  all: split; [exact (good_in _ _ (good_mode C) G)|].
  all: split; [|intros s; exact (W (ms_c s))].
  - exact (proj1 (modes_keep C (l_get l) 0 B)).
  - exact (proj1 (proj2 (modes_keep C (l_get l) 0 B))).
  - exact (proj1 (proj2 (proj2 (modes_keep C (l_get l) n B)))).
  - exact (proj1 (proj2 (proj2 (proj2 (modes_keep C (l_get l) n B))))).
  - exact (proj1 (proj2 (proj2 (proj2 (proj2 (modes_keep C (l_get l) n B)))))).
  - exact (proj2 (proj2 (proj2 (proj2 (proj2 (modes_keep C (l_get l) n B)))))).
Qed.
Lemma lawful_of C0 S (call : S -> SharedModel.call -> S * obs) (l : lens S (bc_st C0)) : good_lens l ->
  (forall s c, l_get l (fst (call s c)) = if wiping c then bc_wipe C0 (l_get l s) else l_get l s) -> lawful C0 (Client S call (l_get l) (l_put l)).
Proof. intros (G1 & G2 & G3) H. repeat split; assumption. Qed.
Lemma lawful_cipher fresh C0 C l fin : stateless C0 -> over C0 C l ->
  (forall k s, gc C (l_get l) s = k -> keeps (gc C (l_get l)) k (fin s)) ->
  lawful C0 (tr_client (cipher_with_finish fresh C fin) (lens_in (at_cipher C) l)).
Proof.
  intros H0 HO Hf. destruct (over_ok C0 C l H0 HO) as (G & B & W). apply lawful_of; [exact (good_in _ _ (good_cipher C) G)|].
  intros s c. destruct (wiping c) eqn:Ec.
  - destruct c; try discriminate Ec. exact (W (c_c C s)).
  - exact (k_call fresh C (l_get l) B fin c s Hf Ec).
Qed.
Section Triple.
Context {K : Type} (C1 C2 C3 : block_cipher).
Notation St := (mst C1 * bc_st C2 * bc_st C3)%type.
(* what is kept is in one of the three places *)
Lemma k_triple (f : St -> K) p c s :
  (forall (s : St) (m : mst C1) A (r : mst C1 * out A), f (fst (lift (fun m => (m, snd (fst s), snd s)) r)) = f (fst r, snd (fst s), snd s)) ->
  (forall s o, f (fst (h_step (mac C1 p) (fst (fst s)) o), snd (fst s), snd s) = f s) ->
  (forall s, f (fst (mac_result C1 p (fst (fst s))), snd (fst s), snd s) = f s) ->
  (forall (s : St) a b c d, f (fst (fst s), fst (fst (bc_transform C2 (snd (fst s)) a b c d)), snd s) = f s) ->
  (forall (s : St) a b c d, f (fst s, fst (fst (bc_transform C3 (snd s) a b c d))) = f s) ->
  wiping c = false -> f (fst (h_call (mac_final_triple C1 C2 C3 p) s c)) = f s.
Proof.
  intros L S1 S2 S3 S4 Hc. destruct c as [o|o| |]; [reflexivity| | |discriminate Hc]; cbn [h_call].
  - apply (keeps_unit_obs f). destruct o; cbn [h_step mac_final_triple h_add_substring h_add_string h_add_char h_add_byte]; unfold keeps, t_on_mac; rewrite L by exact (fst (fst s)).
    + exact (S1 s (HSub src ofs len)).
    + exact (S1 s (HString s0)).
    + exact (S1 s (HChar c)).
    + exact (S1 s (HByte n)).
  - apply (keeps_bytes_obs f). cbn [h_result mac_final_triple]. unfold triple_result. apply keeps_bind.
    + unfold keeps, t_on_mac. rewrite L by exact (fst (fst s)). apply S2.
    + intros s1 r H1. cbn zeta. apply keeps_bind; [unfold keeps; cbn [fst]; rewrite S3; exact H1|]. intros s2 r2 H2. unfold keeps. cbn [fst]. rewrite S4. exact H2.
Qed.
End Triple.
Lemma uses_lawful fresh C0 cl : stateless C0 -> uses fresh C0 cl -> lawful C0 cl.
Proof.
  intros H0 HU. destruct HU as [C l HO|C l p HO|C l p HO|C l p HO|C l HO|C l C2 C3 p HO|C1 C l C3 p HO|C1 C2 C l p HO]; destruct (over_ok C0 C l H0 HO) as (G & B & W).
  - apply lawful_cipher; [assumption..|]. intros k s. now apply k_flush.
  - apply lawful_cipher; [assumption..|]. intros k s. now apply k_pad.
  - apply lawful_cipher; [assumption..|]. intros k s. now apply k_strip.
  - apply lawful_of; [exact (good_in _ _ (good_mac C) G)|]. intros s c. destruct c as [o|o| |]; cbn [wiping].
    + reflexivity.
    + exact (k_hstep C (l_get l) B p o s).
    + apply (keeps_bytes_obs (gh C (l_get l))). now apply k_result.
    + exact (W (mc_c s)).
  - apply lawful_of; [exact (good_in _ _ good_fst (good_in _ _ (good_mac C) G))|]. intros s c. destruct c as [o|o| |]; cbn [wiping].
    + reflexivity.
    + apply (keeps_unit_obs (fun s => gh C (l_get l) (fst s))).
      destruct o; cbn [h_step cmac h_add_substring h_add_string h_add_char h_add_byte]; unfold c_on; (apply (k_lift C (l_get l)); [reflexivity|]); first [apply k_add | apply k_mchar]; try assumption; reflexivity.
    + apply (keeps_bytes_obs (fun s => gh C (l_get l) (fst s))). cbn [h_result cmac]. unfold c_on. apply (k_lift C (l_get l)); [reflexivity|]. apply k_cresult; [assumption|reflexivity].
    + exact (W (mc_c (fst s))).
  - apply lawful_of; [exact (good_in _ _ good_fst (good_in _ _ good_fst (good_in _ _ (good_mac C) G)))|]. intros s c. destruct (wiping c) eqn:Ec.
    + destruct c; try discriminate Ec. exact (W (mc_c (fst (fst s)))).
    + apply (k_triple C C2 C3 (fun s => gh C (l_get l) (fst (fst s)))); [| | | | |assumption]; try reflexivity.
      * intros s1 o. cbn [fst]. pose proof (k_hstep C (l_get l) B p o (fst (fst s1))) as H. destruct (h_step (mac C p) (fst (fst s1)) o) as [m [u|e| |]]; exact H.
      * intros s1. cbn [fst]. now apply k_result.
  - apply lawful_of; [exact (good_in _ _ good_fst (good_in _ _ good_snd G))|]. intros s c. destruct (wiping c) eqn:Ec.
    + destruct c; try discriminate Ec. exact (W (snd (fst s))).
    + apply (k_triple C1 C C3 (fun s => l_get l (snd (fst s)))); [| | | | |assumption]; try reflexivity.
      * intros s1 a b c0 d. cbn [fst snd]. apply B.
  - apply lawful_of; [exact (good_in _ _ good_snd G)|]. intros s c. destruct (wiping c) eqn:Ec.
    + destruct c; try discriminate Ec. exact (W (snd s)).
    + apply (k_triple C1 C2 C (fun s => l_get l (snd s))); [| | | | |assumption]; try reflexivity.
      * intros s1 a b c0 d. cbn [fst snd]. apply B.
Qed.

(* ---- programs ---- *)
Lemma shared_alone C0 l : forall (k : bc_st C0) (w : nat -> user (bc_st C0)) j, (forall i, lawful C0 (u_cl (w i))) ->
  seen_by j (shared_run k w l) = alone_run C0 (User (u_cl (w j)) (cl_put (u_cl (w j)) (u_s (w j)) k)) (own j l).
Proof.
  induction l as [|[i c] l IH]; intros k w j Hw; [reflexivity|]. cbn [shared_run]. set (cl := u_cl (w i)). set (r := cl_call cl (cl_put cl (u_s (w i)) k) c).
  assert (Hw' : forall n, lawful C0 (u_cl (upd w i (User cl (fst r)) n))) by (intros n; unfold upd; destruct (Nat.eqb i n); [exact (Hw i)|apply Hw]).
  pose proof (IH (cl_get cl (fst r)) (upd w i (User cl (fst r))) j Hw') as E. destruct (Hw i) as (G1 & G2 & G3 & G4).
  assert (Hk : cl_get cl (fst r) = if wiping c then bc_wipe C0 k else k) by (unfold r, cl; rewrite G4, G1; reflexivity).
  unfold seen_by, own in *. cbn [filter fst flat_map snd map]. destruct (Nat.eqb i j) eqn:Ei.
  - apply Nat.eqb_eq in Ei. subst j. cbn [map snd app alone_run u_cl u_s]. fold cl. fold r. f_equal. rewrite E.
    unfold upd. rewrite Nat.eqb_refl. cbn [u_cl u_s]. unfold cl. rewrite G2. reflexivity.
  - cbn [app]. rewrite E. unfold upd. rewrite Ei. rewrite Hk. destruct (wiping c); cbn [app alone_run u_cl u_s]; [|reflexivity].
    destruct (Hw j) as (J1 & J2 & J3 & J4). rewrite J1, J3. reflexivity.
Qed.
Theorem shared fresh C0 (k : bc_st C0) w l j : stateless C0 -> (forall i, uses fresh C0 (u_cl (w i))) -> (forall i, cl_get (u_cl (w i)) (u_s (w i)) = k) ->
  seen_by j (shared_run k w l) = alone_run C0 (w j) (own j l).
Proof.
  intros H0 HU Hk. assert (HL : forall i, lawful C0 (u_cl (w i))) by (intros i; exact (uses_lawful fresh C0 _ H0 (HU i))). rewrite shared_alone by exact HL.
  rewrite <- (Hk j). destruct (HL j) as (J1 & J2 & _). rewrite J2. destruct (w j); reflexivity.
Qed.
Lemma own_no_wipe l j : forallb (fun e => Nat.eqb (fst e) j || negb (wiping (snd e))) l = true -> own j l = map Mine (calls_of j l).
Proof.
  unfold own, calls_of. induction l as [|[i c] l IH]; [reflexivity|]. cbn [forallb fst snd flat_map filter]. intros H. apply andb_prop in H. destruct H as (H1 & H2). rewrite IH by exact H2.
  destruct (Nat.eqb i j); cbn [map app snd]; [reflexivity|]. destruct (wiping c); [discriminate H1|reflexivity].
Qed.

(* ---- the objects of the library ---- *)
Lemma chain_over fresh mode d iv C0 k c : chain fresh mode d iv (BObj C0 k) = Ret c -> exists l, over C0 (b_bc c) l /\ l_get l (b_st c) = k.
Proof.
  unfold chain. cbn [b_bc b_st]. unfold chunked_init, mode_init. intros H.
  destruct mode as [| |z|z| |z]; [injection H as <-; exists at_self; split; [constructor|reflexivity]|..]; destruct d;
  try (destruct (chunk_ok C0 z); [|discriminate H]);
  (destruct (make_initial_iv (bc_blocksize C0) iv) as [i|e| |]; [|discriminate H..]); cbn [obind] in H; injection H as <-;
  (eexists; split; [constructor; exact (over_self C0)|reflexivity]).
Qed.
Theorem block_uses fresh mode padding iv d C0 k o : make_block_cipher fresh mode padding iv d (BObj C0 k) = Ret o ->
  exists l, uses fresh C0 (tr_client (o_tr o) l) /\ l_get l (o_st o) = k.
Proof.
  unfold make_block_cipher. destruct (chain _ _ _ _ _) as [c|e| |] eqn:Ec; [|discriminate..]. cbn [obind]. intros H. destruct (chain_over _ _ _ _ _ _ _ Ec) as (l & HO & Hk).
  destruct padding as [p|]; [destruct d|]; injection H as <-; cbn [o_tr o_st]; exists (lens_in (at_cipher (b_bc c)) l); (split; [constructor; exact HO|exact Hk]).
Qed.
Theorem mac_uses fresh iv p C0 k o : mac_new fresh iv p (BObj C0 k) = Ret o -> exists l, uses fresh C0 (h_client (ho_class o) l) /\ l_get l (ho_st o) = k.
Proof.
  unfold mac_new, mac_init. cbn [b_bc b_st]. destruct (make_initial_iv _ _) as [i|e| |]; [|discriminate..]. cbn [obind]. intros H. injection H as <-. cbn [ho_class ho_st].
  exists (lens_in (at_mac C0) at_self). split; [constructor; constructor|reflexivity].
Qed.
Theorem cmac_uses fresh iv k1 k2 C0 k o : cmac_new fresh iv (BObj C0 k) k1 k2 = Ret o -> exists l, uses fresh C0 (h_client (ho_class o) l) /\ l_get l (ho_st o) = k.
Proof.
  unfold cmac_new, mac_init. cbn [b_bc b_st]. destruct (make_initial_iv _ _) as [i|e| |]; [|discriminate..]. cbn [obind]. intros H. injection H as <-. cbn [ho_class ho_st].
  exists (lens_in at_fst (lens_in (at_mac C0) at_self)). split; [constructor; constructor|reflexivity].
Qed.
Lemma raw_stateless K bs prim wipe : stateless (raw_cipher K bs prim wipe).
Proof. intros k src so dst d. cbn [bc_transform raw_cipher]. destruct (_ || _); [reflexivity|]. destruct (prim k _); reflexivity. Qed.
Theorem library_stateless d key o :
  (exists fresh, new_aes fresh d key = Ret o) \/ (exists fresh, new_aesni fresh d key = Ret o) \/ new_des d key = Ret o \/ new_triple_des d key = Ret o \/ new_blowfish d key = Ret o ->
  stateless (b_bc o).
Proof.
  intros [[fr H]|[[fr H]|[H|[H|H]]]].
  - unfold new_aes in H. destruct (aes_key_ok key); [|discriminate]. apply ret_inj in H. subst o. destruct d; apply raw_stateless.
  - unfold new_aesni in H. destruct (aes_key_ok key); [|discriminate]. destruct d.
    + destruct (aesniKeySetupEnc _ _ _); [|discriminate H]. apply ret_inj in H. subst o. apply raw_stateless.
    + (destruct (aesniKeySetupDec _ _ _); [|discriminate H]); apply ret_inj in H; subst o; apply raw_stateless.
  - unfold new_des in H. destruct (_ =? _); [|discriminate]. apply ret_inj in H. subst o. apply raw_stateless.
  - unfold new_triple_des in H. destruct (_ && _); [discriminate|]. destruct d; apply ret_inj in H; subst o; intros [[a b] c] src so dst e; cbn [bc_transform triple_des_class b_bc]; destruct (_ || _); reflexivity.
  - unfold new_blowfish in H. destruct (_ && _); [|discriminate]. apply ret_inj in H. subst o. destruct d; apply raw_stateless.
Qed.
