(* The number theory behind RSA, Paillier and Diffie-Hellman: Fermat's little
   theorem, Chinese remainders, binomials modulo a square. *)
From Coq Require Import ZArith Znumtheory List Lia Permutation.
Import ListNotations.
Open Scope Z_scope.

(* congruence *)
Definition cong (n a b : Z) : Prop := (n | a - b).
Lemma cong_refl n a : cong n a a. Proof. exists 0. lia. Qed.
Lemma cong_sym n a b : cong n a b -> cong n b a. Proof. intros (k & H). exists (- k). lia. Qed.
Lemma cong_trans n a b c : cong n a b -> cong n b c -> cong n a c. Proof. intros (k & H) (l & H'). exists (k + l). lia. Qed.
Lemma cong_mul n a b c d : cong n a b -> cong n c d -> cong n (a * c) (b * d).
Proof. intros (k & H) (l & H'). exists (k * c + b * l). replace (a * c - b * d) with ((a - b) * c + b * (c - d)) by ring. rewrite H, H'. ring. Qed.
Lemma cong_add n a b c d : cong n a b -> cong n c d -> cong n (a + c) (b + d).
Proof. intros (k & H) (l & H'). exists (k + l). lia. Qed.
Lemma cong_pow n a b k : cong n a b -> cong n (a ^ k) (b ^ k).
Proof.
  intros H. destruct (Z.le_gt_cases 0 k) as [K|K]; [|rewrite !Z.pow_neg_r by lia; apply cong_refl].
  revert k K. apply natlike_ind; [rewrite !Z.pow_0_r; apply cong_refl|]. intros k K IH. rewrite !Z.pow_succ_r by lia. apply cong_mul; assumption.
Qed.
Lemma cong_mod n a b : n <> 0 -> cong n a b <-> a mod n = b mod n.
Proof.
  intros N. split.
  - intros (k & H). replace a with (b + k * n) by lia. apply Z_mod_plus_full.
  - intros H. exists (a / n - b / n). pose proof (Z.div_mod a n N). pose proof (Z.div_mod b n N). nia.
Qed.
Lemma cong_rem n a : n <> 0 -> cong n (a mod n) a.
Proof. intros N. apply cong_mod; [exact N|]. apply Z.mod_mod. exact N. Qed.
Lemma cong_div n m a b : (n | m) -> cong m a b -> cong n a b.
Proof. intros D H. exact (Z.divide_trans _ _ _ D H). Qed.
Lemma cong_small n a b : 0 <= a < n -> 0 <= b < n -> cong n a b -> a = b.
Proof. intros A B H. apply cong_mod in H; [|lia]. rewrite !Z.mod_small in H by lia. exact H. Qed.

(* ---- Fermat ---- *)
Definition prodZ (l : list Z) : Z := fold_right Z.mul 1 l.
Lemma prodZ_perm l l' : Permutation l l' -> prodZ l = prodZ l'.
Proof. induction 1; cbn [prodZ fold_right] in *; unfold prodZ in *; try lia; nia. Qed.
Lemma prodZ_scale n a l : n <> 0 -> cong n (prodZ (map (fun x => (a * x) mod n) l)) (a ^ Z.of_nat (length l) * prodZ l).
Proof.
  intros N. induction l as [|x l IH]; [apply cong_refl|]. cbn [map prodZ fold_right length]. rewrite Nat2Z.inj_succ, Z.pow_succ_r by lia.
  replace (a * a ^ Z.of_nat (length l) * (x * fold_right Z.mul 1 l)) with ((a * x) * (a ^ Z.of_nat (length l) * prodZ l)) by (unfold prodZ; ring).
  apply cong_mul; [apply cong_rem; exact N|exact IH].
Qed.
Lemma prime_pos p : prime p -> 2 <= p. Proof. intros (H & _). lia. Qed.
Lemma prodZ_unit p l : prime p -> (forall x, In x l -> ~ (p | x)) -> ~ (p | prodZ l).
Proof.
  intros P. induction l as [|x l IH]; intros H.
  - cbn. intros D. apply Z.divide_1_r_nonneg in D; pose proof (prime_pos p P); lia.
  - cbn [prodZ fold_right]. intros D. apply prime_mult in D; [|exact P]. destruct D as [D|D]; [apply (H x (or_introl eq_refl) D)|]. apply IH; [|exact D]. intros y Hy. apply H. right. exact Hy.
Qed.
Lemma small_not_div p x : 0 < x < p -> ~ (p | x).
Proof. intros H D. apply Z.divide_pos_le in D; lia. Qed.
Theorem fermat p a : prime p -> ~ (p | a) -> cong p (a ^ (p - 1)) 1.
Proof.
  intros P A. pose proof (prime_pos p P) as P2. set (l := map Z.of_nat (seq 1 (Z.to_nat (p - 1)))).
  assert (Il : forall x, In x l <-> 0 < x < p).
  { intros x. unfold l. rewrite in_map_iff. split.
    - intros (k & <- & Hk). apply in_seq in Hk. lia.
    - intros H. exists (Z.to_nat x). split; [lia|]. apply in_seq. lia. }
  assert (Nl : NoDup l) by (apply FinFun.Injective_map_NoDup; [intros x y; lia|apply seq_NoDup]).
  assert (Ll : Z.of_nat (length l) = p - 1) by (unfold l; rewrite map_length, seq_length; lia).
  set (f := fun x => (a * x) mod p). assert (Perm : Permutation (map f l) l).
  { apply NoDup_Permutation_bis.
    - assert (G : forall l', (forall x, In x l' -> 0 < x < p) -> NoDup l' -> NoDup (map f l')).
      { induction l' as [|x l' IH]; intros Hin Nd; cbn [map]; [constructor|]. inversion Nd as [|? ? Nx Nd']; subst. constructor.
        - intros Hx. apply in_map_iff in Hx. destruct Hx as (y & E & Hy). unfold f in E. apply cong_mod in E; [|lia]. destruct E as (k & E).
          assert (D : (p | a * (y - x))) by (exists k; lia). apply prime_mult in D; [|exact P]. destruct D as [D|D]; [exact (A D)|].
          pose proof (Hin x (or_introl eq_refl)). pose proof (Hin y (or_intror Hy)). assert (x = y) by (apply (cong_small p); [lia|lia|apply cong_sym; exact D]). subst y. exact (Nx Hy).
        - apply IH; [|exact Nd']. intros y Hy. apply Hin. right. exact Hy. }
      apply G; [|exact Nl]. intros x Hx. apply Il. exact Hx.
    - rewrite map_length. lia.
    - intros y Hy. apply in_map_iff in Hy. destruct Hy as (x & <- & Hx). apply Il. apply Il in Hx. unfold f. pose proof (Z.mod_pos_bound (a * x) p ltac:(lia)) as B.
      assert ((a * x) mod p <> 0); [|lia]. intros E. apply Z.mod_divide in E; [|lia]. apply prime_mult in E; [|exact P]. destruct E as [E|E]; [exact (A E)|]. exact (small_not_div p x Hx E). }
  apply prodZ_perm in Perm. pose proof (prodZ_scale p a l ltac:(lia)) as S. fold f in S. rewrite Perm, Ll in S.
  assert (D : (p | prodZ l * (a ^ (p - 1) - 1))) by (destruct S as (k & S); exists (- k); lia).
  apply prime_mult in D; [|exact P]. destruct D as [D|D]; [|exact D]. exfalso. revert D. apply prodZ_unit; [exact P|]. intros x Hx. apply Il in Hx. apply small_not_div. exact Hx.
Qed.
(* exponents congruent to 1 modulo p - 1 *)
Lemma fermat_exp p a k : prime p -> 0 <= k -> cong (p - 1) k 1 -> 0 < k -> cong p (a ^ k) a.
Proof.
  intros P K (j & H) K1. pose proof (prime_pos p P) as P2. destruct (Zdivide_dec p a) as [D|D].
  - apply cong_trans with 0.
    + unfold cong. rewrite Z.sub_0_r. replace k with (Z.succ (k - 1)) by lia. rewrite Z.pow_succ_r by lia. apply Z.divide_mul_l. exact D.
    + apply cong_sym. unfold cong. rewrite Z.sub_0_r. exact D.
  - assert (J : 0 <= j) by nia. replace k with ((p - 1) * j + 1) by lia. rewrite Z.pow_add_r, Z.pow_1_r, Z.pow_mul_r by nia.
    replace a with (1 * a) at 3 by ring. apply cong_mul; [|apply cong_refl]. apply cong_trans with (1 ^ j); [|rewrite Z.pow_1_l by lia; apply cong_refl]. apply cong_pow. apply fermat; assumption.
Qed.
Lemma fermat_multiple p a k : prime p -> ~ (p | a) -> 0 <= k -> (p - 1 | k) -> cong p (a ^ k) 1.
Proof.
  intros P A K (j & ->). pose proof (prime_pos p P) as P2. assert (0 <= j) by nia. rewrite Z.mul_comm, Z.pow_mul_r by lia.
  apply cong_trans with (1 ^ j); [|rewrite Z.pow_1_l by lia; apply cong_refl]. apply cong_pow. apply fermat; assumption.
Qed.

(* ---- Chinese remainders ---- *)
Lemma primes_coprime p q : prime p -> prime q -> p <> q -> rel_prime p q.
Proof.
  intros P Q N. apply rel_prime_sym. apply prime_rel_prime; [exact Q|]. intros D. apply N. symmetry. apply prime_div_prime; assumption.
Qed.
Lemma crt_cong p q a b : rel_prime p q -> cong p a b -> cong q a b -> cong (p * q) a b.
Proof.
  intros R (k & Hk) Hq. unfold cong in *. rewrite Hk in *. rewrite (Z.mul_comm k p) in *. assert (D : (q | k)) by (apply (Gauss q p); [exact Hq|apply rel_prime_sym; exact R]).
  destruct D as (j & ->). exists j. ring.
Qed.
(* RSA: exponents e and d with e d = 1 modulo p-1 and q-1 undo each other *)
Lemma rsa_inverse p q m e d : prime p -> prime q -> p <> q -> 0 <= e -> 0 <= d -> 0 < e * d -> cong (p - 1) (e * d) 1 -> cong (q - 1) (e * d) 1 ->
  cong (p * q) ((m ^ e) ^ d) m.
Proof.
  intros P Q N E D X C1 C2. rewrite <- Z.pow_mul_r by lia. apply crt_cong; [apply primes_coprime; assumption| |]; apply fermat_exp; (assumption || lia).
Qed.

(* ---- binomials modulo n^2 ---- *)
Lemma one_plus_pow n x k : 0 <= k -> cong (n * n) ((1 + x * n) ^ k) (1 + k * x * n).
Proof.
  revert k. apply natlike_ind.
  - rewrite Z.pow_0_r. replace (1 + 0 * x * n) with 1 by ring. apply cong_refl.
  - intros k K IH. rewrite Z.pow_succ_r by lia. apply cong_trans with ((1 + x * n) * (1 + k * x * n)); [apply cong_mul; [apply cong_refl|exact IH]|].
    exists (k * x * x). unfold Z.succ. ring.
Qed.

(* ---- inverses ---- *)
Lemma inverse_unique n a x y : 1 < n -> 0 <= x < n -> 0 <= y < n -> cong n (a * x) 1 -> cong n (a * y) 1 -> x = y.
Proof.
  intros N X Y H1 H2. apply (cong_small n); [exact X|exact Y|]. apply cong_trans with (x * (a * y)); [|].
  - replace x with (x * 1) at 1 by ring. apply cong_mul; [apply cong_refl|]. apply cong_sym. exact H2.
  - replace (x * (a * y)) with ((a * x) * y) by ring. replace y with (1 * y) at 2 by ring. apply cong_mul; [exact H1|apply cong_refl].
Qed.
Lemma gcd_rel_prime a b : Z.gcd a b = 1 <-> rel_prime a b.
Proof. apply Zgcd_1_rel_prime. Qed.
