(* The PCLMULQDQ multiplication is the one of SP 800-38D, and both are
   multiplication of polynomials modulo x^128 + x^7 + x^2 + x + 1. *)
From Coq Require Import Btauto.
From Verif Require Import Prelude PreludeFacts BytesNum Word SpecGhash GhashModel LinBits AesField MdHash Ghash.
Ltac Zify.zify_post_hook ::= Z.div_mod_to_equations.

(* ---- carry-less product ---- *)
Definition cl (n : nat) (a b : Z) : Z := xsum (fun i => if Z.testbit b (Z.of_nat i) then Z.shiftl a (Z.of_nat i) else 0) n.
Lemma cl_eq n a b : cl n a b = xsum (fun i => if Z.testbit b (Z.of_nat i) then Z.shiftl a (Z.of_nat i) else 0) n.
Proof. reflexivity. Qed.
Lemma cl_lin_l n b : lin (fun a => cl n a b).
Proof. apply (lin_xsum (fun a i => if Z.testbit b (Z.of_nat i) then Z.shiftl a (Z.of_nat i) else 0)). intros i. apply lin_if, lin_shl. Qed.
Lemma cl_lin_r n a : lin (cl n a).
Proof. apply (lin_xsum (fun b i => if Z.testbit b (Z.of_nat i) then Z.shiftl a (Z.of_nat i) else 0)). intros i. apply lin_bit. Qed.
Lemma cl_shl n a b k : 0 <= k -> cl n (Z.shiftl a k) b = Z.shiftl (cl n a b) k.
Proof.
  intros Hk. unfold cl. rewrite <- (xsum_lin _ (fun x => Z.shiftl x k)) by apply lin_shl. apply xsum_ext. intros i Hi.
  destruct (Z.testbit b _); [rewrite !Z.shiftl_shiftl by lia; f_equal; lia|rewrite Z.shiftl_0_l; reflexivity].
Qed.
Lemma clmul64_cl a b : clmul64 a b = cl 64 a b.
Proof.
  unfold clmul64, cl. assert (K : forall n, fold_left (fun z i => if Z.testbit b (Z.of_nat i) then Z.lxor z (Z.shiftl a (Z.of_nat i)) else z) (seq 0 n) 0 =
    xsum (fun i => if Z.testbit b (Z.of_nat i) then Z.shiftl a (Z.of_nat i) else 0) n).
  { induction n as [|n IH]; [reflexivity|]. rewrite seq_S, fold_left_app, IH. cbn [fold_left xsum Nat.add]. destruct (Z.testbit b _); [reflexivity|]. rewrite Z.lxor_0_r. reflexivity. }
  apply K.
Qed.
Lemma cl_bound n a b w : 0 <= w -> 0 <= a < 2 ^ w -> 0 <= cl n a b < 2 ^ (w + Z.of_nat n).
Proof.
  intros Hw Ha. apply xsum_bound; [lia|]. intros i Hi. destruct (Z.testbit b _); [|lia].
  rewrite Z.shiftl_mul_pow2 by lia. rewrite Z.pow_add_r by lia. assert (2 ^ Z.of_nat i <= 2 ^ Z.of_nat n) by (apply Z.pow_le_mono_r; lia). nia.
Qed.

(* ---- splitting numbers ---- *)
Lemma halves x n : 0 <= n -> x = Z.lxor (x mod 2 ^ n) (Z.shiftl (Z.shiftr x n) n).
Proof.
  intros Hn. apply Z.bits_inj'. intros i Hi. rewrite Z.lxor_spec, testbit_mod by lia. destruct (Z.ltb_spec i n); cbn [andb].
  - rewrite Z.shiftl_spec_low by lia. destruct (Z.testbit x i); reflexivity.
  - rewrite Z.shiftl_spec, Z.shiftr_spec by lia. replace (i - n + n) with i by lia. destruct (Z.testbit x i); reflexivity.
Qed.
Lemma cl_split n m A B : cl (n + m) A B = Z.lxor (cl n A (B mod 2 ^ Z.of_nat n)) (Z.shiftl (cl m A (Z.shiftr B (Z.of_nat n))) (Z.of_nat n)).
Proof.
  unfold cl at 1. rewrite xsum_split. f_equal.
  - apply xsum_ext. intros i Hi. rewrite testbit_mod by lia. replace (Z.of_nat i <? Z.of_nat n) with true by lia. reflexivity.
  - unfold cl. rewrite <- (xsum_lin _ (fun x => Z.shiftl x (Z.of_nat n))) by apply lin_shl. apply xsum_ext. intros i Hi. rewrite Z.shiftr_spec by lia.
    replace (Z.of_nat i + Z.of_nat n) with (Z.of_nat (n + i)) by lia. destruct (Z.testbit B _); [rewrite Z.shiftl_shiftl by lia; f_equal; lia|rewrite Z.shiftl_0_l; reflexivity].
Qed.
Lemma cl64_bound a b : 0 <= a < 2 ^ 64 -> 0 <= cl 64 a b < 2 ^ 128.
Proof. intros H. pose proof (cl_bound 64 a b 64 ltac:(lia) H) as K. replace (64 + Z.of_nat 64) with 128 in K by lia. exact K. Qed.
Definition comb (lo hi : Z) : Z := Z.lxor lo (Z.shiftl hi 128).
Definition plo (al ah bl bh : Z) : Z := Z.lxor (cl 64 al bl) (Z.shiftl (Z.lxor (cl 64 al bh) (cl 64 ah bl)) 64 mod 2 ^ 128).
Definition phi (al ah bl bh : Z) : Z := Z.lxor (cl 64 ah bh) (Z.shiftr (Z.lxor (cl 64 al bh) (cl 64 ah bl)) 64).
Lemma product_eq A B : pcl_product A B =
  (plo (A mod 2 ^ 64) (Z.shiftr A 64) (B mod 2 ^ 64) (Z.shiftr B 64), phi (A mod 2 ^ 64) (Z.shiftr A 64) (B mod 2 ^ 64) (Z.shiftr B 64)).
Proof. unfold plo, phi. rewrite <- !clmul64_cl. reflexivity. Qed.
Lemma cl_split64 A B : cl 128 A B = Z.lxor (cl 64 A (B mod 2 ^ 64)) (Z.shiftl (cl 64 A (Z.shiftr B 64)) 64).
Proof. pose proof (cl_split 64 64 A B) as K. change (64 + 64)%nat with 128%nat in K. change (Z.of_nat 64) with 64 in K. exact K. Qed.
Lemma product_comb al ah bl bh : comb (plo al ah bl bh) (phi al ah bl bh) =
  Z.lxor (cl 64 (Z.lxor al (Z.shiftl ah 64)) bl) (Z.shiftl (cl 64 (Z.lxor al (Z.shiftl ah 64)) bh) 64).
Proof.
  unfold comb, plo, phi. rewrite !(cl_lin_l 64 _ al), !cl_shl by lia.
  generalize (cl 64 al bl) (cl 64 al bh) (cl 64 ah bl) (cl 64 ah bh). intros ll lh hl hh.
  remember (Z.lxor lh hl) as mid eqn:Em.
  transitivity (Z.lxor (Z.lxor ll (Z.shiftl mid 64)) (Z.shiftl hh 128)).
  - pose proof (halves (Z.shiftl mid 64) 128 ltac:(lia)) as E. rewrite Z.shiftr_shiftl_r in E by lia. change (128 - 64) with 64 in E. rewrite E at 2. rewrite Z.shiftl_lxor. xor_ac.
  - rewrite Em. rewrite !Z.shiftl_lxor, Z.shiftl_shiftl by lia. change (64 + 64) with 128. xor_ac.
Qed.
Lemma plo_ok al ah bl bh : 0 <= al < 2 ^ 64 -> word_ok 128 (plo al ah bl bh).
Proof. intros Wal. unfold plo. pose proof (cl64_bound al bl Wal) as K. revert K. generalize (cl 64 al bl). intros x K. apply word_ok_lxor; [lia|exact K|apply word_ok_mod; lia]. Qed.
Lemma phi_ok al ah bl bh : 0 <= al < 2 ^ 64 -> 0 <= ah < 2 ^ 64 -> word_ok 128 (phi al ah bl bh).
Proof.
  intros Wal Wah. unfold phi. pose proof (cl64_bound al bh Wal) as K1. pose proof (cl64_bound ah bl Wah) as K2. pose proof (cl64_bound ah bh Wah) as K3.
  revert K1 K2 K3. generalize (cl 64 al bh) (cl 64 ah bl) (cl 64 ah bh). intros x y z K1 K2 K3. apply word_ok_lxor; [lia|exact K3|]. apply word_ok_shr; [lia|]. apply (lxor_bound 128); [lia|exact K1|exact K2].
Qed.
Lemma product_ok A B : word_ok 128 A -> exists t3 t6, pcl_product A B = (t3, t6) /\ word_ok 128 t3 /\ word_ok 128 t6 /\ comb t3 t6 = cl 128 A B.
Proof.
  intros HA. rewrite product_eq. eexists. eexists. split; [reflexivity|].
  assert (W1 : 0 <= A mod 2 ^ 64 < 2 ^ 64) by (apply Z.mod_pos_bound; lia). assert (W2 : 0 <= Z.shiftr A 64 < 2 ^ 64) by (rewrite Z.shiftr_div_pow2 by lia; unfold word_ok in HA; lia).
  split; [apply plo_ok; assumption|]. split; [apply phi_ok; assumption|]. rewrite product_comb, <- halves by lia. symmetry. apply cl_split64.
Qed.

(* ---- the register operations are linear ---- *)
Lemma lin_lanes f : lin f -> lin (lanes32 f).
Proof.
  intros Hf x y. unfold lanes32, lane32.
  assert (L : forall k, lin (fun x => f (Z.shiftr x k mod 2 ^ 32))).
  { intros k. apply (lin_comp f (fun x => Z.shiftr x k mod 2 ^ 32) Hf). apply (lin_comp (fun x => x mod 2 ^ 32) (fun x => Z.shiftr x k)); [apply lin_mod; lia|apply lin_shr]. }
  rewrite (L (32 * 0) x y), (L (32 * 1) x y), (L (32 * 2) x y), (L (32 * 3) x y). rewrite !Z.shiftl_lxor. xor_ac.
Qed.
Lemma lin_slli32 n : lin (fun x => mm_slli_epi32 x n).
Proof. apply lin_lanes. exact (lin_comp (fun x => x mod 2 ^ 32) (fun x => Z.shiftl x n) (lin_mod 32 ltac:(lia)) (lin_shl n)). Qed.
Lemma lin_srli32 n : lin (fun x => mm_srli_epi32 x n).
Proof. apply lin_lanes. exact (lin_shr n). Qed.
Lemma lin_slli n : lin (fun x => mm_slli_si128 x n).
Proof. exact (lin_comp (fun x => x mod 2 ^ 128) (fun x => Z.shiftl x (8 * n)) (lin_mod 128 ltac:(lia)) (lin_shl (8 * n))). Qed.
Lemma lin_srli n : lin (fun x => mm_srli_si128 x n).
Proof. exact (lin_shr (8 * n)). Qed.

(* or is xor on values that do not overlap *)
Lemma lor_masks a b m1 m2 : Z.land a m1 = a -> Z.land b m2 = b -> Z.land m1 m2 = 0 -> Z.lor a b = Z.lxor a b.
Proof.
  intros <- <- H. apply Z.bits_inj'. intros i Hi. rewrite Z.lor_spec, Z.lxor_spec, !Z.land_spec.
  pose proof (f_equal (fun x => Z.testbit x i) H) as K. cbv beta in K. rewrite Z.land_spec, Z.bits_0 in K.
  destruct (Z.testbit a i), (Z.testbit b i), (Z.testbit m1 i), (Z.testbit m2 i); cbn in *; congruence.
Qed.
Definition mA : Z := 0xfffffffefffffffefffffffefffffffe.
Definition mB : Z := 0x00000001000000010000000100000000.
Definition mC : Z := 1.
Lemma mask_of f m : lin f -> forallb (fun i => Z.land (f (2 ^ Z.of_nat i)) m =? f (2 ^ Z.of_nat i)) (seq 0 128) = true ->
  forall x, word_ok 128 x -> Z.land (f x) m = f x.
Proof. intros Hf C x Hx. apply (lin_ext (fun x => Z.land (f x) m) f 128); [apply (lin_comp (fun y => Z.land y m) f (lin_land m) Hf)|assumption|exact C|exact Hx]. Qed.
Lemma maskA x : word_ok 128 x -> Z.land (mm_slli_epi32 x 1) mA = mm_slli_epi32 x 1.
Proof. apply (mask_of (fun x => mm_slli_epi32 x 1)); [apply lin_slli32|vm_compute; reflexivity]. Qed.
Lemma maskB x : word_ok 128 x -> Z.land (mm_slli_si128 (mm_srli_epi32 x 31) 4) mB = mm_slli_si128 (mm_srli_epi32 x 31) 4.
Proof. apply (mask_of (fun x => mm_slli_si128 (mm_srli_epi32 x 31) 4)); [apply (lin_comp (fun x => mm_slli_si128 x 4) (fun x => mm_srli_epi32 x 31)); [apply lin_slli|apply lin_srli32]|vm_compute; reflexivity]. Qed.
Lemma maskC x : word_ok 128 x -> Z.land (mm_srli_si128 (mm_srli_epi32 x 31) 12) mC = mm_srli_si128 (mm_srli_epi32 x 31) 12.
Proof. apply (mask_of (fun x => mm_srli_si128 (mm_srli_epi32 x 31) 12)); [apply (lin_comp (fun x => mm_srli_si128 x 12) (fun x => mm_srli_epi32 x 31)); [apply lin_srli|apply lin_srli32]|vm_compute; reflexivity]. Qed.

Definition shiftx (t3 t6 : Z) : Z * Z :=
  (Z.lxor (mm_slli_epi32 t3 1) (mm_slli_si128 (mm_srli_epi32 t3 31) 4),
   Z.lxor (Z.lxor (mm_slli_epi32 t6 1) (mm_slli_si128 (mm_srli_epi32 t6 31) 4)) (mm_srli_si128 (mm_srli_epi32 t3 31) 12)).
Lemma shift_xor t3 t6 : word_ok 128 t3 -> word_ok 128 t6 -> pcl_shift (t3, t6) = shiftx t3 t6.
Proof.
  intros H3 H6. unfold pcl_shift, shiftx. f_equal.
  - apply (lor_masks _ _ mA mB); [apply maskA; assumption|apply maskB; assumption|reflexivity].
  - rewrite (lor_masks (mm_slli_epi32 t6 1) _ mA mB); [|apply maskA; assumption|apply maskB; assumption|reflexivity].
    apply (lor_masks _ _ (Z.lxor mA mB) mC); [|apply maskC; assumption|reflexivity].
    rewrite <- (maskA t6 H6), <- (maskB t6 H6) at 2. rewrite <- (maskA t6 H6), <- (maskB t6 H6) at 1.
    apply Z.bits_inj'. intros i Hi. rewrite !Z.land_spec, !Z.lxor_spec, !Z.land_spec.
    assert (K : Z.testbit mA i && Z.testbit mB i = false) by (rewrite <- Z.land_spec; change (Z.land mA mB) with 0; apply Z.bits_0).
    destruct (Z.testbit mA i), (Z.testbit mB i); cbn in *; try discriminate; btauto.
Qed.

(* the reduction as a linear function of the 256-bit product *)
Definition red (P : Z) : Z := pcl_reduce (shiftx (P mod 2 ^ 128) (Z.shiftr P 128)).
Lemma lin_pair (f : Z -> Z -> Z) : (forall a b c d, f (Z.lxor a b) (Z.lxor c d) = Z.lxor (f a c) (f b d)) -> lin (fun P => f (P mod 2 ^ 128) (Z.shiftr P 128)).
Proof. intros H x y. rewrite (lin_mod 128 ltac:(lia) x y), Z.shiftr_lxor. apply H. Qed.
Lemma red_lin : lin red.
Proof.
  apply (lin_pair (fun a b => pcl_reduce (shiftx a b))). intros a b c d. unfold pcl_reduce, shiftx. cbv zeta.
  assert (L : forall n x y, mm_slli_epi32 (Z.lxor x y) n = Z.lxor (mm_slli_epi32 x n) (mm_slli_epi32 y n)) by (intros n x y; apply (lin_slli32 n x y)).
  assert (R : forall n x y, mm_srli_epi32 (Z.lxor x y) n = Z.lxor (mm_srli_epi32 x n) (mm_srli_epi32 y n)) by (intros n x y; apply (lin_srli32 n x y)).
  assert (SL : forall n x y, mm_slli_si128 (Z.lxor x y) n = Z.lxor (mm_slli_si128 x n) (mm_slli_si128 y n)) by (intros n x y; apply (lin_slli n x y)).
  assert (SR : forall n x y, mm_srli_si128 (Z.lxor x y) n = Z.lxor (mm_srli_si128 x n) (mm_srli_si128 y n)) by (intros n x y; apply (lin_srli n x y)).
  repeat (rewrite ?L, ?R, ?SL, ?SR). xor_ac.
Qed.
(* the 255 powers of two *)
Fixpoint red_check (n : nat) (p v : Z) : bool :=
  match n with O => true | S n' => (red p =? v) && red_check n' (Z.div2 p) (gf_x v) end.
Lemma red_checked : red_check 255 (2 ^ 254) (2 ^ 127) = true.
Proof. vm_compute. reflexivity. Qed.
Lemma red_check_ok n : forall p v, red_check n p v = true -> forall k, (k < n)%nat -> red (Z.shiftr p (Z.of_nat k)) = Nat.iter k gf_x v.
Proof.
  induction n as [|n IH]; intros p v C k Hk; [lia|]. cbn [red_check] in C. apply andb_prop in C. destruct C as (C1 & C2). destruct k as [|k].
  - change (Z.of_nat 0) with 0. rewrite Z.shiftr_0_r. apply Z.eqb_eq. exact C1.
  - rewrite <- (IH _ _ C2 k ltac:(lia)) || idtac.
    pose proof (IH _ _ C2 k ltac:(lia)) as E. rewrite Z.div2_spec, Z.shiftr_shiftr in E by lia. replace (Z.of_nat (S k)) with (1 + Z.of_nat k) by lia. rewrite E.
    clear. induction k as [|k IH]; [reflexivity|]. rewrite !iter_S. rewrite iter_S in IH. rewrite IH. reflexivity.
Qed.
Lemma red_pow k : (k < 255)%nat -> red (2 ^ (254 - Z.of_nat k)) = Nat.iter k gf_x (2 ^ 127).
Proof.
  intros Hk. rewrite <- (red_check_ok 255 _ _ red_checked k Hk). f_equal. rewrite Z.shiftr_div_pow2 by lia. rewrite Z.pow_sub_r by lia. reflexivity.
Qed.
Lemma gf_pow a : (a <= 127)%nat -> Nat.iter (127 - a) gf_x (2 ^ 127) = 2 ^ Z.of_nat a.
Proof.
  intros Ha. set (d := (127 - a)%nat). assert (Ed : Z.of_nat a = 127 - Z.of_nat d) by lia. rewrite Ed. clearbody d. assert (Hd : (d <= 127)%nat) by lia. clear Ha Ed.
  induction d as [|d IH]; [reflexivity|]. rewrite iter_S, IH by lia. pose proof (gf_x_shl 1 (127 - Z.of_nat (S d)) ltac:(lia)) as E. rewrite !Z.shiftl_1_l in E.
  replace (127 - Z.of_nat (S d) + 1) with (127 - Z.of_nat d) in E by lia. exact E.
Qed.
Lemma red_shift H i : word_ok 128 H -> (i < 128)%nat -> red (Z.shiftl H (127 - Z.of_nat i)) = Nat.iter i gf_x H.
Proof.
  intros HH Hi. apply (lin_ext' (fun H => red (Z.shiftl H (127 - Z.of_nat i))) (Nat.iter i gf_x) 128).
  - apply (lin_comp red (fun x => Z.shiftl x _)); [apply red_lin|apply lin_shl].
  - apply lin_iter, gf_x_lin.
  - intros a Ha. rewrite Z.shiftl_mul_pow2, <- Z.pow_add_r by lia. rewrite <- (gf_pow a) by lia. rewrite <- iter_add.
    replace (Z.of_nat a + (127 - Z.of_nat i)) with (254 - Z.of_nat (i + (127 - a))) by lia. apply red_pow. lia.
  - exact HH.
Qed.
Lemma xsum_rev f n : xsum f n = xsum (fun i => f (n - 1 - i)%nat) n.
Proof.
  revert f. induction n as [|n IH]; intros f; [reflexivity|]. rewrite xsum_head. cbn [xsum]. replace (S n - 1 - n)%nat with 0%nat by lia. rewrite Z.lxor_comm. f_equal.
  rewrite IH. apply xsum_ext. intros i Hi. f_equal. lia.
Qed.
Lemma red_mult_n n H X : (n = 128)%nat -> word_ok 128 H -> red (cl n H X) = gsum n X H.
Proof.
  intros En HH. rewrite cl_eq, xsum_rev. unfold gsum. rewrite <- (xsum_lin _ red) by apply red_lin. apply xsum_ext. intros i Hi.
  replace (Z.of_nat n - 1 - Z.of_nat i) with (Z.of_nat (n - 1 - i)) by lia. destruct (Z.testbit X _); [|apply lin_0, red_lin].
  replace (Z.of_nat (n - 1 - i)) with (127 - Z.of_nat i) by lia. apply red_shift; [assumption|lia].
Qed.
Lemma red_mult H X : word_ok 128 H -> red (cl 128 H X) = gf_mult X H.
Proof. intros HH. rewrite gf_mult_sum. apply red_mult_n; [reflexivity|assumption]. Qed.
Lemma red_comb a b : word_ok 128 a -> word_ok 128 b -> red (comb a b) = pcl_reduce (shiftx a b).
Proof.
  intros Ha Hb. unfold red. f_equal. unfold comb. f_equal.
  - rewrite (lin_mod 128 ltac:(lia) a), Z.shiftl_mul_pow2, Z.mod_mul, Z.lxor_0_r by lia. apply Z.mod_small. exact Ha.
  - rewrite Z.shiftr_lxor, Z.shiftr_shiftl_l by lia. rewrite Z.shiftr_div_pow2, Z.div_small by (exact Ha || lia). rewrite Z.lxor_0_l. apply Z.shiftl_0_r.
Qed.
Theorem pclmul_mult_ok h x : blk h -> blk x -> pclmul_mult h x = block_mult x h.
Proof.
  intros Hh Hx. unfold pclmul_mult, block_mult, to_be, be. f_equal. f_equal. destruct Hh as (Lh & Bh), Hx as (Lx & Bx).
  rewrite (firstn_all2 h), (firstn_all2 x) by (unfold zlen in *; lia). fold (be h) (be x).
  assert (Wh : word_ok 128 (be h)) by (apply word_ok_be; [assumption|lia]). assert (Wx : word_ok 128 (be x)) by (apply word_ok_be; [assumption|lia]).
  destruct (product_ok (be h) (be x) Wh) as (t3 & t6 & -> & W3 & W6 & E).
  rewrite shift_xor by assumption. rewrite <- red_comb by assumption. rewrite E. apply red_mult. exact Wh.
Qed.

(* ---- the stubs ---- *)
Lemma ghash_stub_ok accel h : blk h -> exists c, ghash_init accel h = Ret c /\
  forall x, blk x -> ghash_mult c x = Ret (block_mult x h).
Proof.
  intros Hh. pose proof Hh as (Lh & Bh). unfold ghash_init. destruct accel.
  - eexists. split; [reflexivity|]. intros x Hx. pose proof Hx as (Lx & Bx). cbn [ghash_mult]. unfold ghash_mult. rewrite Lh, Lx. cbn [Z.ltb Z.compare Pos.compare Pos.compare_cont].
    rewrite pclmul_mult_ok by assumption. rewrite splice_all; [reflexivity|]. rewrite Lx. apply zlen_to_be.
  - rewrite Lh. cbn [Z.ltb Z.compare Pos.compare Pos.compare_cont]. eexists. split; [reflexivity|]. intros x Hx. pose proof Hx as (Lx & Bx). unfold ghash_mult. rewrite Lx. cbn [Z.ltb Z.compare Pos.compare Pos.compare_cont].
    rewrite tab_mult_ok by assumption. rewrite splice_all; [reflexivity|]. rewrite Lx. apply zlen_to_be.
Qed.

(* ---- the field ---- *)
Lemma pmul_cl a b : pmul a b = cl 128 a b.
Proof. unfold pmul, cl. reflexivity. Qed.
Lemma pmul_bits a b c : (forall i, (i < 128)%nat -> Z.testbit b (Z.of_nat i) = Z.testbit c (127 - Z.of_nat i)) ->
  pmul a b = xsum (fun i => if Z.testbit c (127 - Z.of_nat i) then Z.shiftl a (Z.of_nat i) else 0) 128.
Proof. intros H. unfold pmul. apply xsum_ext. intros i Hi. rewrite H by assumption. reflexivity. Qed.
Lemma cl_step a i : (i < 128)%nat -> cl 128 a (2 ^ Z.of_nat i) = Z.shiftl a (Z.of_nat i).
Proof.
  intros Hi. rewrite cl_eq. rewrite (xsum_one _ 128 i Hi).
  - rewrite Z.pow2_bits_true by lia. reflexivity.
  - intros j Hj E. rewrite bit_pow2 by lia. replace (Z.of_nat i =? Z.of_nat j) with false by (symmetry; apply Z.eqb_neq; lia). reflexivity.
Qed.
Lemma cl_double a q : 0 <= q < 2 ^ 127 -> cl 128 a (Z.shiftl q 1) = Z.shiftl (cl 128 a q) 1.
Proof.
  intros Hq. apply (lin_ext' (fun q => cl 128 a (Z.shiftl q 1)) (fun q => Z.shiftl (cl 128 a q) 1) 127).
  - apply (lin_comp (cl 128 a) (fun x => Z.shiftl x 1)); [apply cl_lin_r|apply lin_shl].
  - apply (lin_comp (fun x => Z.shiftl x 1) (cl 128 a)); [apply lin_shl|apply cl_lin_r].
  - intros i Hi. rewrite Z.shiftl_mul_pow2, <- Z.pow_add_r by lia. replace (Z.of_nat i + 1) with (Z.of_nat (S i)) by lia.
    rewrite !cl_step by lia. rewrite Z.shiftl_shiftl by lia. f_equal. lia.
  - exact Hq.
Qed.
Lemma pmul_xor a x y : pmul a (Z.lxor x y) = Z.lxor (pmul a x) (pmul a y).
Proof. rewrite (pmul_cl a (Z.lxor x y)), (pmul_cl a x), (pmul_cl a y). exact (cl_lin_r 128 a x y). Qed.
Lemma pmul_double a q : 0 <= q < 2 ^ 127 -> pmul a (Z.shiftl q 1) = Z.shiftl (pmul a q) 1.
Proof. intros H. rewrite (pmul_cl a (Z.shiftl q 1)), (pmul_cl a q). exact (cl_double a q H). Qed.
Lemma pmul_0 a : pmul a 0 = 0.
Proof. rewrite (pmul_cl a 0). exact (lin_0 _ (cl_lin_r 128 a)). Qed.
Lemma pmul_1 a : pmul a 1 = a.
Proof. rewrite (pmul_cl a 1). pose proof (cl_step a 0 ltac:(lia)) as E. change (2 ^ Z.of_nat 0) with 1 in E. change (Z.of_nat 0) with 0 in E. rewrite Z.shiftl_0_r in E. exact E. Qed.
Local Opaque cl pmul.
Lemma poly_lin : lin poly_of_block.
Proof. apply (lin_xsum (fun v i => if Z.testbit v (127 - Z.of_nat i) then 2 ^ Z.of_nat i else 0)). intros i. apply lin_bit. Qed.
Lemma poly_bound v : 0 <= poly_of_block v < 2 ^ 128.
Proof. apply xsum_bound; [lia|]. intros i Hi. destruct (Z.testbit v _); [|lia]. split; [lia|]. apply Z.pow_lt_mono_r; lia. Qed.
Lemma poly_bit v i : (i < 128)%nat -> Z.testbit (poly_of_block v) (Z.of_nat i) = Z.testbit v (127 - Z.of_nat i).
Proof.
  intros Hi. unfold poly_of_block.
  assert (K : forall n, Z.testbit (xsum (fun i => if Z.testbit v (127 - Z.of_nat i) then 2 ^ Z.of_nat i else 0) n) (Z.of_nat i) = ((i <? n)%nat && Z.testbit v (127 - Z.of_nat i))).
  { induction n as [|n IH]; [apply Z.bits_0|]. cbn [xsum]. rewrite Z.lxor_spec, IH.
    destruct (Nat.eq_dec i n) as [->|E].
    - replace (n <? n)%nat with false by (symmetry; apply Nat.ltb_ge; lia). replace (n <? S n)%nat with true by (symmetry; apply Nat.ltb_lt; lia). cbn [andb].
      destruct (Z.testbit v _); [rewrite bit_pow2, Z.eqb_refl by lia; reflexivity|rewrite Z.bits_0; reflexivity].
    - replace (i <? S n)%nat with (i <? n)%nat by (apply Bool.eq_iff_eq_true; rewrite !Nat.ltb_lt; lia).
      assert (Z.testbit (if Z.testbit v (127 - Z.of_nat n) then 2 ^ Z.of_nat n else 0) (Z.of_nat i) = false) as ->.
      { destruct (Z.testbit v (127 - Z.of_nat n)); [rewrite bit_pow2 by lia; apply Z.eqb_neq; lia|apply Z.bits_0]. }
      apply Bool.xorb_false_r. }
  rewrite K. replace (i <? 128)%nat with true by (symmetry; apply Nat.ltb_lt; lia). reflexivity.
Qed.
Lemma poly_x v : word_ok 128 v -> poly_of_block (gf_x v) = Z.lxor (Z.shiftl (poly_of_block v) 1) (if Z.testbit v 0 then gcm_poly else 0).
Proof.
  apply (lin_ext (fun v => poly_of_block (gf_x v)) (fun v => Z.lxor (Z.shiftl (poly_of_block v) 1) (if Z.testbit v 0 then gcm_poly else 0)) 128).
  - apply (lin_comp poly_of_block gf_x); [apply poly_lin|apply gf_x_lin].
  - apply lin_xor; [apply (lin_comp (fun x => Z.shiftl x 1) poly_of_block); [apply lin_shl|apply poly_lin]|apply lin_bit].
  - vm_compute. reflexivity.
Qed.
Lemma poly_iter Y i : word_ok 128 Y -> (i < 128)%nat -> exists q, 0 <= q < 2 ^ Z.of_nat i /\
  poly_of_block (Nat.iter i gf_x Y) = Z.lxor (Z.shiftl (poly_of_block Y) (Z.of_nat i)) (pmul gcm_poly q).
Proof.
  intros HY. induction i as [|i IH]; intros Hi.
  - exists 0. split; [cbn; lia|]. rewrite pmul_0, Z.lxor_0_r. change (Z.of_nat 0) with 0. rewrite Z.shiftl_0_r. reflexivity.
  - destruct (IH ltac:(lia)) as (q & Hq & E). rewrite iter_S, poly_x by (apply iter_x_ok; assumption). rewrite E.
    exists (Z.lxor (Z.shiftl q 1) (if Z.testbit (Nat.iter i gf_x Y) 0 then 1 else 0)).
    assert (P1 : 2 ^ Z.of_nat (S i) = 2 * 2 ^ Z.of_nat i) by (replace (Z.of_nat (S i)) with (1 + Z.of_nat i) by lia; apply Z.pow_add_r; lia).
    assert (Hq1 : 2 ^ Z.of_nat i <= 2 ^ 127) by (apply Z.pow_le_mono_r; lia).
    split; [apply (lxor_bound (Z.of_nat (S i))); [lia|rewrite Z.shiftl_mul_pow2 by lia; lia|destruct (Z.testbit _ 0); lia]|].
    rewrite pmul_xor, pmul_double by lia. rewrite Z.shiftl_lxor, Z.shiftl_shiftl by lia.
    replace (Z.of_nat i + 1) with (Z.of_nat (S i)) by lia. rewrite <- !Z.lxor_assoc. f_equal.
    destruct (Z.testbit _ 0); [rewrite pmul_1|rewrite pmul_0]; reflexivity.
Qed.
Theorem gf_mult_field X Y : word_ok 128 X -> word_ok 128 Y -> exists q,
  pmul (poly_of_block Y) (poly_of_block X) = Z.lxor (poly_of_block (gf_mult X Y)) (pmul gcm_poly q).
Proof.
  intros HX HY. rewrite gf_mult_sum. unfold gsum.
  assert (K : forall n, (n <= 128)%nat -> exists q,
     xsum (fun i => if Z.testbit X (127 - Z.of_nat i) then Z.shiftl (poly_of_block Y) (Z.of_nat i) else 0) n =
     Z.lxor (xsum (fun i => poly_of_block (if Z.testbit X (127 - Z.of_nat i) then Nat.iter i gf_x Y else 0)) n) (pmul gcm_poly q)).
  { induction n as [|n IH]; intros Hn.
    - exists 0. rewrite pmul_0. reflexivity.
    - destruct (IH ltac:(lia)) as (q & E). cbn [xsum]. rewrite E. destruct (Z.testbit X _).
      + destruct (poly_iter Y n HY ltac:(lia)) as (q' & _ & ->). exists (Z.lxor q q'). rewrite pmul_xor. xor_ac.
      + exists q. rewrite (lin_0 _ poly_lin). rewrite !Z.lxor_0_r. reflexivity. }
  destruct (K 128%nat ltac:(lia)) as (q & E). exists q. rewrite (xsum_lin _ poly_of_block) in E by apply poly_lin.
  transitivity (xsum (fun i => if Z.testbit X (127 - Z.of_nat i) then Z.shiftl (poly_of_block Y) (Z.of_nat i) else 0) 128).
  - apply pmul_bits. intros i Hi. apply poly_bit. assumption.
  - rewrite E. reflexivity.
Qed.
Lemma gf_mult_field_word X Y : word_ok 128 Y -> word_ok 128 (gf_mult X Y) /\ 0 <= poly_of_block (gf_mult X Y) < 2 ^ 128.
Proof. intros H. split; [apply gf_mult_ok; assumption|apply poly_bound]. Qed.
Lemma pclmul_is_table h x : blk h -> blk x -> pclmul_mult h x = tab_mult (tab_init h) x.
Proof. intros Hh Hx. rewrite pclmul_mult_ok, tab_mult_ok by assumption. reflexivity. Qed.
