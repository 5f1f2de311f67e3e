(* The blocks of 128 bits with xor and Algorithm 1 of SP 800-38D form a field; here, a ring without zero divisors. *)
From Coq Require Import Eqdep_dec Ring Ring_theory.
From Verif Require Import Prelude PreludeFacts BytesNum Word SpecGhash LinBits Ghash.

Lemma iter_comm {A} (f g : A -> A) n x : (forall y, f (g y) = g (f y)) -> f (Nat.iter n g x) = Nat.iter n g (f x).
Proof. intros H. induction n as [|n IH]; [reflexivity|]. rewrite !iter_S. now rewrite H, IH. Qed.
Lemma gf_mult_lin_r X : lin (gf_mult X).
Proof. intros a b. rewrite !gf_mult_sum. apply gsum_lin_r. Qed.
Lemma gf_mult_lin_l H : lin (fun X => gf_mult X H).
Proof. intros a b. rewrite !gf_mult_sum. apply (gsum_lin_l 128 H). Qed.
Lemma gf_mult_x X Y : gf_mult X (gf_x Y) = gf_x (gf_mult X Y).
Proof.
  rewrite !gf_mult_sum. unfold gsum. rewrite <- (xsum_lin _ gf_x) by exact gf_x_lin. apply xsum_ext. intros i Hi.
  destruct (Z.testbit X _); [|symmetry; apply lin_0, gf_x_lin]. symmetry. now apply iter_comm.
Qed.
Lemma gf_mult_swap X Y Z : gf_mult X (gf_mult Y Z) = gf_mult Y (gf_mult X Z).
Proof.
  rewrite (gf_mult_sum Y Z), (gf_mult_sum Y (gf_mult X Z)). unfold gsum. rewrite <- (xsum_lin _ (gf_mult X)) by apply gf_mult_lin_r.
  apply xsum_ext. intros i Hi. destruct (Z.testbit Y _); [|apply lin_0, gf_mult_lin_r]. apply iter_comm. intros y. apply gf_mult_x.
Qed.
Definition gf_one : Z := 2 ^ 127.
Lemma gf_mult_1_r X : word_ok 128 X -> gf_mult X gf_one = X.
Proof. intros H. apply (lin_ext (fun X => gf_mult X gf_one) (fun X => X) 128); [apply gf_mult_lin_l|apply lin_id|vm_compute; reflexivity|exact H]. Qed.
Lemma gf_mult_comm X Y : word_ok 128 X -> word_ok 128 Y -> gf_mult X Y = gf_mult Y X.
Proof. intros HX HY. rewrite <- (gf_mult_1_r Y HY) at 1. rewrite gf_mult_swap. now rewrite gf_mult_1_r. Qed.
Lemma gf_mult_assoc X Y Z : word_ok 128 X -> word_ok 128 Y -> word_ok 128 Z -> gf_mult X (gf_mult Y Z) = gf_mult (gf_mult X Y) Z.
Proof.
  intros HX HY HZ. rewrite (gf_mult_comm (gf_mult X Y) Z (gf_mult_ok X Y HY) HZ). rewrite (gf_mult_swap Z X Y).
  now rewrite (gf_mult_comm Z Y HZ HY).
Qed.

(* ---- the ring of the blocks ---- *)
Definition in128 (x : Z) : bool := (0 <=? x) && (x <? 2 ^ 128).
Lemma in128_ok x : in128 x = true <-> word_ok 128 x.
Proof. unfold in128, word_ok. lia. Qed.
Definition G : Type := {x : Z | in128 x = true}.
Definition val (a : G) : Z := proj1_sig a.
Lemma val_ok (a : G) : word_ok 128 (val a).
Proof. apply in128_ok, (proj2_sig a). Qed.
Lemma val_inj (a b : G) : val a = val b -> a = b.
Proof. destruct a as (x & X), b as (y & Y). cbn. intros ->. f_equal. apply UIP_dec, Bool.bool_dec. Qed.
Definition mk (x : Z) (H : word_ok 128 x) : G := exist _ x (proj2 (in128_ok x) H).
Lemma val_mk x H : val (mk x H) = x. Proof. reflexivity. Qed.
Lemma xor_ok a b : word_ok 128 a -> word_ok 128 b -> word_ok 128 (Z.lxor a b).
Proof. apply word_ok_lxor. lia. Qed.
Definition gadd (a b : G) : G := mk (Z.lxor (val a) (val b)) (xor_ok _ _ (val_ok a) (val_ok b)).
Definition gmul (a b : G) : G := mk (gf_mult (val a) (val b)) (gf_mult_ok _ _ (val_ok b)).
Lemma val_add a b : val (gadd a b) = Z.lxor (val a) (val b). Proof. reflexivity. Qed.
Lemma val_mul a b : val (gmul a b) = gf_mult (val a) (val b). Proof. reflexivity. Qed.
Lemma ok_0 : word_ok 128 0. Proof. unfold word_ok. lia. Qed.
Lemma ok_1 : word_ok 128 gf_one. Proof. unfold word_ok, gf_one. lia. Qed.
Definition g0 : G := mk 0 ok_0.
Definition g1 : G := mk gf_one ok_1.
Lemma G_ring : ring_theory g0 g1 gadd gmul gadd (fun x => x) eq.
Proof.
  constructor; intros; apply val_inj; cbn [val gadd gmul mk proj1_sig g0 g1]; try change (proj1_sig ?a) with (val a).
  - apply Z.lxor_0_l.
  - apply Z.lxor_comm.
  - symmetry. apply Z.lxor_assoc.
  - rewrite gf_mult_comm; [apply gf_mult_1_r|exact ok_1|]; apply val_ok.
  - apply gf_mult_comm; apply val_ok.
  - apply gf_mult_assoc; apply val_ok.
  - apply (gf_mult_lin_l (val z) (val x) (val y)).
  - reflexivity.
  - apply Z.lxor_nilpotent.
Qed.
Add Ring GR : G_ring.
Lemma g_double a : gadd a a = g0.
Proof. apply val_inj. apply Z.lxor_nilpotent. Qed.

(* ---- squaring ---- *)
Definition sq (a : G) : G := gmul a a.
Lemma sq_add a b : sq (gadd a b) = gadd (sq a) (sq b).
Proof. unfold sq. transitivity (gadd (gadd (gmul a a) (gmul b b)) (gadd (gmul a b) (gmul a b))); [ring|]. rewrite g_double. ring. Qed.
Lemma sq_mul a b : sq (gmul a b) = gmul (sq a) (sq b). Proof. unfold sq. ring. Qed.
Lemma sqn_add n a b : Nat.iter n sq (gadd a b) = gadd (Nat.iter n sq a) (Nat.iter n sq b).
Proof. induction n as [|n IH]; [reflexivity|]. rewrite !iter_S, IH. apply sq_add. Qed.
Lemma sqn_mul n a b : Nat.iter n sq (gmul a b) = gmul (Nat.iter n sq a) (Nat.iter n sq b).
Proof. induction n as [|n IH]; [reflexivity|]. rewrite !iter_S, IH. apply sq_mul. Qed.
Lemma sqn_val n a : val (Nat.iter n sq a) = Nat.iter n (fun x => gf_mult x x) (val a).
Proof. induction n as [|n IH]; [reflexivity|]. rewrite !iter_S, <- IH. reflexivity. Qed.
(* additive functions that agree on the powers of two *)
Lemma pow_ok j : (j < 128)%nat -> word_ok 128 (2 ^ Z.of_nat j).
Proof. intros J. unfold word_ok. split; [apply Z.pow_nonneg; lia|]. apply Z.pow_lt_mono_r; lia. Qed.
Lemma add_ext (f g : G -> G) : (forall a b, f (gadd a b) = gadd (f a) (f b)) -> (forall a b, g (gadd a b) = gadd (g a) (g b)) ->
  (forall j (J : (j < 128)%nat), f (mk _ (pow_ok j J)) = g (mk _ (pow_ok j J))) -> forall a, f a = g a.
Proof.
  intros Hf Hg B.
  assert (Z0 : forall h : G -> G, (forall a b, h (gadd a b) = gadd (h a) (h b)) -> h g0 = g0).
  { intros h Hh. pose proof (Hh g0 g0) as E. rewrite !g_double in E. exact E. }
  assert (K : forall m, (m <= 128)%nat -> forall a, val a < 2 ^ Z.of_nat m -> f a = g a).
  2:{ intros a. apply (K 128%nat); [lia|]. apply val_ok. }
  induction m as [|m IH]; intros Hm a Ha.
  - change (2 ^ Z.of_nat 0) with 1 in Ha. pose proof (val_ok a) as V. unfold word_ok in V. assert (a = g0) as -> by (apply val_inj; cbn; lia). now rewrite (Z0 f), (Z0 g).
  - pose proof (val_ok a) as V. unfold word_ok in V.
    assert (HL : word_ok 128 (val a mod 2 ^ Z.of_nat m)).
    { pose proof (Z.mod_pos_bound (val a) (2 ^ Z.of_nat m) ltac:(lia)). pose proof (Z.mod_le (val a) (2 ^ Z.of_nat m) ltac:(lia) ltac:(lia)). unfold word_ok. lia. }
    assert (E : a = gadd (mk _ HL) (if Z.testbit (val a) (Z.of_nat m) then mk _ (pow_ok m Hm) else g0)).
    { apply val_inj. cbn [val gadd mk proj1_sig]. change (proj1_sig a) with (val a). rewrite (split_bit (val a) (Z.of_nat m)) at 1 by (try replace (Z.of_nat m + 1) with (Z.of_nat (S m)) by lia; lia). f_equal. destruct (Z.testbit (val a) (Z.of_nat m)); reflexivity. }
    rewrite E, Hf, Hg. f_equal; [apply IH; [lia|]; cbn; apply Z.mod_pos_bound; lia|].
    destruct (Z.testbit (val a) (Z.of_nat m)); [apply B|now rewrite (Z0 f), (Z0 g)].
Qed.
(* x, and its powers *)
Lemma ok_x : word_ok 128 (2 ^ 126). Proof. unfold word_ok. lia. Qed.
Definition gx : G := mk _ ok_x.
Lemma gf_mult_x1 y : word_ok 128 y -> gf_mult (2 ^ 126) y = gf_x y.
Proof. intros H. apply (lin_ext (gf_mult (2 ^ 126)) gf_x 128); [apply gf_mult_lin_r|exact gf_x_lin|vm_compute; reflexivity|exact H]. Qed.
Lemma pow_x j (J : (j < 128)%nat) : mk _ (pow_ok j J) = Nat.iter (127 - j) (gmul gx) g1.
Proof.
  apply val_inj. transitivity (Nat.iter (127 - j) gf_x gf_one).
  - cbn [val mk proj1_sig]. apply Z.eqb_eq. revert j J.
    assert (C : forallb (fun j => 2 ^ Z.of_nat j =? Nat.iter (127 - j) gf_x gf_one) (seq 0 128) = true) by (vm_compute; reflexivity).
    rewrite forallb_forall in C. intros j J. apply C, in_seq. lia.
  - generalize (127 - j)%nat. induction n as [|n IH]; [reflexivity|]. rewrite !iter_S, IH. symmetry. apply (gf_mult_x1 (val (Nat.iter n (gmul gx) g1))), val_ok.
Qed.
Lemma frob_x : Nat.iter 128 sq gx = gx.
Proof. apply val_inj. rewrite sqn_val. vm_compute. reflexivity. Qed.
Lemma frob_1 n : Nat.iter n sq g1 = g1.
Proof. induction n as [|n IH]; [reflexivity|]. rewrite iter_S, IH. unfold sq. ring. Qed.
Lemma frob a : Nat.iter 128 sq a = a.
Proof.
  apply (add_ext (Nat.iter 128 sq) (fun a => a)); [apply sqn_add|reflexivity|]. intros j J. rewrite pow_x.
  generalize (127 - j)%nat. induction n as [|n IH]; [apply frob_1|]. rewrite (iter_S (gmul gx) n g1), sqn_mul, IH, frob_x. reflexivity.
Qed.

(* ---- the only idempotents are 0 and 1: a left inverse of a -> a^2 + a, up to the constant coefficient ---- *)
Definition gf_left : list Z := [
  0x0; 0x4a2ade42a1db558927495c4d4e62fc1; 0x35bd0e43ef6cf78dcef750ee63bd3171;
  0x41d77801d619af2a38dab35b297373a6; 0x36dc3b3404788e15d4cfd6f8f5447461; 0x7adc3b3404788e15d4cfd6f8f5447467;
  0x5f67891c31b7edb03c86875f90384d1c; 0x646cca29e3d6cc8fd093e2fc4c0f4ad5; 0x51eae8be2fe60df61bf9191de1788d94;
  0x36e717e02724b8e1d1527df73b8e8241; 0x5f86cdbc744e28fe3430f49ddf071154; 0x2561da5c536a901fe562896ae4899333;
  0x99a6e1cca2f8641a0b0910804c90841; 0x2cfbb4409945165e45d21862e0409b32; 0xd94d9da18080030c4db699e5dc0;
  0x197d9b438cafcf2f8e88275824a90133; 0x645919a4b35879f7d7a68d71cb5770d5; 0x7348a7e5645f93d076e747a9d181ec26;
  0x602105ae977251e64834e0c2dd2d5a94; 0x2c14dbb71e26fc964f314b9433eb3eb2; 0x44eaa59bd8819a999287fa5ed58ad81;
  0x77dcb1c60e3ad5c9e2190477682adba7; 0x701c741cbd9fc8b06b94eadf79b8c426; 0x46f806225397f491bb49eab33e4cf467;
  0x79b07befedd921e9cd751ec18ebeebe7; 0x56f3167fe31302df9eb885b869165d55; 0x6462e2cc93c28627d2d0526e0d66c2d5;
  0x1a24eaaa541c8b0f9092b01169688933; 0x4bf6a9a1f02e1f698fec4b1a74166be7; 0x21ce3a83c07744de74dad50f0d583b32;
  0x634efa836deeebf650dae654442b4894; 0x224d20acccef41ee67fd0ac2e3641972; 0x4bf8b9d33b8f38198de17cdee54751e7;
  0x698e6217d7fa8627ef6aa903c013fa95; 0x457534e82f16f649aa2d862c91005ba7; 0x144558bb6c9dfcd7bc4c239cf48626f3;
  0x3cfddc25f2ae2df86391fd8d3387a7c0; 0x2bd77bb364af6b3fc733d8875e039333; 0x26d44eb77ddd535ff0b1c738de72bb33;
  0x6aef57603cdbfceff55228f556d54755; 0x285aabc679b16ad7d6c2852abfdb1eb3; 0x38e6217d7f479d8109554569546afc0;
  0x79880aa666d696d9c926622882fff1e7; 0x312705524db61730583bcf844c342240; 0x5c33b52f8947e9462158188b7248d294;
  0x3bdc8ad604b36599e246fae899f68fc1; 0x72ccff3fd3d186182e1ce9a41041041; 0x5252e8c1d3a8e3be0d2c5beb59e57554;
  0x489a0b11781e0c1196cc4fdebc394c27; 0x1af0929920b9589f9fb368dce89d2373; 0x2f76850d57908a5e54a716d46cf0bb32;
  0x3f46b4c41d7d395874f4e33b9d331780; 0x7986f6afcfc951e9cb9188c1a5beebe7; 0x258e6f54bc4bf6f7ef54f70e70ef2ef3;
  0x55aabdbeec28a2078079924a4cd2f295; 0x229a33517c61d3ee69739a8be16c1972; 0x49a065cd7758d5196f0e3578d383201;
  0x428019a10caacb8824c8241264b2fba6; 0x4622ba58b211bb21b69fb337b1785627; 0x5cea6fd5b105659e2d1ccaeb5d2c7d54;
  0x36e9eb0be64d6b99d3ec2e5e502bb781; 0x5ce7c3e3d68e47f62e5390ab45fe70d4; 0x329f337db88e12004e8e904902080000;
  0x48afd66e759a994991d0e977a9aa5ba7; 0x4a2ade42a1db559927495c4d4e62fc1; 0x41d77801d619af2838dab35b297373a6;
  0x7adc3b3404788e11d4cfd6f8f5447467; 0x646cca29e3d6cc87d093e2fc4c0f4ad5; 0x36e717e02724b8f1d1527df73b8e8241;
  0x2561da5c536a903fe562896ae4899333; 0x2cfbb4409945161e45d21862e0409b32; 0x197d9b438cafcfaf8e88275824a90133;
  0x7348a7e5645f92d076e747a9d181ec26; 0x2c14dbb71e26fe964f314b9433eb3eb2; 0x77dcb1c60e3ad1c9e2190477682adba7;
  0x46f806225397fc91bb49eab33e4cf467; 0x56f3167fe31312df9eb885b869165d55; 0x1a24eaaa541cab0f9092b01169688933;
  0x21ce3a83c07704de74dad50f0d583b32; 0x224d20acccefc1ee67fd0ac2e3641972; 0x698e6217d7fb8627ef6aa903c013fa95;
  0x144558bb6c9ffcd7bc4c239cf48626f3; 0x2bd77bb364ab6b3fc733d8875e039333; 0x6aef57603cd3fceff55228f556d54755;
  0x38e6217d7e479d8109554569546afc0; 0x312705524d961730583bcf844c342240; 0x3bdc8ad604f36599e246fae899f68fc1;
  0x5252e8c1d328e3be0d2c5beb59e57554; 0x1af0929921b9589f9fb368dce89d2373; 0x3f46b4c41f7d395874f4e33b9d331780;
  0x258e6f54b84bf6f7ef54f70e70ef2ef3; 0x229a33517461d3ee69739a8be16c1972; 0x428019a11caacb8824c8241264b2fba6;
  0x5cea6fd59105659e2d1ccaeb5d2c7d54; 0x5ce7c3e3968e47f62e5390ab45fe70d4; 0x48afd66ef59a994991d0e977a9aa5ba7;
  0x41d77800d619af2838dab35b297373a6; 0x646cca2be3d6cc87d093e2fc4c0f4ad5; 0x2561da58536a903fe562896ae4899333;
  0x197d9b4b8cafcfaf8e88275824a90133; 0x2c14dba71e26fe964f314b9433eb3eb2; 0x46f806025397fc91bb49eab33e4cf467;
  0x1a24eaea541cab0f9092b01169688933; 0x224d202cccefc1ee67fd0ac2e3641972; 0x144559bb6c9ffcd7bc4c239cf48626f3;
  0x6aef55603cd3fceff55228f556d54755; 0x312701524d961730583bcf844c342240; 0x5252e0c1d328e3be0d2c5beb59e57554;
  0x3f46a4c41f7d395874f4e33b9d331780; 0x229a13517461d3ee69739a8be16c1972; 0x5cea2fd59105659e2d1ccaeb5d2c7d54;
  0x48af566ef59a994991d0e977a9aa5ba7; 0x646dca2be3d6cc87d093e2fc4c0f4ad5; 0x197f9b4b8cafcfaf8e88275824a90133;
  0x46fc06025397fc91bb49eab33e4cf467; 0x2245202cccefc1ee67fd0ac2e3641972; 0x6aff55603cd3fceff55228f556d54755;
  0x5272e0c1d328e3be0d2c5beb59e57554; 0x22da13517461d3ee69739a8be16c1972; 0x482f566ef59a994991d0e977a9aa5ba7;
  0x187f9b4b8cafcfaf8e88275824a90133; 0x2045202cccefc1ee67fd0ac2e3641972; 0x5672e0c1d328e3be0d2c5beb59e57554;
  0x402f566ef59a994991d0e977a9aa5ba7; 0x3045202cccefc1ee67fd0ac2e3641972; 0x602f566ef59a994991d0e977a9aa5ba7;
  0x202f566ef59a994991d0e977a9aa5ba7; 0x10d04d25f93556e69f58ce2f8d035a94].

Definition left_inv (v : Z) : Z := xsum (fun i => if Z.testbit v (Z.of_nat i) then nth i gf_left 0 else 0) 128.
Lemma left_inv_lin : lin left_inv.
Proof. apply (lin_xsum (fun v i => if Z.testbit v (Z.of_nat i) then nth i gf_left 0 else 0)). intros i. apply lin_bit. Qed.
Lemma left_inv_ok v : word_ok 128 (left_inv v).
Proof.
  unfold word_ok, left_inv. apply xsum_bound; [lia|]. intros i Hi. destruct (Z.testbit v _); [|lia]. revert i Hi.
  assert (C : forallb (fun i => in128 (nth i gf_left 0)) (seq 0 128) = true) by (vm_compute; reflexivity). rewrite forallb_forall in C. intros i Hi. apply in128_ok, C, in_seq. lia.
Qed.
Lemma low_ok v : word_ok 128 (v mod 2 ^ 127).
Proof. unfold word_ok. pose proof (Z.mod_pos_bound v (2 ^ 127) ltac:(lia)). lia. Qed.
Lemma berlekamp a : left_inv (val (gadd (sq a) a)) = val a mod 2 ^ 127.
Proof.
  rewrite <- (val_mk _ (left_inv_ok (val (gadd (sq a) a)))), <- (val_mk _ (low_ok (val a))). f_equal. revert a.
  apply (add_ext (fun a => mk _ (left_inv_ok (val (gadd (sq a) a)))) (fun a => mk _ (low_ok (val a)))).
  - intros x y. apply val_inj. rewrite (val_add (mk _ _) (mk _ _)), !val_mk, sq_add, <- left_inv_lin, !val_add. f_equal. xor_ac.
  - intros x y. apply val_inj. rewrite (val_add (mk _ _) (mk _ _)), !val_mk, val_add. apply (lin_mod 127). lia.
  - intros j J. apply val_inj. rewrite !val_mk, val_add. unfold sq. rewrite val_mul, !val_mk. apply Z.eqb_eq. revert j J.
    assert (C : forallb (fun j => left_inv (Z.lxor (gf_mult (2 ^ Z.of_nat j) (2 ^ Z.of_nat j)) (2 ^ Z.of_nat j)) =? (2 ^ Z.of_nat j) mod 2 ^ 127) (seq 0 128) = true) by (vm_compute; reflexivity).
    rewrite forallb_forall in C. intros j J. apply (C j), in_seq. lia.
Qed.
Lemma idempotent a : sq a = a -> a = g0 \/ a = g1.
Proof.
  intros E. pose proof (berlekamp a) as B. rewrite E, g_double in B. change (left_inv (val g0)) with (left_inv 0) in B. rewrite (lin_0 _ left_inv_lin) in B.
  pose proof (val_ok a) as V. unfold word_ok in V. pose proof (Z.div_mod (val a) (2 ^ 127) ltac:(lia)) as D. rewrite <- B in D.
  assert (val a / 2 ^ 127 = 0 \/ val a / 2 ^ 127 = 1) as [H|H].
  { assert (0 <= val a / 2 ^ 127 < 2) by (split; [apply Z.div_pos; lia|apply Z.div_lt_upper_bound; lia]). lia. }
  - left. apply val_inj. change (val g0) with 0. lia.
  - right. apply val_inj. change (val g1) with (2 ^ 127). lia.
Qed.

(* ---- no zero divisors ---- *)
(* a^(2^n - 1) *)
Fixpoint tpow (a : G) (n : nat) : G := match n with O => g1 | S n => gmul (sq (tpow a n)) a end.
Lemma tpow_ok a n : gmul a (tpow a n) = Nat.iter n sq a.
Proof. induction n as [|n IH]; [change (gmul a g1 = a); ring|]. rewrite iter_S, <- IH. cbn [tpow]. unfold sq. ring. Qed.
Theorem G_domain a b : gmul a b = g0 -> a = g0 \/ b = g0.
Proof.
  intros H. set (e := tpow a 128). assert (A : gmul a e = a) by (unfold e; rewrite tpow_ok; apply frob).
  set (t := sq (tpow a 127)). assert (E : e = gmul t a) by reflexivity.
  assert (I : sq e = e) by (unfold sq; rewrite E at 1; transitivity (gmul t (gmul a e)); [ring|]; rewrite A; symmetry; exact E).
  assert (B : gmul e b = g0) by (rewrite E; transitivity (gmul t (gmul a b)); [ring|]; rewrite H; ring).
  destruct (idempotent e I) as [F|F]; rewrite F in *.
  - left. rewrite <- A. ring.
  - right. rewrite <- B. ring.
Qed.
