(* Property C98: what a collision of SHA-3 or Keccak is.  Vocabulary in SpecSponge.v: [absorbed l], the state after the blocks l;
   [capacity_part r A], the lanes of A that blocks of r bits do not reach; [inner_collision r l1 l2], different beginnings of l1
   and l2 lead to states with the same capacity part; [output_collision n l1 l2], the permutation is applied last to different
   states and the first n bytes of the results are the same. *)
From Verif Require Import Prelude BytesNum SpecBlock SpecKeccak HashModel HashSpec KeccakModel Keccak KeccakPerm SpecCollide SpecSponge HmacCollide SpongeInner.

(* KeccakPermutation (keccak.c) maps different states to different states. *)
Theorem C98_permutation : forall A B, length A = 25%nat -> length B = 25%nat -> Forall (fun x => 0 <= x < 2 ^ 64) A -> Forall (fun x => 0 <= x < 2 ^ 64) B ->
  KeccakPermutation A = KeccakPermutation B -> A = B.
Proof.
  intros A B LA LB WA WB E. assert (HA : ok25 A) by (split; assumption). assert (HB : ok25 B) by (split; assumption).
  rewrite (proj1 (permutation_ok A HA)), (proj1 (permutation_ok B HB)) in E. exact (keccak_f_inj A B HA HB E).
Qed.
Print Assumptions C98_permutation.
(* Different messages have different digests, unless there is a collision of one of the two kinds. *)
Theorem C98_sha3 : forall fresh sz official o ops1 ops2, (forall n, 0 <= n -> zlen (fresh n) = n) -> sha3_new fresh sz official = Ret o ->
  Forall hop_valid ops1 -> Forall hop_valid ops2 -> added ops1 <> added ops2 ->
  let blocks m := chunks (200 - sz / 4) (sponge_input (1600 - 2 * sz) (if official then [false; true] else []) m) in
  result_of o ops1 <> result_of o ops2 \/
  inner_collision (1600 - 2 * sz) (blocks (added ops1)) (blocks (added ops2)) \/
  output_collision (Z.to_nat (sz / 8)) (blocks (added ops1)) (blocks (added ops2)).
Proof. intros fresh sz official o ops1 ops2 Hf Ho V1 V2 N. cbv zeta. destruct (out_dec (result_of o ops1) (result_of o ops2)) as [E|E]; [right|left; exact E]. exact (sha3_inner fresh sz official o ops1 ops2 Hf Ho V1 V2 N E). Qed.
Print Assumptions C98_sha3.
(* Conversely, two sequences of blocks with the same capacity part give two messages with the same digest, however they are added. *)
Theorem C98_converse : forall fresh sz official o p1 p2, (forall n, 0 <= n -> zlen (fresh n) = n) -> sha3_new fresh sz official = Ret o ->
  Forall (fun b => zlen b = 200 - sz / 4 /\ bytes_ok b) p1 -> Forall (fun b => zlen b = 200 - sz / 4 /\ bytes_ok b) p2 -> p1 <> p2 ->
  capacity_part (1600 - 2 * sz) (absorbed p1) = capacity_part (1600 - 2 * sz) (absorbed p2) ->
  exists m1 m2, bytes_ok m1 /\ bytes_ok m2 /\ m1 <> m2 /\
    forall ops1 ops2, Forall hop_valid ops1 -> Forall hop_valid ops2 -> added ops1 = m1 -> added ops2 = m2 -> result_of o ops1 = result_of o ops2.
Proof. exact sha3_converse. Qed.
Print Assumptions C98_converse.
(* Cases: the hypotheses of C98_converse can be met (the states are in finite number), here for SHA3-256; two messages of one byte
   and of two; the permutation on two states. *)
Example C98_inner_case : exists p1 p2, Forall (fun b => zlen b = 200 - 256 / 4 /\ bytes_ok b) p1 /\ Forall (fun b => zlen b = 200 - 256 / 4 /\ bytes_ok b) p2 /\ p1 <> p2 /\
  capacity_part (1600 - 2 * 256) (absorbed p1) = capacity_part (1600 - 2 * 256) (absorbed p2).
Proof. exact (inner_exists (1600 - 2 * 256) (200 - 256 / 4) eq_refl eq_refl). Qed.
Example C98_case : match (olet o := sha3_new zeros 256 true in result_of o [HByte 98]), (olet o := sha3_new zeros 256 true in result_of o [HString [98; 6]]) with
  | Ret x, Ret y => hd 0 x =? hd 0 y | _, _ => true end = false.
Proof. vm_compute. reflexivity. Qed.
Example C98_permutation_case : map (fun x => nth 0 (KeccakPermutation (x :: repeat 0 24)) 0) [0; 1] = [17376452488221285863; 16332660537102635974].
Proof. vm_compute. reflexivity. Qed.
