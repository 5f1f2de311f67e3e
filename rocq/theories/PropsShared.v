(* Several objects built on one block cipher object: C106. *)
From Verif Require Import Prelude SpecTransducer BufOutModel TransformModel HashModel HashSpec BlockModel CipherModel MacModel SharedModel SpecShared
  AesModel AesniModel DesModel BlowfishModel Shared Toy.

(* C106.  Any number of ciphers and MACs built on one block cipher object, used in any order:
   each of them sees what it would see with a block cipher of its own, as long as no other one
   is wiped. *)
Theorem C106_shared : forall fresh C0 (k : bc_st C0) w l j, stateless C0 -> (forall i, uses fresh C0 (u_cl (w i))) -> (forall i, cl_get (u_cl (w i)) (u_s (w i)) = k) ->
  forallb (fun e => Nat.eqb (fst e) j || negb (wiping (snd e))) l = true ->
  seen_by j (shared_run k w l) = alone_run C0 (w j) (map Mine (calls_of j l)).
Proof. intros fresh C0 k w l j H1 H2 H3 H4. rewrite <- (own_no_wipe l j H4). exact (shared fresh C0 k w l j H1 H2 H3). Qed.
Print Assumptions C106_shared.
(* in general, the wipe of another object is the wipe of the block cipher, and nothing else *)
Theorem C106_wipes : forall fresh C0 (k : bc_st C0) w l j, stateless C0 -> (forall i, uses fresh C0 (u_cl (w i))) -> (forall i, cl_get (u_cl (w i)) (u_s (w i)) = k) ->
  seen_by j (shared_run k w l) = alone_run C0 (w j) (own j l).
Proof. exact shared. Qed.
Print Assumptions C106_wipes.
(* the block ciphers of the library do not change when they transform *)
Theorem C106_library : forall d key o,
  (exists fresh, new_aes fresh d key = Ret o) \/ (exists fresh, new_aesni fresh d key = Ret o) \/ new_des d key = Ret o \/ new_triple_des d key = Ret o \/ new_blowfish d key = Ret o ->
  stateless (b_bc o).
Proof. exact library_stateless. Qed.
Print Assumptions C106_library.
(* the objects the library builds on a block cipher are among those meant *)
Theorem C106_objects : forall fresh C0 (k : bc_st C0),
  (forall mode padding iv d o, make_block_cipher fresh mode padding iv d (BObj C0 k) = Ret o -> exists l, uses fresh C0 (tr_client (o_tr o) l) /\ l_get l (o_st o) = k) /\
  (forall iv p o, mac_new fresh iv p (BObj C0 k) = Ret o -> exists l, uses fresh C0 (h_client (ho_class o) l) /\ l_get l (ho_st o) = k) /\
  (forall iv k1 k2 o, cmac_new fresh iv (BObj C0 k) k1 k2 = Ret o -> exists l, uses fresh C0 (h_client (ho_class o) l) /\ l_get l (ho_st o) = k).
Proof. intros fresh C0 k. exact (conj (fun mode padding iv d o => block_uses fresh mode padding iv d C0 k o) (conj (fun iv p o => mac_uses fresh iv p C0 k o) (fun iv k1 k2 o => cmac_uses fresh iv k1 k2 C0 k o))). Qed.
Print Assumptions C106_objects.

(* two CBC encryptions and a MAC on one DES object *)
Local Definition key : bytes := [19; 52; 87; 121; 155; 188; 223; 241].
Local Definition k0 : bc_st des_class := d3des_cook_key key Encrypt.
Local Definition cbc (iv : Z) : user (bc_st des_class) :=
  User (tr_client (cipher toy_fresh (cbc_encrypt des_class)) (lens_in (at_cipher (cbc_encrypt des_class)) (lens_in (at_mode des_class) at_self)))
       (cipher_new toy_fresh (cbc_encrypt des_class) (MS (C := des_class) (repeat iv 8) (repeat 0 8) 0 k0)).
Local Definition amac : user (bc_st des_class) :=
  User (h_client (mac des_class None) (lens_in (at_mac des_class) at_self)) (MSt (C := des_class) (repeat 0 8) (repeat 0 8) 0 k0).
Local Definition objects (i : nat) : user (bc_st des_class) := match i with O => cbc 0 | S O => cbc 1 | _ => amac end.
Local Definition program : list (nat * call) :=
  [(0%nat, TCall (PutString [1; 2; 3; 4; 5; 6; 7; 8])); (1%nat, TCall (PutString [1; 2; 3])); (2%nat, HCall (HString [1; 2; 3; 4; 5; 6; 7; 8])); (0%nat, TCall Finish);
   (1%nat, TCall (PutString [4; 5; 6; 7; 8])); (2%nat, HResult); (0%nat, TCall GetString); (1%nat, TCall Finish); (1%nat, TCall GetString); (2%nat, DoWipe)].
Example C106_case_objects : stateless des_class /\ (forall i, uses toy_fresh des_class (u_cl (objects i))) /\ (forall i, cl_get (u_cl (objects i)) (u_s (objects i)) = k0).
Proof. split; [apply raw_stateless|]. split; intros [|[|i]]; try reflexivity; repeat constructor. Qed.
Example C106_case : forallb (fun e => Nat.eqb (fst e) 2 || negb (wiping (snd e))) program = true /\
  map (fun j => seen_by j (shared_run k0 objects program)) [0; 1; 2]%nat =
  [[OUnit; OUnit; OBytes [17; 129; 153; 195; 24; 14; 235; 39]];
   [OUnit; OUnit; OUnit; OBytes [137; 40; 236; 204; 191; 243; 39; 195]];
   [OUnit; OBytes [17; 129; 153; 195; 24; 14; 235; 39]; OUnit]].
Proof. vm_compute. split; reflexivity. Qed.

(* the condition on wipe is needed: the wipe of the MAC changes the output of the cipher *)
Theorem C106_wipe_refuted : exists C0 (k : bc_st C0) w l, stateless C0 /\ (forall i, uses toy_fresh C0 (u_cl (w i))) /\ (forall i, cl_get (u_cl (w i)) (u_s (w i)) = k) /\
  seen_by 0 (shared_run k w l) <> alone_run C0 (w 0%nat) (map Mine (calls_of 0 l)).
Proof.
  exists des_class, k0, objects, [(2%nat, DoWipe); (0%nat, TCall (PutString [1; 2; 3; 4; 5; 6; 7; 8])); (0%nat, TCall Finish); (0%nat, TCall GetString)].
  destruct C106_case_objects as (H1 & H2 & H3). repeat (split; [assumption|]). vm_compute. discriminate.
Qed.
Print Assumptions C106_wipe_refuted.
(* and so is the one on the block cipher: an object of class cbc_encrypt is a block cipher too,
   but two ciphers cannot share it *)
Theorem C106_stateful_refuted : exists C0 (k : bc_st C0) w l, (forall i, uses toy_fresh C0 (u_cl (w i))) /\ (forall i, cl_get (u_cl (w i)) (u_s (w i)) = k) /\
  forallb (fun e => negb (wiping (snd e))) l = true /\ seen_by 0 (shared_run k w l) <> alone_run C0 (w 0%nat) (map Mine (calls_of 0 l)).
Proof.
  exists (cbc_encrypt des_class), (MS (C := des_class) (repeat 0 8) (repeat 0 8) 0 k0),
    (fun _ => User (tr_client (cipher toy_fresh (cbc_encrypt des_class)) (lens_in (at_cipher (cbc_encrypt des_class)) at_self)) (cipher_new toy_fresh (cbc_encrypt des_class) (MS (C := des_class) (repeat 0 8) (repeat 0 8) 0 k0))),
    [(1%nat, TCall (PutString [1; 2; 3; 4; 5; 6; 7; 8])); (1%nat, TCall Finish); (0%nat, TCall (PutString [1; 2; 3; 4; 5; 6; 7; 8])); (0%nat, TCall Finish); (0%nat, TCall GetString)].
  split; [intros i; repeat constructor|]. split; [reflexivity|]. split; [reflexivity|]. vm_compute. discriminate.
Qed.
Print Assumptions C106_stateful_refuted.
