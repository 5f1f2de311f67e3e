(* Vocabulary for C106: which objects share a block cipher, and what one of them does alone. *)
From Verif Require Import Prelude BlockModel CipherModel MacModel HashModel TransformModel SharedModel.

(* the classes built on a block cipher of class C0, directly or through chaining modes to any
   depth, and where they keep its state *)
Inductive over (C0 : block_cipher) : forall C : block_cipher, lens (bc_st C) (bc_st C0) -> Prop :=
  | over_self : over C0 C0 at_self
  | over_cbc_encrypt C l : over C0 C l -> over C0 (cbc_encrypt C) (lens_in (at_mode C) l)
  | over_cbc_decrypt C l : over C0 C l -> over C0 (cbc_decrypt C) (lens_in (at_mode C) l)
  | over_cfb_encrypt C l n : over C0 C l -> over C0 (cfb_encrypt C n) (lens_in (at_mode C) l)
  | over_cfb_decrypt C l n : over C0 C l -> over C0 (cfb_decrypt C n) (lens_in (at_mode C) l)
  | over_ofb C l n : over C0 C l -> over C0 (ofb C n) (lens_in (at_mode C) l)
  | over_ctr C l n : over C0 C l -> over C0 (ctr C n) (lens_in (at_mode C) l).
Inductive uses (fresh : Z -> bytes) (C0 : block_cipher) : client (bc_st C0) -> Prop :=
  | uses_cipher C l : over C0 C l -> uses fresh C0 (tr_client (cipher fresh C) (lens_in (at_cipher C) l))
  | uses_encrypt C l p : over C0 C l -> uses fresh C0 (tr_client (cipher_padded_encrypt fresh C p) (lens_in (at_cipher C) l))
  | uses_decrypt C l p : over C0 C l -> uses fresh C0 (tr_client (cipher_padded_decrypt fresh C p) (lens_in (at_cipher C) l))
  | uses_mac C l p : over C0 C l -> uses fresh C0 (h_client (mac C p) (lens_in (at_mac C) l))
  | uses_cmac C l : over C0 C l -> uses fresh C0 (h_client (cmac C) (lens_in at_fst (lens_in (at_mac C) l)))
  | uses_triple1 C l C2 C3 p : over C0 C l -> uses fresh C0 (h_client (mac_final_triple C C2 C3 p) (lens_in at_fst (lens_in at_fst (lens_in (at_mac C) l))))
  | uses_triple2 C1 C l C3 p : over C0 C l -> uses fresh C0 (h_client (mac_final_triple C1 C C3 p) (lens_in at_fst (lens_in at_snd l)))
  | uses_triple3 C1 C2 C l p : over C0 C l -> uses fresh C0 (h_client (mac_final_triple C1 C2 C p) (lens_in at_snd l)).

(* the block cipher does not change when it transforms a block *)
Definition stateless (C : block_cipher) : Prop := forall k src so dst d, fst (fst (bc_transform C k src so dst d)) = k.

(* one object alone, with its own block cipher, which may be wiped by someone else *)
Inductive event := Mine (c : call) | WipedByOther.
Fixpoint alone_run (C0 : block_cipher) (u : user (bc_st C0)) (l : list event) : list SpecTransducer.obs :=
  match l with
  | [] => []
  | Mine c :: l => let r := cl_call (u_cl u) (u_s u) c in snd r :: alone_run C0 (User (u_cl u) (fst r)) l
  | WipedByOther :: l => alone_run C0 (User (u_cl u) (cl_put (u_cl u) (u_s u) (bc_wipe C0 (cl_get (u_cl u) (u_s u))))) l
  end.
(* the part of a program that concerns the j-th object *)
Definition own (j : nat) (l : list (nat * call)) : list event :=
  flat_map (fun e => if Nat.eqb (fst e) j then [Mine (snd e)] else if wiping (snd e) then [WipedByOther] else []) l.
Definition calls_of (j : nat) (l : list (nat * call)) : list call := map snd (filter (fun e => Nat.eqb (fst e) j) l).
Definition seen_by {A} (j : nat) (l : list (nat * A)) : list A := map snd (filter (fun e => Nat.eqb (fst e) j) l).
