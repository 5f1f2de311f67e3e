(* Chaining modes as defined by NIST SP 800-38A, for an arbitrary block
   function.  Independent of the cryptokit model. *)
From Verif Require Import Prelude BytesNum SpecBlock.

(* the j-th block of a list *)
Definition blk (l : list bytes) (j : nat) : bytes := nth j l [].

Section Spec.
Variable E : bytes -> bytes.

(* ---- declarative form: SP 800-38A, section 6 ---- *)

(* 6.1  C_j = E(P_j) *)
Definition ecb_spec (P C : list bytes) : Prop :=
  length C = length P /\ forall j, (j < length P)%nat -> blk C j = E (blk P j).

(* 6.2  C_1 = E(P_1 xor IV),  C_j = E(P_j xor C_{j-1}) *)
Definition cbc_enc_spec (iv : bytes) (P C : list bytes) : Prop :=
  length C = length P /\
  forall j, (j < length P)%nat ->
    blk C j = E (xorb (blk P j) (match j with O => iv | S i => blk C i end)).
(* P_1 = D(C_1) xor IV,  P_j = D(C_j) xor C_{j-1}; here E is the inverse cipher *)
Definition cbc_dec_spec (iv : bytes) (C P : list bytes) : Prop :=
  length P = length C /\
  forall j, (j < length C)%nat ->
    blk P j = xorb (E (blk C j)) (match j with O => iv | S i => blk C i end).

(* 6.3  I_1 = IV;  I_j = LSB_{b-s}(I_{j-1}) | C_{j-1};
        C_j = P_j xor MSB_s(E(I_j)).   (s = 8n bits) *)
Fixpoint cfb_input (n : nat) (iv : bytes) (C : list bytes) (j : nat) : bytes :=
  match j with
  | O => iv
  | S i => skipn n (cfb_input n iv C i) ++ blk C i
  end.
Definition cfb_enc_spec (n : nat) (iv : bytes) (P C : list bytes) : Prop :=
  length C = length P /\
  forall j, (j < length P)%nat -> blk C j = xorb (blk P j) (firstn n (E (cfb_input n iv C j))).
Definition cfb_dec_spec (n : nat) (iv : bytes) (C P : list bytes) : Prop :=
  length P = length C /\
  forall j, (j < length C)%nat -> blk P j = xorb (blk C j) (firstn n (E (cfb_input n iv C j))).

(* 6.4  O_1 = E(IV);  O_j = E(O_{j-1});  C_j = P_j xor O_j.
   (With n smaller than the block, the first n bytes of O_j are used; this is
   the OFB variant of ISO/IEC 10116 with full feedback.) *)
Definition ofb_spec (n : nat) (iv : bytes) (P C : list bytes) : Prop :=
  length C = length P /\
  forall j, (j < length P)%nat -> blk C j = xorb (blk P j) (firstn n (Nat.iter (S j) E iv)).

(* 6.5 and appendix B.1  C_j = P_j xor E(T_j), T_j obtained from the initial
   block by adding j modulo 2^(8w) to its last w bytes *)
Definition ctr_block (w : nat) (iv : bytes) (j : Z) : bytes :=
  firstn (length iv - w) iv ++ to_be w (be (skipn (length iv - w) iv) + j).
Definition ctr_spec (w : nat) (iv : bytes) (P C : list bytes) : Prop :=
  length C = length P /\
  forall j, (j < length P)%nat -> blk C j = xorb (blk P j) (E (ctr_block w iv (Z.of_nat j))).

(* ---- the same as functions on one block with a state ---- *)
Definition ecb_fn : blockfn := BF unit (fun _ b => (tt, Some (E b))).
Definition cbc_enc_fn : blockfn :=
  BF bytes (fun iv b => let c := E (xorb b iv) in (c, Some c)).
Definition cbc_dec_fn : blockfn :=
  BF bytes (fun iv c => (c, Some (xorb (E c) iv))).
Definition cfb_enc_fn (n : nat) : blockfn :=
  BF bytes (fun iv b => let c := xorb b (firstn n (E iv)) in (skipn n iv ++ c, Some c)).
Definition cfb_dec_fn (n : nat) : blockfn :=
  BF bytes (fun iv c => (skipn n iv ++ c, Some (xorb c (firstn n (E iv))))).
Definition ofb_fn (n : nat) : blockfn :=
  BF bytes (fun iv b => let o := E iv in (o, Some (xorb b (firstn n o)))).

(* CTR with a limit: [room] blocks before the counter is back at its initial
   value; the last one is refused *)
Definition ctr_fn (w : nat) : blockfn :=
  BF (bytes * Z) (fun s b =>
    let '(t, room) := s in
    if room =? 1 then ((ctr_block w t 1, room), None)
    else ((ctr_block w t 1, room - 1), Some (xorb b (E t)))).
(* number of counter values, at most 2^64 *)
Definition ctr_limit (w : nat) : Z := 256 ^ Z.of_nat (Nat.min w 8).
End Spec.
