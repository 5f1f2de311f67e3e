(* Results of a hash object called again.  Independent of the cryptokit model
   up to the record of the methods and the objects. *)
From Verif Require Import Prelude BytesNum SpecBlock SpecHash SpecKeccak HashModel HashSpec.

(* the (k+1)-th call of result in a row from state s *)
Fixpoint nth_result (H : hash) (s : h_st H) (k : nat) : out bytes :=
  match k with
  | O => snd (h_result H s)
  | S k => nth_result H (fst (h_result H s)) k
  end.

(* the (k+1)-th result of the object o after the additions ops *)
Definition results_from (o : hobj) (ops : list hop) (k : nat) : out bytes :=
  nth_result (ho_class o) (fst (h_run (ho_class o) (ho_st o) ops)) k.

(* what each later call feeds to the compression function of a
   Merkle-Damgard hash: the first bytes of the last padded block, as many as
   the message has after its whole blocks, padded again with the same length
   field *)
Definition md_again (B L : Z) (enc : nat -> Z -> bytes) (msg : bytes) : bytes :=
  firstn (Z.to_nat (zlen msg mod B)) (last (chunks B (md_pad B L enc msg)) []) ++
  [128] ++ zeros ((- (zlen msg + 1 + L)) mod B) ++ enc (Z.to_nat L) (8 * zlen msg).

Definition md_results {S} (B L : Z) (enc : nat -> Z -> bytes) (iv : S) (f : S -> bytes -> S) (msg : bytes) (k : nat) : S :=
  fold_left f (chunks B (md_pad B L enc msg ++ concat (repeat (md_again B L enc msg) k))) iv.

(* a sponge has no length field: a later call gives the digest of the padded
   message followed by the bytes of the message after its whole blocks *)
Definition sponge_again (r : Z) (suffix : list bool) (m : bytes) : bytes :=
  sponge_input r suffix m ++ skipn (Z.to_nat (zlen m / (r / 8) * (r / 8))) m.
