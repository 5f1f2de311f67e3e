(* Vocabulary for C114: all the bytes a generator gives. *)
From Verif Require Import Prelude SpecRng RngModel Rng.
(* calls of random_bytes for ns bytes each, into arrays of these sizes; the arrays joined *)
Definition output_of (o : robj) (ns : list Z) : bytes := concat (map fst (r_run (ro_class o) (ro_st o) (map (fun n => Req (zeros n) 0 n) ns))).
Definition total (ns : list Z) : Z := fold_right Z.add 0 ns.
