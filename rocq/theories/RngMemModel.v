(* Model: pseudo_rng and pseudo_rng_aes_ctr, cryptokit.ml 1901-1949, when the seeds are strings of a memory.  The generators are
   those of RngModel.v; each keeps the number of its seed, since wipe writes to that string (1916, 1946). *)
From Verif Require Import Prelude BlockModel CipherModel RngModel SpecRngMem.

Record mgen := MG { mg_obj : robj; mg_seed : nat }.

Section RngMem.
Variable fresh : Z -> bytes.
Variable nb : bytes -> out bobj. (* new Block.aes_encrypt *)

Definition make (k : kind) (seed : bytes) : out robj :=
  match k with Chacha20_gen => pseudo_rng fresh seed | Aes_ctr_gen => pseudo_rng_aes_ctr fresh nb seed end.

Definition m_step (m : store) (gs : list mgen) (o : rop) : store * list mgen * out unit :=
  match o with
  | New k s =>
    match make k (m s) with
    | Ret o => (m, gs ++ [MG o s], Ret tt)
    | Raise e => (m, gs, Raise e) | Undef => (m, gs, Undef) | Hang => (m, gs, Hang)
    end
  | Ask g r ofs len =>
    match nth_error gs g with
    | None => (m, gs, Ret tt)
    | Some (MG o s) =>
      let x := r_bytes (ro_class o) (ro_st o) (m r) ofs len in
      (set m r (snd (fst x)), replace gs g (MG (RObj (ro_class o) (fst (fst x))) s), snd x)
    end
  | Wipe g =>
    match nth_error gs g with
    | None => (m, gs, Ret tt)
    | Some (MG o s) =>
      let x := r_wipe (ro_class o) (ro_st o) in
      (set m s (map (fun _ => 0) (m s)), replace gs g (MG (RObj (ro_class o) (fst x)) s), snd x)
    end
  end.
Fixpoint m_run (m : store) (gs : list mgen) (ops : list rop) : store * list (out unit) :=
  match ops with
  | [] => (m, [])
  | o :: ops => let '(m, gs, r) := m_step m gs o in let (m, l) := m_run m gs ops in (m, r :: l)
  end.
End RngMem.
