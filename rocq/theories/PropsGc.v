(* Property C67.  Vocabulary in GcModel.v: [call g fresh st h args ints live] runs the stub st; g decides, at each
   allocation, whether a collection takes place, which blocks without root it keeps, and where the blocks
   go; the result is the contents of the value returned and of the arguments that the caller keeps.
   [fs] are the C functions called by the stubs, arbitrary. *)
From Coq Require Import String.
From Verif Require Import Prelude GcModel Gc.
Local Open Scope list_scope.

(* C67.  All the stubs but caml_siphash_init and caml_ghash_init *)
Theorem C67_stubs_partial : forall fs n sz fresh name st, In (name, st) (stubs fs n sz) ->
  forall h args ints live, length args = nparams st -> incl args (map fst h) -> (forall i, In i live -> (i < nparams st)%nat) ->
  exists bs, forall g, gc_ok g -> call g fresh st h args ints live = Ret bs.
Proof. exact stubs_gc. Qed.
Print Assumptions C67_stubs_partial.

(* The value computed, for the functions that prepare a key and those that return a hash *)
Theorem C67_cook : forall f n fresh g h a key ints live, gc_ok g -> find h a = Some key -> live = [] \/ live = [0%nat] ->
  call g fresh (cook_stub f n) h [a] ints live = Ret (f [key; nth 0 ints []; nth 1 ints []] :: map (fun _ => key) live).
Proof. exact cook_gc. Qed.
Print Assumptions C67_cook.
Theorem C67_final : forall f k n fresh g h a ctx ints live, gc_ok g -> find h a = Some ctx -> live = [] \/ live = [0%nat] ->
  call g fresh (final_stub f k n) h [a] ints live = Ret (f [ctx] :: map (fun _ => k [ctx]) live).
Proof. exact final_gc. Qed.
Print Assumptions C67_final.

(* The full property is false: for every key and every state of the memory, some collection makes
   caml_siphash_init and caml_ghash_init read a block that is no longer there; without a collection they work *)
Theorem C67_siphash_init_refuted : forall f n fresh h a key ints live, find h a = Some key -> live = [] \/ live = [0%nat] ->
  call no_gc fresh (siphash_init_stub f n) h [a] ints live = Ret (f [key; nth 0 ints []] :: map (fun _ => key) live) /\
  exists g, gc_ok g /\ call g fresh (siphash_init_stub f n) h [a] ints live = Undef.
Proof.
  intros f n fresh h a key ints live F Hl. split; [exact (siphash_0 no_gc no_gc_ok (fun _ => eq_refl) f n fresh h a key ints live F Hl)|exact (siphash_init_undef f n fresh h a key ints live F Hl)].
Qed.
Print Assumptions C67_siphash_init_refuted.
Theorem C67_ghash_init_refuted : forall f fresh h a key ints live, find h a = Some key -> live = [] \/ live = [0%nat] ->
  call no_gc fresh (ghash_init_stub f) h [a] ints live = Ret (f [key] :: map (fun _ => key) live) /\
  exists g, gc_ok g /\ call g fresh (ghash_init_stub f) h [a] ints live = Undef.
Proof.
  intros f fresh h a key ints live F Hl. split; [exact (ghash_0 no_gc no_gc_ok (fun _ => eq_refl) f fresh h a key ints live F Hl)|exact (ghash_init_undef f fresh h a key ints live F Hl)].
Qed.
Print Assumptions C67_ghash_init_refuted.

(* ChaCha20's cook function with its three arguments, two of them the same block, and a collection that
   moves everything and drops what has no root *)
Definition C67_gc : gc := GC (fun _ => true) (fun _ _ => false) (fun _ a => a + 1000) (fun _ l => fold_right Z.max 0 l + 1).
Example C67_case :
  let st := chacha20_cook_stub (@concat Z) 16 in
  call C67_gc (fun n => repeat 0 (Z.to_nat n)) st [(10, [1; 2]); (20, [3])] [10; 20; 10] [] [0%nat; 1%nat] = Ret [[1; 2; 3; 1; 2]; [1; 2]; [3]] /\
  In ("chacha20_cook_key"%string, st) (stubs (fun _ => @concat Z) 16 (fun _ => 0)) /\
  call C67_gc (fun n => repeat 0 (Z.to_nat n)) (siphash_init_stub (@concat Z) 16) [(10, [1; 2])] [10] [[7]] [] = Undef.
Proof. split; [vm_compute; reflexivity|]. split; [|vm_compute; reflexivity]. unfold stubs. cbn [In]. intuition. Qed.
