(* The stubs seen from the garbage collector.

   A stub manipulates the addresses of OCaml blocks.  An allocation (caml_alloc_string,
   caml_alloc_custom, caml_alloc_small) may start a collection, which moves blocks; the variables
   registered by CAMLparam and CAMLlocal, and the caller's own roots, are updated, the other variables are
   not; blocks that no registered variable designates may disappear.
   What the C functions compute is left arbitrary here: only the order of the
   accesses and the allocations counts. *)
From Coq Require Import String.
From Verif Require Import Prelude.
Local Open Scope list_scope.

(* [P n]: a variable of type value holding the address of a block; [C n]: a C
   variable, or a value that is an immediate integer *)
Inductive var := P (n : nat) | C (n : nat).

Inductive instr :=
  | Root (n : nat)                                             (* CAMLparam, CAMLlocal *)
  | Alloc (n : nat) (rs : list var) (f : list bytes -> Z)      (* n = caml_alloc...(size computed from rs) *)
  | Write (n : nat) (rs : list var) (f : list bytes -> bytes)  (* new contents of the block at n *)
  | Assign (n : nat) (rs : list var) (f : list bytes -> bytes).  (* C variable n *)

(* nparams: the number of arguments that are blocks, variables P 0, P 1...; the integer arguments are C 0, C 1...;
   result: what is returned, several variables when it is a tuple *)
Record stub := Stub { nparams : nat; body : list instr; result : list var }.

(* the decisions of the runtime system at the k-th allocation *)
Record gc := GC {
  g_run : nat -> bool;               (* does a collection take place? *)
  g_keep : nat -> Z -> bool;         (* is a block without root kept? *)
  g_move : nat -> Z -> Z;            (* the new address of a block *)
  g_new : nat -> list Z -> Z }.      (* the address of the block allocated, given the addresses in use *)
Definition gc_ok (g : gc) : Prop :=
  (forall k a b, g_move g k a = g_move g k b -> a = b) /\ (forall k l, ~ In (g_new g k l) l).

Definition no_gc : gc := GC (fun _ => false) (fun _ _ => true) (fun _ a => a) (fun _ l => fold_right Z.max 0 l + 1).

Definition heap : Type := list (Z * bytes).
Fixpoint find (h : heap) (a : Z) : option bytes :=
  match h with [] => None | (b, v) :: h' => if b =? a then Some v else find h' a end.
Fixpoint update (h : heap) (a : Z) (v : bytes) : heap :=
  match h with [] => [] | (b, w) :: h' => if b =? a then (b, v) :: h' else (b, w) :: update h' a v end.

(* penv x = None: Val_unit, the initial value given by CAMLlocal *)
Record gstate := GState { penv : nat -> option Z; cenv : nat -> bytes; roots : list nat; mem : heap; count : nat }.
Definition set {A} (f : nat -> A) (n : nat) (v : A) : nat -> A := fun m => if Nat.eqb m n then v else f m.

Definition read (s : gstate) (v : var) : out bytes :=
  match v with
  | C n => Ret (cenv s n)
  | P n => match penv s n with
           | Some a => match find (mem s) a with Some b => Ret b | None => Undef end
           | None => Undef
           end
  end.
Fixpoint reads (s : gstate) (l : list var) : out (list bytes) :=
  match l with
  | [] => Ret []
  | v :: l' => olet b := read s v in olet bs := reads s l' in Ret (b :: bs)
  end.

Definition rooted (s : gstate) (a : Z) : bool := existsb (fun n => match penv s n with Some b => b =? a | None => false end) (roots s).
Definition collect (g : gc) (s : gstate) : gstate :=
  let k := count s in
  GState (fun n => if existsb (Nat.eqb n) (roots s) then option_map (g_move g k) (penv s n) else penv s n) (cenv s) (roots s)
    (flat_map (fun p => if rooted s (fst p) || g_keep g k (fst p) then [(g_move g k (fst p), snd p)] else []) (mem s)) k.

Section Run.
Variable g : gc.
Variable fresh : Z -> bytes.

Definition step (s : gstate) (i : instr) : out gstate :=
  match i with
  | Root n => Ret (GState (penv s) (cenv s) (n :: roots s) (mem s) (count s))
  | Alloc n rs f =>
      olet bs := reads s rs in
      let s := if g_run g (count s) then collect g s else s in
      let a := g_new g (count s) (map fst (mem s)) in
      Ret (GState (set (penv s) n (Some a)) (cenv s) (roots s) ((a, fresh (f bs)) :: mem s) (S (count s)))
  | Write n rs f =>
      olet bs := reads s rs in
      match penv s n with
      | Some a => match find (mem s) a with
                  | Some _ => Ret (GState (penv s) (cenv s) (roots s) (update (mem s) a (f bs)) (count s))
                  | None => Undef
                  end
      | None => Undef
      end
  | Assign n rs f =>
      olet bs := reads s rs in
      Ret (GState (penv s) (set (cenv s) n (f bs)) (roots s) (mem s) (count s))
  end.
Fixpoint steps (s : gstate) (l : list instr) : out gstate :=
  match l with [] => Ret s | i :: l' => olet s := step s i in steps s l' end.

(* A call: the arguments that are blocks are given by their addresses in the heap h, the others by [ints].
   The caller keeps the arguments whose numbers are in [live], and has its own roots for
   them: variables P (1000 + i).  The observation is the contents of the result and of
   the arguments kept. *)
Definition caller (i : nat) : nat := (1000 + i)%nat.
Definition call (st : stub) (h : heap) (args : list Z) (ints : list bytes) (live : list nat) : out (list bytes) :=
  let s := GState (fun n => if Nat.ltb n (nparams st) then nth_error args n else if Nat.leb 1000 n then nth_error args (n - 1000) else None)
             (fun n => nth n ints []) (map caller live) h 0 in
  olet s := steps s (body st) in
  reads s (result st ++ map (fun i => P (caller i)) live).
End Run.

(* ------------------------------------------------------------------ *)
(* The stubs that allocate.  f, g: what the C function computes from the contents of
   its arguments. *)
Section Stubs.
Variables f g : list bytes -> bytes.
Definition size (n : Z) : list bytes -> Z := fun _ => n.
(* a size that is an argument: C 0 *)
Variable arg_size : list bytes -> Z.

(* init functions without argument: caml_md5_init, stubs-md5.c 38-43; caml_sha1_init, stubs-sha1.c 21-26;
   caml_sha256_init and caml_sha224_init, stubs-sha256.c 21-33; caml_sha512_init and
   caml_sha384_init, stubs-sha512.c 21-33; caml_ripemd160_init, stubs-ripemd160.c 21-26.
   caml_sha3_init, stubs-sha3.c 40-50, caml_zlib_new_stream, stubs-zlib.c 68-79, with the structure
   in the C heap seen as the contents of the block *)
Definition init_stub (n : Z) : stub := Stub 0 [Alloc 0 [] (size n); Write 0 [C 0] f] [P 0].

(* caml_md5_final, stubs-md5.c 51-59, and the same for ripemd160, sha1, sha256, sha224, sha512, sha384, poly1305
   (stubs-poly1305.c 35-43): CAMLparam1(ctx), CAMLlocal1(res), res = caml_alloc_string(n), then the context is
   read and modified *)
Definition final_stub (n : Z) : stub :=
  Stub 1 [Root 0; Root 1; Alloc 1 [] (size n); Write 1 [P 0] f; Write 0 [P 0] g] [P 1].
(* caml_blake2b_final, stubs-blake2.c 41-49, caml_blake2s_final, 70-78, caml_siphash_final, stubs-siphash.c 37-45,
   caml_blake3_extract, stubs-blake3.c 70-78: the length is an argument *)
Definition final_len_stub : stub :=
  Stub 1 [Root 0; Root 1; Alloc 1 [C 0] arg_size; Write 1 [P 0; C 0] f; Write 0 [P 0; C 0] g] [P 1].
(* caml_sha3_extract, stubs-sha3.c 69-77: the length is read in the context *)
Definition sha3_extract_stub : stub :=
  Stub 1 [Root 0; Root 1; Alloc 1 [P 0] arg_size; Write 1 [P 0; C 0] f; Write 0 [P 0; C 0] g] [P 1].

(* caml_aes_cook_encrypt_key, stubs-aes.c 26-43, caml_aes_cook_decrypt_key, 45-62; caml_arcfour_cook_key, stubs-arcfour.c 24-32;
   caml_blowfish_cook_key, stubs-blowfish.c 21-29; caml_des_cook_key, stubs-des.c 23-31;
   caml_poly1305_init, stubs-poly1305.c 21-27; caml_blake2b_init, stubs-blake2.c 24-32, caml_blake2s_init,
   53-61; caml_blake3_init, stubs-blake3.c 44-59: CAMLparam1(key), allocation, then the key is read *)
Definition cook_stub (n : Z) : stub := Stub 1 [Root 0; Alloc 1 [] (size n); Write 1 [P 0; C 0; C 1] f] [P 1].
(* caml_chacha20_cook_key, stubs-chacha20.c 24-33: key, iv, and counter, a boxed integer *)
Definition chacha20_cook_stub (n : Z) : stub :=
  Stub 3 [Root 0; Root 1; Root 2; Alloc 3 [] (size n); Write 3 [P 0; P 1; P 2] f] [P 3].

(* caml_siphash_init, stubs-siphash.c 24-29: no CAMLparam *)
Definition siphash_init_stub (n : Z) : stub := Stub 1 [Alloc 1 [] (size n); Write 1 [P 0; C 0] f] [P 1].
(* caml_ghash_init, stubs-ghash.c 41-56, when there is no PCLMUL instruction: no CAMLparam; the structure in the C heap is seen as
   the contents of the block *)
Definition ghash_init_stub : stub := Stub 1 [Alloc 1 [] (size 8); Write 1 [P 0] f] [P 1].

(* caml_zlib_deflate and caml_zlib_inflate, stubs-zlib.c 98-123, 143-169: the arguments are the stream, the source and
   the destination; everything is read before the allocation of the result *)
Definition zlib_stub (h : list bytes -> bytes) : stub :=
  let args := [P 0; P 1; P 2; C 0; C 1; C 2; C 3; C 4] in
  Stub 3 [Assign 5 args f; Assign 6 args g; Assign 7 args h; Write 0 [C 6] (fun l => nth 0 l []); Write 2 [C 7] (fun l => nth 0 l []);
          Alloc 3 [] (size 24); Write 3 [C 5] (fun l => nth 0 l [])] [P 3].

(* caml_zlib_error, stubs-zlib.c 33-57: the arguments of the exception, fn and msg, are read in the
   C heap, then four blocks are allocated; P 3 is the pair, P 4 the exception.  The pointers stored
   in the pair are seen as the roots P 1 and P 2, which have the same values *)
Definition zlib_error_stub (n1 n2 : Z) : stub :=
  Stub 1 [Root 0; Root 1; Root 2; Root 3; Root 4; Assign 5 [P 0; C 0] f; Assign 6 [P 0; C 0] g;
          Alloc 1 [] (size n1); Write 1 [C 5] (fun l => nth 0 l []); Alloc 2 [] (size n2); Write 2 [C 6] (fun l => nth 0 l []);
          Alloc 3 [] (size 16); Alloc 4 [] (size 16)] [P 1; P 2].

(* The stubs that allocate nothing: n arguments are blocks; those in ws are modified.  The result is
   an immediate value *)
Definition plain_stub (n ints : nat) (ws : list nat) (fs : nat -> list bytes -> bytes) : stub :=
  let args := map P (seq 0 n) ++ map C (seq 0 ints) in
  Stub n (Assign 100 args (fs 0%nat) :: map (fun w => Assign (101 + w) args (fs (S w))) ws
          ++ map (fun w => Write w [C (101 + w)] (fun l => nth 0 l [])) ws) [C 100].
End Stubs.

(* Every stub of src/stubs-*.c, except those that take and return immediate values only, the _bytecode versions, which only unpack their arguments, and the two
   init functions above that do not register their argument.  fs: the C functions, n: a size, sz: a size computed from arguments *)
Section Table.
Variable fs : nat -> list bytes -> bytes.
Variable n : Z.
Variable sz : list bytes -> Z.
Let f := fs 0%nat. Let g := fs 1%nat. Let h := fs 2%nat.
Definition stubs : list (string * stub) :=
  [ ("aes_cook_encrypt_key", cook_stub f n); ("aes_cook_decrypt_key", cook_stub f n);
    ("aes_encrypt", plain_stub 3 2 [2%nat] fs); ("aes_decrypt", plain_stub 3 2 [2%nat] fs);
    ("arcfour_cook_key", cook_stub f n); ("arcfour_transform", plain_stub 3 3 [0%nat; 2%nat] fs);
    ("blake2b_init", cook_stub f n); ("blake2b_update", plain_stub 2 2 [0%nat] fs); ("blake2b_final", final_len_stub f g sz);
    ("blake2s_init", cook_stub f n); ("blake2s_update", plain_stub 2 2 [0%nat] fs); ("blake2s_final", final_len_stub f g sz);
    ("blake3_init", cook_stub f n); ("blake3_update", plain_stub 2 2 [0%nat] fs); ("blake3_extract", final_len_stub f g sz);
    ("blake3_wipe", plain_stub 1 0 [0%nat] fs);
    ("blowfish_cook_key", cook_stub f n); ("blowfish_encrypt", plain_stub 3 2 [2%nat] fs); ("blowfish_decrypt", plain_stub 3 2 [2%nat] fs);
    ("chacha20_cook_key", chacha20_cook_stub f n); ("chacha20_transform", plain_stub 3 3 [0%nat; 2%nat] fs);
    ("chacha20_extract", plain_stub 2 2 [0%nat; 1%nat] fs);
    ("des_cook_key", cook_stub f n); ("des_transform", plain_stub 3 2 [2%nat] fs);
    ("md5_init", init_stub f n); ("md5_update", plain_stub 2 2 [0%nat] fs); ("md5_final", final_stub f g n);
    ("ripemd160_init", init_stub f n); ("ripemd160_update", plain_stub 2 2 [0%nat] fs); ("ripemd160_final", final_stub f g n);
    ("sha1_init", init_stub f n); ("sha1_update", plain_stub 2 2 [0%nat] fs); ("sha1_final", final_stub f g n);
    ("sha256_init", init_stub f n); ("sha224_init", init_stub f n); ("sha256_update", plain_stub 2 2 [0%nat] fs);
    ("sha256_final", final_stub f g n); ("sha224_final", final_stub f g n);
    ("sha512_init", init_stub f n); ("sha384_init", init_stub f n); ("sha512_update", plain_stub 2 2 [0%nat] fs);
    ("sha512_final", final_stub f g n); ("sha384_final", final_stub f g n);
    ("poly1305_init", cook_stub f n); ("poly1305_update", plain_stub 2 2 [0%nat] fs); ("poly1305_final", final_stub f g n);
    ("sha3_init", init_stub f n); ("sha3_absorb", plain_stub 2 2 [0%nat] fs); ("sha3_extract", sha3_extract_stub f g sz);
    ("sha3_wipe", plain_stub 1 0 [0%nat] fs);
    ("siphash_update", plain_stub 2 2 [0%nat] fs); ("siphash_final", final_len_stub f g sz);
    ("ghash_mult", plain_stub 2 0 [1%nat] fs);
    ("xor_string", plain_stub 2 3 [1%nat] fs); ("wipe_z", plain_stub 1 0 [0%nat] fs);
    ("system_rng_random_bytes", plain_stub 1 2 [0%nat] fs); ("hardware_rng_random_bytes", plain_stub 1 2 [0%nat] fs);
    (* the generator of Windows, stubs-rng.c 70-96: the handle is stored in a block allocated after it is obtained *)
    ("win32_get_system_rng", init_stub f n); ("win32_close_system_rng", plain_stub 1 0 [] fs);
    ("win32_system_rng_random_bytes", plain_stub 2 2 [1%nat] fs);
    ("zlib_deflateInit", init_stub f n); ("zlib_inflateInit", init_stub f n);
    ("zlib_deflate", zlib_stub f g h); ("zlib_inflate", zlib_stub f g h);
    ("zlib_deflateEnd", plain_stub 1 0 [0%nat] fs); ("zlib_inflateEnd", plain_stub 1 0 [0%nat] fs);
    ("zlib_error", zlib_error_stub f g n (sz [])) ]%string.
End Table.
