(* Model: the block ciphers and chaining modes of cryptokit.ml 499-766 over a memory of byte arrays, so that the source and the
   destination of transform can be the same array. *)
From Verif Require Import Prelude BlockModel CipherModel DesModel.

(* arrays are numbered; [m r] is what array r holds *)
Definition mem := nat -> bytes.
Definition upd (m : mem) (r : nat) (x : bytes) : mem := fun i => if Nat.eqb i r then x else m i.
(* store the result of an operation on the contents of array r *)
Definition mset (m : mem) (r : nat) (x : out bytes) : mem * out unit :=
  match x with
  | Ret x => (upd m r x, Ret tt)
  | Raise e => (m, Raise e) | Undef => (m, Undef) | Hang => (m, Hang) end.
(* Bytes.blit: memmove, so the bytes are those before the call also if a = b *)
Definition mblit (m : mem) (a : nat) (ao : Z) (b : nat) (bo n : Z) : mem * out unit := mset m b (blit (m a) ao (m b) bo n).
(* caml_xor_string, stubs-misc.c 19-48; the modes below call it on different arrays only *)
Definition mxor (m : mem) (a : nat) (ao : Z) (b : nat) (bo n : Z) : mem * out unit := mset m b (xor_bytes (m a) ao (m b) bo n).

(* class type block_cipher, cryptokit.ml 488-494: transform src src_ofs dst dst_ofs, on two arrays of the memory *)
Record mcipher := {
  mc_st : Type;
  mc_blocksize : Z;
  mc_transform : mc_st -> mem -> nat -> Z -> nat -> Z -> (mc_st * mem) * out unit }.
Record mobj := MObj { mo_c : mcipher; mo_st : mc_st mo_c }.

(* the stores *(dst + d) = x, one byte after the other *)
Fixpoint store (m : mem) (dst : nat) (d : Z) (l : bytes) : mem :=
  match l with
  | [] => m
  | x :: l => store (upd m dst (splice (m dst) d [x])) dst (d + 1) l
  end.

(* classes aes_encrypt ... des, cryptokit.ml 499-586.  The C functions load the block into local variables (rijndael-alg-fst.c 864-867 and
   1045-1048, aesni.c 267 and 288, stubs-blowfish.c 51-53 and 67-69, d3des.c 111) and store the bytes of the result at the end *)
Definition raw_m (K : Type) (bs : Z) (prim : K -> bytes -> out bytes) : mcipher := {|
  mc_st := K;
  mc_blocksize := bs;
  mc_transform := fun k m src so dst d =>
    if (so <? 0) || (so >? zlen (m src) - bs) || (d <? 0) || (d >? zlen (m dst) - bs)
    then ((k, m), Raise Invalid_argument)
    else match prim k (sub (m src) so bs) with
         | Ret r => ((k, store m dst d r), Ret tt)
         | Raise e => ((k, m), Raise e)
         | Undef => ((k, m), Undef)
         | Hang => ((k, m), Hang)
         end |}.

(* classes triple_des_encrypt and triple_des_decrypt, cryptokit.ml 588-640: three calls of des_transform, the second and the third from
   dst to dst *)
Definition des_transform_m (ckey : list Z) (m : mem) (src : nat) (so : Z) (dst : nat) (d : Z) : mem :=
  store m dst d (d3des_transform ckey (sub (m src) so 8)).
Definition triple_des_m : mcipher := {|
  mc_st := list Z * list Z * list Z;
  mc_blocksize := 8;
  mc_transform := fun k m src so dst d =>
    let '(ckey1, ckey2, ckey3) := k in
    if (so <? 0) || (so >? zlen (m src) - 8) || (d <? 0) || (d >? zlen (m dst) - 8)
    then ((k, m), Raise Invalid_argument)
    else
      let m := des_transform_m ckey1 m src so dst d in
      let m := des_transform_m ckey2 m dst d dst d in
      let m := des_transform_m ckey3 m dst d dst d in
      ((k, m), Ret tt) |}.

Section Modes.
Variable fresh : Z -> bytes.
Variable C : mcipher.
Let bs := mc_blocksize C.

(* the fields iv, next_iv or out, which are arrays of the memory, and max_transf *)
Record mm_st := MM { mm_iv : nat; mm_tmp : nat; mm_max : Z; mm_c : mc_st C }.
Let St := (mm_st * mem)%type.
Definition mm_mem (s : St) (r : mem * out unit) : St * out unit := ((fst s, fst r), snd r).
(* cipher#transform a ao b bo *)
Definition mm_call (s : St) (a : nat) (ao : Z) (b : nat) (bo : Z) : St * out unit :=
  let r := mc_transform C (mm_c (fst s)) (snd s) a ao b bo in
  ((MM (mm_iv (fst s)) (mm_tmp (fst s)) (mm_max (fst s)) (fst (fst r)), snd (fst r)), snd r).

(* cryptokit.ml 651-663 *)
Definition cbc_encrypt_m : mcipher := {|
  mc_st := mm_st; mc_blocksize := bs;
  mc_transform := fun o m src so dst d =>
    let s := (o, m) in
    let! (s, u) := mm_mem s (mxor (snd s) src so (mm_iv o) 0 bs) in
    let! (s, u) := mm_call s (mm_iv o) 0 dst d in
    mm_mem s (mblit (snd s) dst d (mm_iv o) 0 bs) |}.

(* 665-680 *)
Definition cbc_decrypt_m : mcipher := {|
  mc_st := mm_st; mc_blocksize := bs;
  mc_transform := fun o m src so dst d =>
    let s := (o, m) in
    let! (s, u) := mm_mem s (mblit (snd s) src so (mm_tmp o) 0 bs) in
    let! (s, u) := mm_call s src so dst d in
    let! (s, u) := mm_mem s (mxor (snd s) (mm_iv o) 0 dst d bs) in
    mm_mem s (mblit (snd s) (mm_tmp o) 0 (mm_iv o) 0 bs) |}.

(* 682-699 *)
Definition cfb_encrypt_m (chunk : Z) : mcipher := {|
  mc_st := mm_st; mc_blocksize := chunk;
  mc_transform := fun o m src so dst d =>
    let s := (o, m) in
    let! (s, u) := mm_call s (mm_iv o) 0 (mm_tmp o) 0 in
    let! (s, u) := mm_mem s (mblit (snd s) src so dst d chunk) in
    let! (s, u) := mm_mem s (mxor (snd s) (mm_tmp o) 0 dst d chunk) in
    let! (s, u) := mm_mem s (mblit (snd s) (mm_iv o) chunk (mm_iv o) 0 (bs - chunk)) in
    mm_mem s (mblit (snd s) dst d (mm_iv o) (bs - chunk) chunk) |}.

(* 701-718 *)
Definition cfb_decrypt_m (chunk : Z) : mcipher := {|
  mc_st := mm_st; mc_blocksize := chunk;
  mc_transform := fun o m src so dst d =>
    let s := (o, m) in
    let! (s, u) := mm_call s (mm_iv o) 0 (mm_tmp o) 0 in
    let! (s, u) := mm_mem s (mblit (snd s) (mm_iv o) chunk (mm_iv o) 0 (bs - chunk)) in
    let! (s, u) := mm_mem s (mblit (snd s) src so (mm_iv o) (bs - chunk) chunk) in
    let! (s, u) := mm_mem s (mblit (snd s) src so dst d chunk) in
    mm_mem s (mxor (snd s) (mm_tmp o) 0 dst d chunk) |}.

(* 720-733 *)
Definition ofb_m (chunk : Z) : mcipher := {|
  mc_st := mm_st; mc_blocksize := chunk;
  mc_transform := fun o m src so dst d =>
    let s := (o, m) in
    let! (s, u) := mm_call s (mm_iv o) 0 (mm_iv o) 0 in
    let! (s, u) := mm_mem s (mblit (snd s) src so dst d chunk) in
    mm_mem s (mxor (snd s) (mm_iv o) 0 dst d chunk) |}.

(* 742-766 *)
Definition ctr_m (nincr : Z) : mcipher := {|
  mc_st := mm_st; mc_blocksize := bs;
  mc_transform := fun o m src so dst d =>
    let s := (o, m) in
    let! (s, u) := mm_call s (mm_iv o) 0 (mm_tmp o) 0 in
    let! (s, u) := mm_mem s (mblit (snd s) src so dst d bs) in
    let! (s, u) := mm_mem s (mxor (snd s) (mm_tmp o) 0 dst d bs) in
    let! (s, u) := mm_mem s (mset (snd s) (mm_iv o) (increment_counter (snd s (mm_iv o)) (bs - nincr) (bs - 1))) in
    let n := (mm_max (fst s) - 1) mod 2 ^ 64 in
    if n =? 0 then (s, Raise (Error Message_too_long))
    else ((MM (mm_iv (fst s)) (mm_tmp (fst s)) n (mm_c (fst s)), snd s), Ret tt) |}.

(* the fields, allocated as arrays riv and rtmp (cbc_encrypt and ofb have no second array; theirs is never used) *)
Definition mm_init (max : Z) (iv : option bytes) (c0 : mc_st C) (m : mem) (riv rtmp : nat) : out (mm_st * mem) :=
  olet i := make_initial_iv bs iv in Ret (MM riv rtmp max c0, upd (upd m riv i) rtmp (fresh bs)).
Definition mchunk_ok (chunk : Z) : bool := (chunk >? 0) && (chunk <=? bs).
Definition mm_chunked_init (chunk max : Z) iv c0 m riv rtmp : out (mm_st * mem) :=
  if mchunk_ok chunk then mm_init max iv c0 m riv rtmp else Raise Assert_failure.
End Modes.

Arguments MM {C}. Arguments mm_iv {C}. Arguments mm_tmp {C}. Arguments mm_max {C}. Arguments mm_c {C}.

Section Chain.
Variable fresh : Z -> bytes.
(* the chaining modes as in make_block_cipher, cryptokit.ml 1356-1366, or by module Block *)
Definition chain_m (mode : chaining_mode) (d : dir) (iv : option bytes) (c : mobj) (m : mem) (riv rtmp : nat) : out (mobj * mem) :=
  let C := mo_c c in
  let c0 := mo_st c in
  let bs := mc_blocksize C in
  match mode, d with
  | ECB, _ => Ret (c, m)
  | CBC, Encrypt => olet x := mm_init fresh C 0 iv c0 m riv rtmp in Ret (MObj (cbc_encrypt_m C) (fst x), snd x)
  | CBC, Decrypt => olet x := mm_init fresh C 0 iv c0 m riv rtmp in Ret (MObj (cbc_decrypt_m C) (fst x), snd x)
  | CFB n, Encrypt => olet x := mm_chunked_init fresh C n 0 iv c0 m riv rtmp in Ret (MObj (cfb_encrypt_m C n) (fst x), snd x)
  | CFB n, Decrypt => olet x := mm_chunked_init fresh C n 0 iv c0 m riv rtmp in Ret (MObj (cfb_decrypt_m C n) (fst x), snd x)
  | OFB n, _ => olet x := mm_chunked_init fresh C n 0 iv c0 m riv rtmp in Ret (MObj (ofb_m C n) (fst x), snd x)
  | CTR, _ => olet x := mm_init fresh C (ctr_max bs) iv c0 m riv rtmp in Ret (MObj (ctr_m C bs) (fst x), snd x)
  | CTR_N n, _ => olet x := mm_chunked_init fresh C n (ctr_max n) iv c0 m riv rtmp in Ret (MObj (ctr_m C n) (fst x), snd x)
  end.

(* a chaining mode over a chaining mode over ... *)
Record layer := Layer { l_mode : chaining_mode; l_dir : dir; l_ivopt : option bytes; l_iv : nat; l_tmp : nat }.
Fixpoint build (l : list layer) (c : bobj) : out bobj :=
  match l with
  | [] => Ret c
  | y :: l => olet c := build l c in chain fresh (l_mode y) (l_dir y) (l_ivopt y) c
  end.
Fixpoint build_m (l : list layer) (c : mobj) (m : mem) : out (mobj * mem) :=
  match l with
  | [] => Ret (c, m)
  | y :: l => olet x := build_m l c m in chain_m (l_mode y) (l_dir y) (l_ivopt y) (fst x) (snd x) (l_iv y) (l_tmp y)
  end.
Definition private (l : list layer) : list nat := flat_map (fun y => [l_iv y; l_tmp y]) l.
End Chain.

(* the same cipher object, on memory and on lists *)
Inductive base : mobj -> bobj -> Prop :=
  | Base_raw K bs prim wipe k : 0 <= bs -> (forall b r, prim k b = Ret r -> zlen r = bs) ->
      base (MObj (raw_m K bs prim) k) (BObj (raw_cipher K bs prim wipe) k)
  | Base_triple k : base (MObj triple_des_m k) (BObj triple_des_class k).

(* a sequence of calls transform src so dst d; what they return, and the memory afterwards *)
Record tcall := TCall { tc_src : nat; tc_so : Z; tc_dst : nat; tc_d : Z }.
Fixpoint run_m (C : mcipher) (s : mc_st C) (m : mem) (cs : list tcall) : list (out unit) * mem :=
  match cs with
  | [] => ([], m)
  | c :: cs =>
      let r := mc_transform C s m (tc_src c) (tc_so c) (tc_dst c) (tc_d c) in
      let q := run_m C (fst (fst r)) (snd (fst r)) cs in
      (snd r :: fst q, snd q)
  end.
(* the same calls with the functions on lists, that is, with a copy of the source made before the call *)
Fixpoint run_copy (C : block_cipher) (s : bc_st C) (m : mem) (cs : list tcall) : list (out unit) * mem :=
  match cs with
  | [] => ([], m)
  | c :: cs =>
      let r := bc_transform C s (m (tc_src c)) (tc_so c) (m (tc_dst c)) (tc_d c) in
      let q := run_copy C (fst (fst r)) (upd m (tc_dst c) (snd (fst r))) cs in
      (snd r :: fst q, snd q)
  end.
(* n blocks of array a, one after the other: block i at so + i * bs is transformed into the block at d + i * bs of the same array *)
Fixpoint sweep (a : nat) (so d bs : Z) (n : nat) : list tcall :=
  match n with O => [] | S n => TCall a so a d :: sweep a (so + bs) (d + bs) bs n end.
