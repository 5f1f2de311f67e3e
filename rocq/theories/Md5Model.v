(* Model: stubs-md5.c and class md5.  The MD5 computation itself is that of
   the OCaml runtime (caml_MD5Init, caml_MD5Update, caml_MD5Final), which is
   not part of the repository: its three functions are parameters. *)
From Verif Require Import Prelude HashModel.

(* the runtime's functions; rt_wiped: a context overwritten with zeros *)
Record md5_runtime := MD5Runtime {
  rt_ctx : Type; rt_init : rt_ctx; rt_update : rt_ctx -> bytes -> rt_ctx; rt_final : rt_ctx -> bytes; rt_wiped : rt_ctx }.

(* caml_md5_update, stubs-md5.c 45-49: the length goes through the parameter
   [unsigned len] of caml_MD5Update (declared at line 33), so it is reduced
   modulo 2^32 *)
Definition md5_update (rt : md5_runtime) (c : rt_ctx rt) (d : bytes) : out (rt_ctx rt) :=
  Ret (rt_update rt c (firstn (Z.to_nat (zlen d mod 2 ^ 32)) d)).
(* caml_md5_final, 51-59; the context it leaves behind is not modelled: the
   object is not to be used after result *)
Definition md5_fin (rt : md5_runtime) (c : rt_ctx rt) : rt_ctx rt * out bytes := (c, Ret (rt_final rt c)).
(* class md5, cryptokit.ml 1242-1260; caml_md5_init, stubs-md5.c 38-43 *)
Definition md5_class (rt : md5_runtime) : hash := c_hash (rt_ctx rt) 16 (md5_update rt) (md5_fin rt) (fun _ => rt_wiped rt).
Definition md5_obj (rt : md5_runtime) : hobj := HObj (md5_class rt) (rt_init rt).
