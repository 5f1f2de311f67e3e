(* Continuing a hash from its result: C109. *)
From Verif Require Import Prelude BytesNum Word SpecBlock SpecHash SpecRipemd HashModel HashSpec ShaModel RipemdModel Sha Ripemd SpecCollide SpecExtend Extend.

(* C109.  The digest of a message continued by its own padding and by any x can be computed from
   the digest and the length of the message, without the message (so a hash of a secret followed by a message does not authenticate it).
   [pad64 n] and [pad128 n]: what the padding adds to n bytes *)
Theorem C109_sha1 : forall fresh, (forall n, 0 <= n -> zlen (fresh n) = n) ->
  forall ops ops' x, Forall hop_valid ops -> Forall hop_valid ops' -> added ops' = added ops ++ pad64 (zlen (added ops)) ++ x ->
  exists r, result_of (sha1_obj fresh) ops = Ret r /\ result_of (sha1_obj fresh) ops' = Ret (continue_sha1 r (zlen (added ops)) x).
Proof. exact (fun fresh Hf => obj_ext _ _ pad64 continue_sha1 (sha1_computes fresh Hf) sha1_ext). Qed.
Print Assumptions C109_sha1.
Theorem C109_sha256 : forall fresh, (forall n, 0 <= n -> zlen (fresh n) = n) ->
  forall ops ops' x, Forall hop_valid ops -> Forall hop_valid ops' -> added ops' = added ops ++ pad64 (zlen (added ops)) ++ x ->
  exists r, result_of (sha256_obj fresh) ops = Ret r /\ result_of (sha256_obj fresh) ops' = Ret (continue_sha256 r (zlen (added ops)) x).
Proof. exact (fun fresh Hf => obj_ext _ _ pad64 continue_sha256 (sha256_computes fresh Hf) sha256_ext). Qed.
Print Assumptions C109_sha256.
Theorem C109_sha512 : forall fresh, (forall n, 0 <= n -> zlen (fresh n) = n) ->
  forall ops ops' x, Forall hop_valid ops -> Forall hop_valid ops' -> added ops' = added ops ++ pad128 (zlen (added ops)) ++ x ->
  exists r, result_of (sha512_obj fresh) ops = Ret r /\ result_of (sha512_obj fresh) ops' = Ret (continue_sha512 r (zlen (added ops)) x).
Proof. exact (fun fresh Hf => obj_ext _ _ pad128 continue_sha512 (sha512_computes fresh Hf) sha512_ext). Qed.
Print Assumptions C109_sha512.
Theorem C109_ripemd160 : forall fresh, (forall n, 0 <= n -> zlen (fresh n) = n) ->
  forall ops ops' x, Forall hop_valid ops -> Forall hop_valid ops' -> added ops' = added ops ++ pad64_le (zlen (added ops)) ++ x ->
  exists r, result_of (ripemd160_obj fresh) ops = Ret r /\ result_of (ripemd160_obj fresh) ops' = Ret (continue_ripemd160 r (zlen (added ops)) x).
Proof. exact (fun fresh Hf => obj_ext _ _ pad64_le continue_ripemd160 (ripemd160_computes fresh Hf) rmd_ext). Qed.
Print Assumptions C109_ripemd160.
(* so two messages of the same length and digest give as many as one likes *)
Theorem C109_sha1_pairs : forall fresh, (forall n, 0 <= n -> zlen (fresh n) = n) ->
  forall ops1 ops2 ops1' ops2' x, Forall hop_valid ops1 -> Forall hop_valid ops2 -> Forall hop_valid ops1' -> Forall hop_valid ops2' ->
  zlen (added ops1) = zlen (added ops2) -> result_of (sha1_obj fresh) ops1 = result_of (sha1_obj fresh) ops2 ->
  added ops1' = added ops1 ++ pad64 (zlen (added ops1)) ++ x -> added ops2' = added ops2 ++ pad64 (zlen (added ops2)) ++ x ->
  result_of (sha1_obj fresh) ops1' = result_of (sha1_obj fresh) ops2'.
Proof. exact (fun fresh Hf => obj_pairs _ _ pad64 continue_sha1 (sha1_computes fresh Hf) sha1_ext). Qed.
Print Assumptions C109_sha1_pairs.
Theorem C109_sha256_pairs : forall fresh, (forall n, 0 <= n -> zlen (fresh n) = n) ->
  forall ops1 ops2 ops1' ops2' x, Forall hop_valid ops1 -> Forall hop_valid ops2 -> Forall hop_valid ops1' -> Forall hop_valid ops2' ->
  zlen (added ops1) = zlen (added ops2) -> result_of (sha256_obj fresh) ops1 = result_of (sha256_obj fresh) ops2 ->
  added ops1' = added ops1 ++ pad64 (zlen (added ops1)) ++ x -> added ops2' = added ops2 ++ pad64 (zlen (added ops2)) ++ x ->
  result_of (sha256_obj fresh) ops1' = result_of (sha256_obj fresh) ops2'.
Proof. exact (fun fresh Hf => obj_pairs _ _ pad64 continue_sha256 (sha256_computes fresh Hf) sha256_ext). Qed.
Print Assumptions C109_sha256_pairs.
Theorem C109_sha512_pairs : forall fresh, (forall n, 0 <= n -> zlen (fresh n) = n) ->
  forall ops1 ops2 ops1' ops2' x, Forall hop_valid ops1 -> Forall hop_valid ops2 -> Forall hop_valid ops1' -> Forall hop_valid ops2' ->
  zlen (added ops1) = zlen (added ops2) -> result_of (sha512_obj fresh) ops1 = result_of (sha512_obj fresh) ops2 ->
  added ops1' = added ops1 ++ pad128 (zlen (added ops1)) ++ x -> added ops2' = added ops2 ++ pad128 (zlen (added ops2)) ++ x ->
  result_of (sha512_obj fresh) ops1' = result_of (sha512_obj fresh) ops2'.
Proof. exact (fun fresh Hf => obj_pairs _ _ pad128 continue_sha512 (sha512_computes fresh Hf) sha512_ext). Qed.
Print Assumptions C109_sha512_pairs.
Theorem C109_ripemd160_pairs : forall fresh, (forall n, 0 <= n -> zlen (fresh n) = n) ->
  forall ops1 ops2 ops1' ops2' x, Forall hop_valid ops1 -> Forall hop_valid ops2 -> Forall hop_valid ops1' -> Forall hop_valid ops2' ->
  zlen (added ops1) = zlen (added ops2) -> result_of (ripemd160_obj fresh) ops1 = result_of (ripemd160_obj fresh) ops2 ->
  added ops1' = added ops1 ++ pad64_le (zlen (added ops1)) ++ x -> added ops2' = added ops2 ++ pad64_le (zlen (added ops2)) ++ x ->
  result_of (ripemd160_obj fresh) ops1' = result_of (ripemd160_obj fresh) ops2'.
Proof. exact (fun fresh Hf => obj_pairs _ _ pad64_le continue_ripemd160 (ripemd160_computes fresh Hf) rmd_ext). Qed.
Print Assumptions C109_ripemd160_pairs.

(* "abc", then its padding, then "d": 65 bytes, hashed in pieces, against the continuation from the digest of "abc" *)
Example C109_case : let x := [97; 98; 99] in
  obj_hash_string (sha1_obj zeros) (x ++ [128] ++ zeros 59 ++ [24] ++ [100]) =
    Ret (continue_sha1 [169; 153; 62; 54; 71; 6; 129; 106; 186; 62; 37; 113; 120; 80; 194; 108; 156; 208; 216; 157] 3 [100]) /\
  pad64 3 = [128] ++ zeros 59 ++ [24] /\
  (* the digest of "abd" gives something else *)
  continue_sha1 (sha1 x) 3 [100] <> continue_sha1 (sha1 [97; 98; 100]) 3 [100].
Proof. cbv zeta. split; [vm_compute; reflexivity|]. split; [vm_compute; reflexivity|]. vm_compute. discriminate. Qed.
