(* C93: wipe overwrites with zeroes.  The definitions are in SpecZero.v *)
From Verif Require Import Prelude SpecTransducer TransformModel BufOutModel BlockModel CipherModel EncModel StreamModel HashModel MdModel ShaModel Blake3Model SipModel MacModel AuthModel AeadApi AeadModel PolyModel
  DesModel AesModel SpecWipe SpecWipe2 WipeErase SpecZero WipeZero.

(* transforms and their compositions to any depth, whatever was called before, earlier calls of wipe included *)
Theorem C93_transforms : forall fresh w o l, lib_tr fresh w o -> zero_transform fresh (after o (l ++ [Wipe])).
Proof. exact transform_zero. Qed.
Print Assumptions C93_transforms.
Example C93_transforms_case : match make_cipher zeros new_des (Some CBC) None (Some [1;2;3;4;5;6;7;8]) [8;7;6;5;4;3;2;1] Encrypt with
  | Ret o => match after o [Call (PutString [1;2;3;4;5;6;7;8;9])], after o [Call (PutString [1;2;3;4;5;6;7;8;9]); Wipe] with
      | o1, o2 => (exists x, snd (w_run (o_tr o1) (o_st o1) [Call GetString]) = [OBytes x] /\ x <> zeros 8) /\ snd (w_run (o_tr o2) (o_st o2) [Call GetString]) = [OBytes (zeros 8)] end
  | _ => False end.
Proof. vm_compute. split; [eexists; split; [reflexivity|discriminate]|reflexivity]. Qed.

(* hashes and MACs.  HMAC: the context of the hash, not the key (C66_hmac_refuted) *)
Theorem C93_hashes : forall fresh w o l, lib_h fresh w o -> zero_hash (h_after o (l ++ [HWipe])).
Proof. exact hash_zero. Qed.
Print Assumptions C93_hashes.
Theorem C93_blake3 : forall key sz o l, blake3_obj key sz = Ret o -> zero_hash (h_after o (l ++ [HWipe])).
Proof. exact blake3_zero. Qed.
Print Assumptions C93_blake3.
Example C93_hashes_case : lib_h zeros true (sha1_obj zeros) /\ md_state (fst (h_run sha1_class (md_init sha1_iv (zeros 64)) [AddString (repeat 1 70)])) <> repeat 0 5 /\
  fst (h_run sha1_class (md_init sha1_iv (zeros 64)) [AddString (repeat 1 70); HWipe]) = MD (repeat 0 5) 0 0 0 (zeros 64).
Proof. split; [apply (LH_md _ _ _ 64); left; split; reflexivity|]. vm_compute. split; [discriminate|reflexivity]. Qed.

(* authenticated transforms; ChaCha20-Poly1305 with either variant of Poly1305.  AES-GCM apart: C66_gcm_refuted *)
Theorem C93_authenticated_partial : forall fresh l,
  (forall w tr h, lib_tr fresh w tr -> lib_h fresh w h -> zero_auth fresh (a_after (new_transform_then_hash fresh tr h) (l ++ [AWipe])) /\ zero_auth fresh (a_after (new_transform_and_hash tr h) (l ++ [AWipe]))) /\
  (forall P header iv key d o, poly_class P -> chacha20_poly1305 fresh P header iv key d = Ret o -> zero_auth fresh (a_after o (l ++ [AWipe]))).
Proof.
  exact (fun fresh l => conj (fun w tr h LT LH => conj (then_zero fresh w tr h l LT LH) (and_zero fresh w tr h l LT LH)) (fun P header iv key d o => chapoly_zero fresh P header iv key d o l)).
Qed.
Print Assumptions C93_authenticated_partial.
(* AES-GCM: what wipe overwrites, and what it leaves; C66_gcm_refuted shows that what it leaves depends on the key *)
Theorem C93_gcm_partial : forall fresh accel nb header iv key d o l, aes_class fresh nb -> aes_gcm fresh accel nb header iv key d = Ret o ->
  gcm_half_wiped fresh (a_after o l) (a_after o (l ++ [AWipe])).
Proof. exact gcm_half. Qed.
Print Assumptions C93_gcm_partial.
(* after wipe, get_string still gives what was in the output buffer, now zeros *)
Example C93_gcm_case : match aes_gcm zeros false (new_aes zeros Encrypt) [1; 2] (repeat 3 12) (repeat 4 16) Encrypt with
  | Ret o => (exists x, snd (a_run (ao_class o) (ao_st o) [ACall (PutString (repeat 5 17)); ACall GetString]) = [OUnit; OBytes x] /\ x <> zeros 16) /\
      snd (a_run (ao_class o) (ao_st o) [ACall (PutString (repeat 5 17)); AWipe; ACall GetString]) = [OUnit; OUnit; OBytes (zeros 16)]
  | _ => False end.
Proof. vm_compute. split; [eexists; split; [reflexivity|discriminate]|reflexivity]. Qed.
Example C93_authenticated_case : match chacha20_poly1305 zeros (poly64 mach) [1; 2] (repeat 3 12) (repeat 4 32) Encrypt with
  | Ret o => (exists x, snd (a_run (ao_class o) (ao_st o) [ACall (PutString [1; 2]); ACall GetString]) = [OUnit; OBytes x] /\ x <> [0; 0]) /\
      snd (a_run (ao_class o) (ao_st o) [ACall (PutString [1; 2]); AWipe; ACall GetString]) = [OUnit; OUnit; OBytes [0; 0]]
  | _ => False end.
Proof. vm_compute. split; [eexists; split; [reflexivity|discriminate]|reflexivity]. Qed.
