(* Compositions of three transforms: C107. *)
From Verif Require Import Prelude SpecTransducer TransformModel BlockModel CipherModel CipherSpec Lawful EncModel EncLawful EncApi LibTransform SpecWipe SpecAssoc Assoc Toy PropsCipher.

(* C107.  compose (compose a b) c and compose a (compose b c) transform a message to the same
   result, by transform_string or by any sequence of calls, or both refuse it *)
Theorem C107_messages : forall fresh, (forall n, 0 <= n -> zlen (fresh n) = n) ->
  forall o1 o2 o3 K1 A1 K2 A2 K3 A3 msg, lib_transform fresh o1 K1 A1 -> lib_transform fresh o2 K2 A2 -> lib_transform fresh o3 K3 A3 -> bytes_ok msg ->
  K1 * K2 * K3 * zlen msg + 8 * (K2 * K3 * A1 + K3 * A2 + A3) <= max_string_length ->
  (exists r, whole (composed (composed o1 o2) o3) msg (Ret r) /\ whole (composed o1 (composed o2 o3)) msg (Ret r)) \/
  (exists e e', run_string (composed (composed o1 o2) o3) msg = Raise e /\ run_string (composed o1 (composed o2 o3)) msg = Raise e').
Proof. exact lib_assoc. Qed.
Print Assumptions C107_messages.
(* for transforms of any kind, in any state: as long as neither flush nor finish is called, all
   calls, also wipe and those after exceptions, return the same *)
Theorem C107_calls : forall T1 T2 T3 l s1 s2 s3, forallb not_end l = true ->
  snd (w_run (compose (compose T1 T2) T3) ((s1, s2), s3) l) = snd (w_run (compose T1 (compose T2 T3)) (s1, (s2, s3)) l).
Proof. exact any_same. Qed.
Print Assumptions C107_calls.

(* hexadecimal, encryption, Base64 *)
Local Definition enc : tobj := match make_cipher toy_fresh toy_block None None None toy_key Encrypt with Ret o => o | _ => hexa_decode_obj toy_fresh end.
Local Definition three (f : tobj -> tobj -> tobj -> tobj) : tobj := f (hexa_encode_obj toy_fresh) enc (base64_encode_obj toy_fresh false true).
Example C107_case : run_string (three (fun a b c => composed (composed a b) c)) [1; 2; 3; 4] = run_string (three (fun a b c => composed a (composed b c))) [1; 2; 3; 4] /\
  run_string (three (fun a b c => composed a (composed b c))) [1; 2; 3; 4] = Ret [73; 120; 73; 67; 100; 70; 69; 81; 69; 108; 99; 61].
Proof. vm_compute. split; reflexivity. Qed.
(* the exception can be another one: at finish, the right grouping hands the last blocks on
   before it finds that the message is incomplete *)
Theorem C107_exception_refuted : exists o1 o2 o3 K1 A1 K2 A2 K3 A3 msg, lib_transform toy_fresh o1 K1 A1 /\ lib_transform toy_fresh o2 K2 A2 /\ lib_transform toy_fresh o3 K3 A3 /\ bytes_ok msg /\
  run_string (composed (composed o1 o2) o3) msg = Raise (Error Wrong_data_length) /\ run_string (composed o1 (composed o2 o3)) msg = Raise (Error Bad_encoding).
Proof.
  exists (base64_encode_obj toy_fresh false false), enc, (hexa_decode_obj toy_fresh), 2, 9, 1, 16, 1, 1, [1; 2; 3; 4; 5].
  split; [constructor|]. split; [apply (LT_cipher toy_fresh toy_block toy_key 4 (toy_E toy_key) (toy_D toy_key) None None None Encrypt); [exact toy_fam|vm_compute; auto|exact Logic.I|reflexivity]|].
  split; [constructor|]. split; [repeat constructor; vm_compute; intuition discriminate|]. vm_compute. split; reflexivity.
Qed.
Print Assumptions C107_exception_refuted.
