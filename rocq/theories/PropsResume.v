(* Continuing a message with a second object: C104. *)
From Verif Require Import Prelude SpecTransducer SpecBlock SpecModes TransformModel CipherModel CipherSpec CipherApi EncModel EncApi SpecStream StreamModel StreamObj Chacha StreamApi SpecResume Resume ResumeStream Toy.

(* C104.  A second object, given the IV [next_iv] (computed from the first IV and the bytes
   given to and obtained from the first object), goes on where the first one stopped. *)
Theorem C104_modes : forall fresh, (forall n, 0 <= n -> zlen (fresh n) = n) ->
  forall nb key bs E D m iv d o a b ra, block_family nb key bs E D -> mode_ok bs m -> resumable bs m -> iv_ok bs m iv ->
  make_cipher fresh nb (Some m) None iv key d = Ret o -> let n := mode_bs bs m in
  bytes_ok a -> bytes_ok b -> zlen (a ++ b) + 3 * n <= max_string_length -> zlen a mod n = 0 -> zlen b mod n = 0 -> within_limit bs m (zlen (a ++ b) / n) ->
  run_string o a = Ret ra ->
  exists o' rb, make_cipher fresh nb (Some m) None (Some (next_iv bs m d (iv_val bs iv) a ra)) key d = Ret o' /\ run_string o' b = Ret rb /\ run_string o (a ++ b) = Ret (ra ++ rb).
Proof. exact resume. Qed.
Print Assumptions C104_modes.
(* ChaCha20: the counter plus the number of 64-byte blocks done *)
Theorem C104_chacha20 : forall fresh iv ctr key d a b, (forall n, 0 <= n -> zlen (fresh n) = n) ->
  zlen key = 16 \/ zlen key = 32 -> bytes_ok key -> bytes_ok (iv_of iv) -> chacha_iv iv ctr -> chacha_iv iv (ctr + zlen a / 64) ->
  bytes_ok a -> bytes_ok b -> zlen (a ++ b) <= max_string_length -> zlen a mod 64 = 0 ->
  exists o o' ra rb, Cipher_chacha20 fresh iv ctr key d = Ret o /\ Cipher_chacha20 fresh iv (ctr + zlen a / 64) key d = Ret o' /\
    whole o a (Ret ra) /\ whole o' b (Ret rb) /\ whole o (a ++ b) (Ret (ra ++ rb)).
Proof. exact chacha_resume. Qed.
Print Assumptions C104_chacha20.
(* a 4-byte cipher; CFB with 3-byte chunks and CTR with a 2-byte counter that overflows *)
Example C104_case :
  next_iv 4 (CFB 3) Encrypt [9; 8; 7; 6] [1; 2; 3] [40; 50; 60] = [6; 40; 50; 60] /\
  next_iv 4 (CTR_N 2) Encrypt [9; 8; 255; 255] [1; 2; 3; 4; 5; 6; 7; 8] [40; 50; 60; 70; 80; 90; 91; 92] = [9; 8; 0; 1] /\
  match make_cipher toy_fresh toy_block (Some (CFB 3)) None (Some [9; 8; 7; 6]) [17; 34; 51; 68] Encrypt with
  | Ret o => match run_string o [1; 2; 3], run_string o [1; 2; 3; 4; 5; 6] with
             | Ret ra, Ret r => match make_cipher toy_fresh toy_block (Some (CFB 3)) None (Some (next_iv 4 (CFB 3) Encrypt [9; 8; 7; 6] [1; 2; 3] ra)) [17; 34; 51; 68] Encrypt with
                                | Ret o' => match run_string o' [4; 5; 6] with Ret rb => r = ra ++ rb /\ ra <> [1; 2; 3] /\ rb <> [4; 5; 6] | _ => False end
                                | _ => False
                                end
             | _, _ => False
             end
  | _ => False
  end.
Proof. vm_compute. split; [reflexivity|split; [reflexivity|split; [reflexivity|split; discriminate]]]. Qed.
