(* Properties C85 and C86: the memory of the public-key functions.  [share] chooses, each time a function of ZArith has a result equal to one of its arguments,
   whether this argument is returned.  Vocabulary in SpecPkMem.v; the functions on values are those of C51 to C57. *)
From Coq Require Import Znumtheory.
From Verif Require Import Prelude BytesNum RngModel BnModel PkModel SpecPk PkGen PkCases Toy BnHeapModel BnHeapDhModel SpecPkMem PkHeap PkHeap2 PkHeap3 PkHeap4 PkHeap5 PkHeap6 PkHeap7 PkHeapCases.

(* C85: what is erased is never used afterwards, and is never what the caller has. *)
Theorem C85_rsa_encrypt : forall share h key msg, present h (msg :: rsa_pub_strings key) -> let r := m_rsa_encrypt share h key msg in
  keeps h (fst r) /\ new_string h r /\ string_of r = rsa_encrypt (rsa_pub_of h key) (str h msg).
Proof. exact rsa_encrypt_mem. Qed.
Print Assumptions C85_rsa_encrypt.
Theorem C85_rsa_decrypt : forall share h key msg, present h (msg :: rsa_priv_strings key) -> let r := m_rsa_decrypt share h key msg in
  keeps h (fst r) /\ new_string h r /\ string_of r = rsa_decrypt (rsa_priv_of h key) (str h msg).
Proof. exact rsa_decrypt_mem. Qed.
Print Assumptions C85_rsa_decrypt.
Theorem C85_rsa_decrypt_CRT : forall share h key msg, present h (msg :: rsa_priv_strings key) -> let r := m_rsa_decrypt_CRT share h key msg in
  keeps h (fst r) /\ new_string h r /\ string_of r = rsa_decrypt_CRT (rsa_priv_of h key) (str h msg).
Proof. exact rsa_crt_mem. Qed.
Print Assumptions C85_rsa_decrypt_CRT.
(* the strings of the two keys are all different *)
Theorem C85_rsa_new_key : forall share fresh R np fuel s h e nb,
  let r := m_rsa_new_key share fresh R np fuel (s, h) e nb in let v := rsa_new_key fresh R np fuel s e nb in let h' := snd (fst r) in
  fst (fst r) = fst v /\ keeps h h' /\ (olet k := snd r in Ret (rsa_priv_of h' (fst k), rsa_pub_of h' (snd k))) = snd v /\
  (forall k, snd r = Ret k -> let l := rsa_priv_strings (fst k) ++ rsa_pub_strings (snd k) in NoDup l /\ Forall (fun a => (length h <= a < length h')%nat) l).
Proof. exact rsa_new_key_ok. Qed.
Print Assumptions C85_rsa_new_key.
Theorem C85_paillier_encrypt : forall share fresh R fuel s h key msg, present h (msg :: pai_pub_strings key) -> let r := m_pai_encrypt share fresh R fuel (s, h) key msg in
  let v := pai_encrypt fresh R fuel s (pai_pub_of h key) (str h msg) in let h' := snd (fst r) in
  fst (fst r) = fst v /\ keeps h h' /\ new_string h (h', snd r) /\ string_of (h', snd r) = snd v.
Proof. exact pai_encrypt_mem. Qed.
Print Assumptions C85_paillier_encrypt.
Theorem C85_paillier_decrypt : forall share h key c, present h (c :: pai_priv_strings key) -> let r := m_pai_decrypt share h key c in
  keeps h (fst r) /\ new_string h r /\ string_of r = pai_decrypt (pai_priv_of h key) (str h c).
Proof. exact pai_decrypt_mem. Qed.
Print Assumptions C85_paillier_decrypt.
Theorem C85_paillier_add : forall share h key c1 c2, present h (c1 :: c2 :: pai_pub_strings key) -> let r := m_mul share h c1 c2 (mpp_n2 key) in
  keeps h (fst r) /\ new_string h r /\ string_of r = pai_add (pai_pub_of h key) (str h c1) (str h c2).
Proof. exact pai_add_mem. Qed.
Print Assumptions C85_paillier_add.
Theorem C85_paillier_new_key : forall share fresh R np fuel s h nb,
  let r := m_pai_new_key share fresh R np fuel (s, h) nb in let v := pai_new_key fresh R np fuel s nb in let h' := snd (fst r) in
  fst (fst r) = fst v /\ keeps h h' /\ (olet k := snd r in Ret (pai_priv_of h' (fst k), pai_pub_of h' (snd k))) = snd v /\
  (forall k, snd r = Ret k -> let l := pai_priv_strings (fst k) ++ pai_pub_strings (snd k) in NoDup l /\ Forall (fun a => (length h <= a < length h')%nat) l).
Proof. exact pai_new_key_ok. Qed.
Print Assumptions C85_paillier_new_key.
Theorem C85_dh_message : forall share h params x, present h [mdh_g params; mdh_p params] -> secret_ok h x -> let r := m_dh_message share h params x in
  keeps h (fst r) /\ new_string h r /\ string_of r = dh_message (dh_params_of h params) (num h x).
Proof. exact dh_message_mem. Qed.
Print Assumptions C85_dh_message.
(* the private secret alone is changed *)
Theorem C85_dh_shared_secret : forall share h params x msg, present h [msg; mdh_p params] -> secret_ok h x ->
  let r := m_dh_shared_secret share h params x msg in let v := dh_shared_secret (dh_params_of h params) (num h x) (str h msg) in
  new_string h r /\ string_of r = snd v /\ num (fst r) x = fst v /\ (forall i, (i < length h)%nat -> Blk i <> x -> cell_at (fst r) i = cell_at h i).
Proof. exact dh_shared_mem. Qed.
Print Assumptions C85_dh_shared_secret.
(* A key, a message encrypted and decrypted in both ways, the private key erased, the message encrypted again. *)
Theorem C85_rsa_session : forall share fresh R np fuel s h e nb s1 h1 k msg, fresh_ok fresh -> rng_bytes R -> (forall n, 0 <= n -> prime (np n)) -> (forall x, e = Some x -> 0 < x) -> aligned nb ->
  m_rsa_new_key share fresh R np fuel (s, h) e nb = ((s1, h1), Ret k) -> (msg < length h)%nat -> bytes_ok (str h msg) -> be (str h msg) < be (str h1 (mrp_n (snd k))) ->
  exists h2 c h3 m3 h4 m4 h6 c6, m_rsa_encrypt share h1 (snd k) msg = (h2, Ret c) /\ m_rsa_decrypt share h2 (fst k) c = (h3, Ret m3) /\ m_rsa_decrypt_CRT share h3 (fst k) c = (h4, Ret m4) /\
   m_rsa_encrypt share (m_rsa_wipe_key h4 (fst k)) (snd k) msg = (h6, Ret c6) /\
   let text := to_be (width nb) (be (str h msg)) in str h3 m3 = text /\ str h4 m4 = text /\ str h6 c6 = str h2 c /\ keeps h h6.
Proof. exact rsa_session. Qed.
Print Assumptions C85_rsa_session.
(* Paillier: the sum of two messages encrypted *)
Theorem C85_paillier_session : forall share fresh R np fuel s h nb s1 h1 k m1 m2 s2 h2 c1 s3 h3 c2, fresh_ok fresh -> rng_bytes R -> (forall n, 0 <= n -> prime (np n)) -> nb <= 2 ^ 50 ->
  m_pai_new_key share fresh R np fuel (s, h) nb = ((s1, h1), Ret k) -> present h [m1; m2] -> 0 < be (str h m1) -> 0 < be (str h m2) -> be (str h m1) + be (str h m2) < be (str h1 (mpp_n (snd k))) ->
  m_pai_encrypt share fresh R fuel (s1, h1) (snd k) m1 = ((s2, h2), Ret c1) -> m_pai_encrypt share fresh R fuel (s2, h2) (snd k) m2 = ((s3, h3), Ret c2) ->
  exists h4 c h5 t, m_mul share h3 c1 c2 (mpp_n2 (snd k)) = (h4, Ret c) /\ m_pai_decrypt share h4 (fst k) c = (h5, Ret t) /\ be (str h5 t) = be (str h m1) + be (str h m2) /\ keeps h h5.
Proof. exact pai_session. Qed.
Print Assumptions C85_paillier_session.
Theorem C85_dh_session : forall share h params x y, dh_ok (dh_params_of h params) -> present h [mdh_g params; mdh_p params] -> secret_ok h x -> secret_ok h y -> 0 < num h x -> 0 < num h y ->
  (x <> y \/ exists z, x = Imm z) ->
  exists h1 mx h2 my h3 k1 h4 k2, m_dh_message share h params x = (h1, Ret mx) /\ m_dh_message share h1 params y = (h2, Ret my) /\
  m_dh_shared_secret share h2 params x my = (h3, Ret k1) /\ m_dh_shared_secret share h3 params y mx = (h4, Ret k2) /\ str h3 k1 = str h4 k2 /\ str h4 k1 = str h4 k2 /\
  be (str h4 k2) = be (str h (mdh_g params)) ^ (num h x * num h y) mod be (str h (mdh_p params)).
Proof. exact (fun share => dh_session share (fun _ => []) (fun z => z)). Qed.
Print Assumptions C85_dh_session.
(* DH.new_parameters: two new strings *)
Theorem C85_dh_new_parameters : forall share fresh R np fuel s h privlen nb,
  let r := m_dh_new_parameters share fresh R np fuel (s, h) privlen nb in let v := dh_new_parameters fresh R np fuel s privlen nb in let h' := snd (fst r) in
  fst (fst r) = fst v /\ keeps h h' /\ (olet k := snd r in Ret (dh_params_of h' k)) = snd v /\
  (forall k, snd r = Ret k -> NoDup [mdh_p k; mdh_g k] /\ Forall (fun a => (length h <= a < length h')%nat) [mdh_p k; mdh_g k]).
Proof.
  intros share fresh R np fuel s h privlen nb. destruct (new_parameters_mem share fresh R np fuel s h privlen nb) as (A & B & C & D).
  exact (conj A (conj B (conj C (fun k E => conj (proj1 (D k E)) (proj1 (proj2 (D k E))))))).
Qed.
Print Assumptions C85_dh_new_parameters.
(* DH.private_secret: a new number, which the two theorems above accept *)
Theorem C85_dh_private_secret : forall share fresh R s h params,
  let r := m_dh_private_secret share fresh R (s, h) params in let v := dh_private_secret fresh R s (dh_params_of h params) in let h' := snd (fst r) in
  fst (fst r) = fst v /\ keeps h h' /\ (olet x := snd r in Ret (num h' x)) = snd v /\
  (forall x, snd r = Ret x -> secret_ok h' x /\ forall i, x = Blk i -> (length h <= i < length h')%nat).
Proof.
  intros share fresh R s h params. destruct (private_secret_mem share fresh R (fun z => z) s h params) as (A & B & C & D).
  exact (conj A (conj B (conj C (fun x E => conj (proj1 (D x E)) (proj1 (proj2 (D x E))))))).
Qed.
Print Assumptions C85_dh_private_secret.
(* a whole exchange: new parameters, two private secrets from any two generators, two messages, two shared secrets *)
Theorem C85_dh_exchange : forall share fresh R np fuel s h privlen nb s1 h1 params R1 R2 r1 r2 r1' r2' h2 h3 x y,
  fresh_ok fresh -> rng_bytes R -> (forall n, 0 <= n -> prime (np n)) -> nb <= 2 ^ 58 -> rng_bytes R1 -> rng_bytes R2 ->
  m_dh_new_parameters share fresh R np fuel (s, h) privlen nb = ((s1, h1), Ret params) ->
  m_dh_private_secret share fresh R1 (r1, h1) params = ((r1', h2), Ret x) -> m_dh_private_secret share fresh R2 (r2, h2) params = ((r2', h3), Ret y) ->
  exists h4 mx h5 my h6 k1 h7 k2, m_dh_message share h3 params x = (h4, Ret mx) /\ m_dh_message share h4 params y = (h5, Ret my) /\
  m_dh_shared_secret share h5 params x my = (h6, Ret k1) /\ m_dh_shared_secret share h6 params y mx = (h7, Ret k2) /\ str h7 k1 = str h7 k2 /\
  be (str h7 k2) = be (str h1 (mdh_g params)) ^ (num h3 x * num h3 y) mod be (str h1 (mdh_p params)).
Proof. exact exchange. Qed.
Print Assumptions C85_dh_exchange.
Example C85_dh_case : match m_dh_new_parameters never toy_fresh toy_rng toy_nextprime 4 (0%nat, toy_heap) 63 64 with
  | ((s1, h1), Ret params) => match m_dh_private_secret never toy_fresh toy_rng (s1, h1) params with
    | ((s2, h2), Ret x) => match m_dh_private_secret never toy_fresh toy_rng (s2, h2) params with
      | ((s3, h3), Ret y) => let (h4, mx) := m_dh_message never h3 params x in length (str h1 (mdh_p params)) = 8%nat /\ exists a, mx = Ret a | _ => False end | _ => False end | _ => False end.
Proof. vm_compute. split; [reflexivity|eexists; reflexivity]. Qed.
(* the same key and messages in a memory where nothing is shared, or all that can be *)
Example C85_case : toy_rsa never = ((2%nat, toy_h), Ret (toy_sk, toy_pk)) /\ rsa_pair (rsa_priv_of toy_h toy_sk) (rsa_pub_of toy_h toy_pk) /\
  present toy_h (rsa_priv_strings toy_sk ++ rsa_pub_strings toy_pk) /\ str toy_heap 0 = [1; 2; 3; 4; 5; 6; 7; 8; 9] /\ aligned 128 /\
  toy_paillier never = ((2%nat, toy_ph), Ret (toy_psk, toy_ppk)) /\ pai_key (pai_priv_of toy_ph toy_psk) (pai_pub_of toy_ph toy_ppk) /\
  let h := [Str (to_be 8 toy_p); Str [5]; Num (2 ^ 64 + 1); Num (2 ^ 63)] in dh_ok (dh_params_of h (MDhParams 0 1 65)) /\ secret_ok h (Blk 2) /\ secret_ok h (Blk 3) /\
  string_of (m_dh_message always h (MDhParams 0 1 65) (Blk 2)) = Ret (to_be 8 (Zpow_facts.Zpow_mod 5 (2 ^ 64 + 1) toy_p)).
Proof.
  split; [exact toy_rsa_ok|]. split; [apply toy_rsa_valid|]. split; [apply toy_rsa_valid|]. split; [reflexivity|]. split; [exists 2; reflexivity|]. split; [exact toy_pai_mem|]. split; [apply toy_pai_valid|].
  cbv zeta. split; [exact toy_dh_ok|]. split; [split; [cbn [length]; lia|eexists; split; [reflexivity|right; unfold immediate; lia]]|]. split; [split; [cbn [length]; lia|eexists; split; [reflexivity|right; unfold immediate; lia]]|]. vm_compute. reflexivity.
Qed.

(* C86.  The full property is that, of what a function allocates, only the result does not hold zeros: *)
Theorem C86_rsa_encrypt : forall share h key msg h' t, present h (msg :: rsa_pub_strings key) -> m_rsa_encrypt share h key msg = (h', Ret t) -> nothing_left_but [t] h h'.
Proof. exact rsa_encrypt_left. Qed.
Print Assumptions C86_rsa_encrypt.
Theorem C86_rsa_decrypt : forall share h key msg h' t, present h (msg :: rsa_priv_strings key) -> m_rsa_decrypt share h key msg = (h', Ret t) -> nothing_left_but [t] h h'.
Proof. exact rsa_decrypt_left. Qed.
Print Assumptions C86_rsa_decrypt.
(* but not when the message is too long: the private exponent remains *)
Theorem C86_exception_kept : forall share h key msg, present h (msg :: rsa_priv_strings key) -> be (str h msg) >= be (str h (mrk_n key)) -> ~ immediate (be (str h (mrk_d key))) ->
  let r := m_rsa_decrypt share h key msg in snd r = Raise (Error Message_too_long) /\ exists i, (length h <= i < length (fst r))%nat /\ cell_at (fst r) i = Num (be (str h (mrk_d key))).
Proof. exact rsa_exception_left. Qed.
Print Assumptions C86_exception_kept.
(* decrypt_CRT: the key is erased, intermediate results are not; some give a factor of n *)
Theorem C86_crt_partial : forall share h key msg h' t, present h (msg :: rsa_priv_strings key) -> m_rsa_decrypt_CRT share h key msg = (h', Ret t) ->
  let n a := be (str h a) in forall i, (length h <= i < length h')%nat -> i <> t -> cleared (cell_at h' i) \/
  exists z, cell_at h' i = Num z /\ In z (crt_numbers (n msg) (n (mrk_p key)) (n (mrk_q key)) (n (mrk_dp key)) (n (mrk_dq key)) (n (mrk_qinv key))).
Proof. exact rsa_crt_left. Qed.
Print Assumptions C86_crt_partial.
Theorem C86_crt_refuted : exists share h key msg h' t i z, rsa_crt (rsa_priv_of h key) /\ aligned (mrk_size key) /\ present h (msg :: rsa_priv_strings key) /\
  m_rsa_decrypt_CRT share h key msg = (h', Ret t) /\ (length h <= i < length h')%nat /\ i <> t /\ cell_at h' i = Num z /\ Z.gcd z (be (str h (mrk_n key))) = be (str h (mrk_q key)).
Proof. exact crt_not_erased. Qed.
Print Assumptions C86_crt_refuted.
(* RSA.new_key: the random numbers and (p-1)(q-1) *)
Theorem C86_new_key_partial : forall share fresh R np fuel s h e nb s' h' k, m_rsa_new_key share fresh R np fuel (s, h) e nb = ((s', h'), Ret k) ->
  forall i, (length h <= i < length h')%nat -> ~ In i (rsa_priv_strings (fst k) ++ rsa_pub_strings (snd k)) -> cleared (cell_at h' i) \/
  exists z, cell_at h' i = Num z /\ (drawn fresh R np z \/ exists p q, drawn_prime fresh R np p /\ drawn_prime fresh R np q /\ z = (p - 1) * (q - 1)).
Proof. exact rsa_new_key_left. Qed.
Print Assumptions C86_new_key_partial.
Theorem C86_new_key_kept : forall share fresh R np fuel s h e nb s' h' k, fresh_ok fresh -> rng_bytes R -> (forall n, 0 <= n -> prime (np n)) -> (forall x, e = Some x -> 0 < x) ->
  m_rsa_new_key share fresh R np fuel (s, h) e nb = ((s', h'), Ret k) ->
  exists i, (length h <= i < length h')%nat /\ cell_at h' i = Num ((be (str h' (mrk_p (fst k))) - 1) * (be (str h' (mrk_q (fst k))) - 1)).
Proof. exact rsa_phi_kept. Qed.
Print Assumptions C86_new_key_kept.
(* even p-1 and q-1 *)
Theorem C86_new_key_refuted : exists share fresh R np fuel s h e nb s' h' k i j, fresh_ok fresh /\ rng_bytes R /\ (forall n, 0 <= n -> prime (np n)) /\ (forall x, e = Some x -> 0 < x) /\
  m_rsa_new_key share fresh R np fuel (s, h) e nb = ((s', h'), Ret k) /\ (length h <= i < length h')%nat /\ (length h <= j < length h')%nat /\
  cell_at h' i = Num (be (str h' (mrk_p (fst k))) - 1) /\ cell_at h' j = Num (be (str h' (mrk_q (fst k))) - 1).
Proof. exact new_key_not_erased. Qed.
Print Assumptions C86_new_key_refuted.
(* Paillier *)
Theorem C86_paillier_partial : forall share h key c h' t, present h (c :: pai_priv_strings key) -> m_pai_decrypt share h key c = (h', Ret t) ->
  let n a := be (str h a) in forall i, (length h <= i < length h')%nat -> i <> t -> cleared (cell_at h' i) \/
  exists z, cell_at h' i = Num z /\ In z (paillier_numbers (n (mpk_n key)) (n (mpk_n2 key)) (n (mpk_lambda key)) (n (mpk_mu key)) (n c)).
Proof. exact pai_decrypt_left. Qed.
Print Assumptions C86_paillier_partial.
(* the message can be found in what remains *)
Theorem C86_paillier_refuted : exists share h key pub c h' t i z, pai_key (pai_priv_of h key) (pai_pub_of h pub) /\ present h (c :: pai_priv_strings key) /\
  m_pai_decrypt share h key c = (h', Ret t) /\ (length h <= i < length h')%nat /\ i <> t /\ cell_at h' i = Num z /\ z mod be (str h (mpp_n pub)) = be (str h' t).
Proof. exact paillier_not_erased. Qed.
Print Assumptions C86_paillier_refuted.
(* encryption keeps the message as a number, unless it is an immediate integer, and the random string *)
Theorem C86_paillier_encrypt_kept : forall share fresh R fuel s h key msg s' h' t, present h (msg :: pai_pub_strings key) -> m_pai_encrypt share fresh R fuel (s, h) key msg = ((s', h'), Ret t) ->
  (~ immediate (be (str h msg)) -> exists i, (length h <= i < length h')%nat /\ cell_at h' i = Num (be (str h msg))) /\
  exists i r s1, pai_get_r fresh R fuel s (pai_pub_of h key) = (s1, Ret r) /\ (length h <= i < length h')%nat /\ cell_at h' i = Str r.
Proof. intros. split; [intros; eapply pai_message_kept; eassumption|eapply pai_r_kept; eassumption]. Qed.
Print Assumptions C86_paillier_encrypt_kept.
Theorem C86_paillier_new_key_partial : forall share fresh R np fuel s h nb s' h' k, m_pai_new_key share fresh R np fuel (s, h) nb = ((s', h'), Ret k) ->
  forall i, (length h <= i < length h')%nat -> ~ In i (pai_priv_strings (fst k) ++ pai_pub_strings (snd k)) -> cleared (cell_at h' i) \/
  exists z, cell_at h' i = Num z /\ drawn_product fresh R np z.
Proof. exact pai_new_key_left. Qed.
Print Assumptions C86_paillier_new_key_partial.
Theorem C86_paillier_new_key_kept : forall share fresh R np fuel s h nb s' h' k, fresh_ok fresh -> rng_bytes R -> (forall n, 0 <= n -> prime (np n)) -> nb <= 2 ^ 50 ->
  m_pai_new_key share fresh R np fuel (s, h) nb = ((s', h'), Ret k) ->
  exists i, (length h <= i < length h')%nat /\ cell_at h' i = Num ((be (str h' (mpk_p (fst k))) - 1) * (be (str h' (mpk_q (fst k))) - 1)).
Proof. exact pai_phi_kept. Qed.
Print Assumptions C86_paillier_new_key_kept.
(* Diffie-Hellman: the shared secret *)
Theorem C86_dh_kept : forall share h params x msg h' t, present h [msg; mdh_p params] -> secret_ok h x -> m_dh_shared_secret share h params x msg = (h', Ret t) ->
  let k := be (str h msg) ^ num h x mod Z.abs (be (str h (mdh_p params))) in immediate k \/ exists i, (length h <= i < length h')%nat /\ cell_at h' i = Num k.
Proof. exact dh_kept. Qed.
Print Assumptions C86_dh_kept.
(* DH.private_secret leaves nothing but its result; DH.new_parameters, numbers that were drawn, among them those of the result, which is public *)
Theorem C86_dh_private_secret : forall share fresh R s h params s' h' x, m_dh_private_secret share fresh R (s, h) params = ((s', h'), Ret x) ->
  forall i, (length h <= i < length h')%nat -> Blk i <> x -> cleared (cell_at h' i).
Proof.
  intros share fresh R s h params s' h' x E. pose proof (private_secret_mem share fresh R (fun z => z) s h params) as H. cbv zeta in H. rewrite E in H. exact (proj2 (proj2 (proj2 (proj2 (proj2 H)) x eq_refl))).
Qed.
Print Assumptions C86_dh_private_secret.
Theorem C86_dh_new_parameters_partial : forall share fresh R np fuel s h privlen nb s' h' k, m_dh_new_parameters share fresh R np fuel (s, h) privlen nb = ((s', h'), Ret k) ->
  forall i, (length h <= i < length h')%nat -> ~ In i [mdh_p k; mdh_g k] -> cleared (cell_at h' i) \/ exists z, cell_at h' i = Num z /\ drawn fresh R np z.
Proof.
  intros share fresh R np fuel s h privlen nb s' h' k E. pose proof (new_parameters_mem share fresh R np fuel s h privlen nb) as H. cbv zeta in H. rewrite E in H. exact (proj2 (proj2 (proj2 (proj2 (proj2 H)) k eq_refl))).
Qed.
Print Assumptions C86_dh_new_parameters_partial.
(* wipe_key erases all the strings of the private key, and changes nothing else *)
Theorem C86_rsa_wipe_key : forall h k, present h (rsa_priv_strings k) -> let h' := m_rsa_wipe_key h k in length h' = length h /\
  Forall (fun a => str h' a = repeat 0 (length (str h a))) (rsa_priv_strings k) /\ (forall i, ~ In i (rsa_priv_strings k) -> cell_at h' i = cell_at h i).
Proof. exact rsa_wipe_all_ok. Qed.
Print Assumptions C86_rsa_wipe_key.
Theorem C86_paillier_wipe_key : forall h k, present h (pai_priv_strings k) -> let h' := m_pai_wipe_key h k in length h' = length h /\
  Forall (fun a => str h' a = repeat 0 (length (str h a))) (pai_priv_strings k) /\ (forall i, ~ In i (pai_priv_strings k) -> cell_at h' i = cell_at h i).
Proof. exact pai_wipe_all_ok. Qed.
Print Assumptions C86_paillier_wipe_key.
(* in particular not the public key *)
Theorem C86_wipe_new_key : forall share fresh R np fuel s h e nb s' h' k, m_rsa_new_key share fresh R np fuel (s, h) e nb = ((s', h'), Ret k) -> let h2 := m_rsa_wipe_key h' (fst k) in
  keeps h h2 /\ Forall (fun a => str h2 a = repeat 0 (length (str h' a))) (rsa_priv_strings (fst k)) /\ rsa_pub_of h2 (snd k) = rsa_pub_of h' (snd k).
Proof. exact rsa_key_wiped. Qed.
Print Assumptions C86_wipe_new_key.
Theorem C86_paillier_wipe_new_key : forall share fresh R np fuel s h nb s' h' k, m_pai_new_key share fresh R np fuel (s, h) nb = ((s', h'), Ret k) -> let h2 := m_pai_wipe_key h' (fst k) in
  keeps h h2 /\ Forall (fun a => str h2 a = repeat 0 (length (str h' a))) (pai_priv_strings (fst k)) /\ pai_pub_of h2 (snd k) = pai_pub_of h' (snd k).
Proof. exact pai_key_wiped. Qed.
Print Assumptions C86_paillier_wipe_new_key.
(* what RSA.new_key leaves for the key of 128 bits: two numbers drawn, q-1, p-1, (p-1)(q-1); and the cases of the other theorems *)
Example C86_case : filter (fun c => match c with Num z => negb (z =? 0) | Str _ => false end) (skipn (length toy_heap) toy_h) =
    [Num (2 ^ 63 + 1); Num (toy_q - 1); Num (2 ^ 64 - 1); Num (toy_p - 1); Num ((toy_p - 1) * (toy_q - 1))] /\
  present toy_h (0%nat :: rsa_priv_strings toy_sk) /\ ~ immediate (be (str toy_h (mrk_d toy_sk))) /\ be (str toy_h (mrk_n toy_sk)) >= be (str toy_h (mrk_n toy_sk)) /\
  m_rsa_encrypt never toy_h toy_pk 0 = (toy_ch, Ret toy_c) /\ (exists h' t, m_rsa_decrypt never toy_ch toy_sk toy_c = (h', Ret t)) /\
  m_pai_encrypt never toy_fresh toy_rng 4 (0%nat, toy_ph) toy_ppk 0 = ((1%nat, toy_pch), Ret toy_pc) /\ ~ immediate (be (str toy_ph 0)) /\
  (exists t h', m_pai_decrypt never toy_pch toy_psk toy_pc = (h', Ret t)).
Proof.
  split; [vm_compute; reflexivity|]. split; [repeat constructor; vm_compute; lia|]. split; [vm_compute; intros (_ & H); discriminate H|]. split; [lia|]. split; [vm_compute; reflexivity|]. split; [eexists _, _; vm_compute; reflexivity|].
  split; [exact toy_pc_ok|]. split; [vm_compute; intros (_ & H); discriminate H|]. eexists _, _. vm_compute. reflexivity.
Qed.
