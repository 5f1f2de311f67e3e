(* Cases for the memory of the public-key functions: keys of 128 bits, a big integer library that shares nothing, or all it can. *)
From Coq Require Import Znumtheory.
From Verif Require Import Prelude BytesNum RngModel BnModel PkModel SpecPk PkGen Pk2 Pk3 PkCases Toy BnHeapModel SpecPkMem PkHeap4 PkHeap6.

Definition never (h : heap) (z : Z) (args : list bn) : nat := length args.
Definition always (h : heap) (z : Z) (args : list bn) : nat := match args with a :: _ => if num h a =? z then 0%nat else 1%nat | [] => 0%nat end.
(* two messages, and the numbers 2^80 and 2^70 of the caller *)
Definition toy_heap : heap := [Str [1; 2; 3; 4; 5; 6; 7; 8; 9]; Num (2 ^ 80); Str [0; 0; 7; 7]; Num (2 ^ 70)].
Definition toy_rsa (share : heap -> Z -> list bn -> nat) := m_rsa_new_key share toy_fresh toy_rng toy_nextprime 4 (0%nat, toy_heap) (Some 3) 128.
Definition toy_paillier (share : heap -> Z -> list bn -> nat) := m_pai_new_key share toy_fresh toy_rng toy_nextprime 4 (0%nat, toy_heap) 128.
(* the heaps and the keys when nothing is shared *)
Definition toy_h : heap := Eval vm_compute in snd (fst (toy_rsa never)).
Definition toy_sk : m_rsa_private := Eval vm_compute in match snd (toy_rsa never) with Ret k => fst k | _ => MRsaPriv 0 0 0 0 0 0 0 0 end.
Definition toy_pk : m_rsa_public := Eval vm_compute in match snd (toy_rsa never) with Ret k => snd k | _ => MRsaPub 0 0 0 end.
Definition toy_ph : heap := Eval vm_compute in snd (fst (toy_paillier never)).
Definition toy_psk : m_pai_private := Eval vm_compute in match snd (toy_paillier never) with Ret k => fst k | _ => MPaiPriv 0 0 0 0 0 0 0 end.
Definition toy_ppk : m_pai_public := Eval vm_compute in match snd (toy_paillier never) with Ret k => snd k | _ => MPaiPub 0 0 0 0 end.
Lemma some_e : forall y, Some 3 = Some y -> 0 < y. Proof. intros y E. injection E as <-. lia. Qed.
Lemma toy_rsa_ok : toy_rsa never = ((2%nat, toy_h), Ret (toy_sk, toy_pk)).
Proof. vm_compute. reflexivity. Qed.
Lemma toy_rsa_valid : rsa_pair (rsa_priv_of toy_h toy_sk) (rsa_pub_of toy_h toy_pk) /\ rsa_crt (rsa_priv_of toy_h toy_sk) /\ present toy_h (rsa_priv_strings toy_sk ++ rsa_pub_strings toy_pk).
Proof. exact (rsa_key_valid never toy_fresh toy_rng toy_nextprime 4 0%nat toy_heap (Some 3) 128 _ _ _ toy_fresh_ok toy_rng_bytes toy_nextprime_ok some_e toy_rsa_ok). Qed.
Lemma toy_pai_mem : toy_paillier never = ((2%nat, toy_ph), Ret (toy_psk, toy_ppk)).
Proof. vm_compute. reflexivity. Qed.
Lemma toy_pai_valid : pai_key (pai_priv_of toy_ph toy_psk) (pai_pub_of toy_ph toy_ppk) /\ present toy_ph (pai_priv_strings toy_psk ++ pai_pub_strings toy_ppk).
Proof. exact (pai_key_valid never toy_fresh toy_rng toy_nextprime 4 0%nat toy_heap 128 _ _ _ toy_fresh_ok toy_rng_bytes toy_nextprime_ok ltac:(vm_compute; discriminate) toy_pai_mem). Qed.
(* ciphertexts of the first message *)
Definition toy_ch : heap := Eval vm_compute in fst (m_rsa_encrypt never toy_h toy_pk 0).
Definition toy_c : nat := Eval vm_compute in match snd (m_rsa_encrypt never toy_h toy_pk 0) with Ret c => c | _ => 0%nat end.
Definition toy_pch : heap := Eval vm_compute in snd (fst (m_pai_encrypt never toy_fresh toy_rng 4 (0%nat, toy_ph) toy_ppk 0)).
Definition toy_pc : nat := 72.
Lemma toy_pc_ok : m_pai_encrypt never toy_fresh toy_rng 4 (0%nat, toy_ph) toy_ppk 0 = ((1%nat, toy_pch), Ret toy_pc). Proof. vm_compute. reflexivity. Qed.
Lemma priv_crypted : rsa_priv_of toy_ch toy_sk = rsa_priv_of toy_h toy_sk. Proof. vm_compute. reflexivity. Qed.
Lemma toy_present : present toy_ch (toy_c :: rsa_priv_strings toy_sk). Proof. repeat constructor; vm_compute; lia. Qed.
Lemma crt_not_erased : exists share h key msg h' t i z, rsa_crt (rsa_priv_of h key) /\ aligned (mrk_size key) /\ present h (msg :: rsa_priv_strings key) /\
  m_rsa_decrypt_CRT share h key msg = (h', Ret t) /\ (length h <= i < length h')%nat /\ i <> t /\ cell_at h' i = Num z /\ Z.gcd z (be (str h (mrk_n key))) = be (str h (mrk_q key)).
Proof.
  exists never, toy_ch, toy_sk, toy_c, (fst (m_rsa_decrypt_CRT never toy_ch toy_sk toy_c)), 64%nat, 61%nat, (2 * toy_q).
  split; [rewrite priv_crypted; apply toy_rsa_valid|]. split; [exists 2; reflexivity|]. split; [exact toy_present|]. split; [vm_compute; reflexivity|]. split; [vm_compute; lia|]. split; [discriminate|]. split; vm_compute; reflexivity.
Qed.
Lemma pai_priv_crypted : pai_priv_of toy_pch toy_psk = pai_priv_of toy_ph toy_psk. Proof. vm_compute. reflexivity. Qed.
Lemma pai_pub_crypted : pai_pub_of toy_pch toy_ppk = pai_pub_of toy_ph toy_ppk. Proof. vm_compute. reflexivity. Qed.
Lemma toy_ppresent : present toy_pch (toy_pc :: pai_priv_strings toy_psk). Proof. repeat constructor; vm_compute; lia. Qed.
Lemma paillier_not_erased : exists share h key pub c h' t i z, pai_key (pai_priv_of h key) (pai_pub_of h pub) /\ present h (c :: pai_priv_strings key) /\
  m_pai_decrypt share h key c = (h', Ret t) /\ (length h <= i < length h')%nat /\ i <> t /\ cell_at h' i = Num z /\ z mod be (str h (mpp_n pub)) = be (str h' t).
Proof.
  exists never, toy_pch, toy_psk, toy_ppk, toy_pc, (fst (m_pai_decrypt never toy_pch toy_psk toy_pc)), 89%nat, 86%nat, (num (fst (m_pai_decrypt never toy_pch toy_psk toy_pc)) (Blk 86)).
  split; [rewrite pai_priv_crypted, pai_pub_crypted; apply toy_pai_valid|]. split; [exact toy_ppresent|]. split; [vm_compute; reflexivity|]. split; [vm_compute; lia|]. split; [discriminate|]. split; vm_compute; reflexivity.
Qed.
(* key generation leaves p-1 and q-1 *)
Lemma new_key_not_erased : exists share fresh R np fuel s h e nb s' h' k i j, fresh_ok fresh /\ rng_bytes R /\ (forall n, 0 <= n -> prime (np n)) /\ (forall x, e = Some x -> 0 < x) /\
  m_rsa_new_key share fresh R np fuel (s, h) e nb = ((s', h'), Ret k) /\ (length h <= i < length h')%nat /\ (length h <= j < length h')%nat /\
  cell_at h' i = Num (be (str h' (mrk_p (fst k))) - 1) /\ cell_at h' j = Num (be (str h' (mrk_q (fst k))) - 1).
Proof.
  exists never, toy_fresh, toy_rng, toy_nextprime, 4%nat, 0%nat, toy_heap, (Some 3), 128, 2%nat, toy_h, (toy_sk, toy_pk), 11%nat, 7%nat.
  split; [exact toy_fresh_ok|]. split; [exact toy_rng_bytes|]. split; [exact toy_nextprime_ok|]. split; [exact some_e|]. split; [exact toy_rsa_ok|]. split; [vm_compute; lia|]. split; [vm_compute; lia|]. split; vm_compute; reflexivity.
Qed.
