(* Proofs: hash_size of MD5 and HMAC-MD5. *)
From Verif Require Import Prelude PreludeFacts HashModel HashSpec Md5Model Md5 SpecMac MacModel HashLib.

Lemma md5_size rt D key : runtime_computes rt D -> (forall m, zlen (D m) = 16 /\ bytes_ok (D m)) -> bytes_ok key -> zlen key < 2 ^ 32 ->
  exists h, hmac_of (md5_obj rt) 64 key = Ret h /\
  forall o, o = md5_obj rt \/ o = h -> forall ops r, Forall hop_valid ops -> 64 + zlen (added ops) < 2 ^ 32 ->
  snd (h_result (ho_class o) (fst (h_run (ho_class o) (ho_st o) ops))) = Ret r -> zlen r = h_size (ho_class o) /\ zlen r = 16.
Proof.
  intros HD Hd Hk Hl. destruct (hmac_md5_ok rt D key HD Hd Hk Hl) as (h & Eh & C). exists h. split; [exact Eh|].
  assert (h_size (ho_class h) = 16) as S.
  { unfold hmac_of, hmac_new in Eh. destruct (hmac_pad (ho_class (md5_obj rt)) (ho_st (md5_obj rt)) 64 key 54) as [p| | |]; cbn [obind] in Eh; try discriminate Eh.
    destruct (snd (h_add_substring (ho_class (md5_obj rt)) (ho_st (md5_obj rt)) p 0 (zlen p))); cbn [obind] in Eh; try discriminate Eh. injection Eh as <-. reflexivity. }
  intros o Ho ops r Hv Hn Er. destruct Ho as [-> | ->].
  - destruct (md5_computes rt D HD ops Hv) as (_ & E); [lia|]. rewrite (proj1 E) in Er. injection Er as <-. destruct (Hd (added ops)) as (E16 & _). rewrite E16. split; reflexivity.
  - destruct (C ops Hv Hn) as (_ & E). rewrite (proj1 E) in Er. injection Er as <-. unfold hmac_spec. rewrite S. split; apply Hd.
Qed.

