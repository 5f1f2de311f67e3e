(* Results of a SipHash object called again, over the functions of the paper. *)
From Verif Require Import Prelude BytesNum SpecBlock SpecHash SpecMac.

(* the end of SipHash-2-4: the state it leaves and the tag *)
Definition sip_end (long : bool) (v : sip_state) : sip_state * bytes :=
  let '(v0, v1, v2, v3) := v in
  let w := Nat.iter 4 sip_round (v0, v1, Z.lxor v2 (if long then 0xee else 0xff), v3) in
  if long then
    let '(w0, w1, w2, w3) := w in
    let y := Nat.iter 4 sip_round (w0, Z.lxor w1 0xdd, w2, w3) in
    (y, to_le 8 (sip_xor w) ++ to_le 8 (sip_xor y))
  else (w, to_le 8 (sip_xor w)).
(* each call goes on from the state of the call before with the last word, the
   one with the length *)
Definition siphash_results (long : bool) (key m : bytes) (k : nat) : bytes :=
  let ws := le_words 8 (sip_pad m) in
  let start := let '(a, b, c, d) := sip_init key in (a, if long then Z.lxor b 0xee else b, c, d) in
  let again v := sip_end long (sip_compress v (last ws 0)) in
  snd (again (Nat.iter k (fun v => fst (again v)) (fold_left sip_compress (removelast ws) start))).
