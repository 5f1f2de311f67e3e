(* C59-C62: encodings.  [whole o msg res]: the object o, on the message msg
   given in any splitting (any put methods, any fetches of available output in
   between) and then finished, or through transform_string, gives res. *)
From Verif Require Import Prelude SpecTransducer TransformModel CipherModel CipherSpec CipherApi EncModel SpecEnc EncLawful EncTotal EncApi EncFacts Toy.

(* C59 *)
Theorem C59_base64_round_trip : forall fresh, (forall n, 0 <= n -> zlen (fresh n) = n) ->
  forall (ml pad : bool) msg, bytes_ok msg -> 2 * zlen msg + 24 <= max_string_length ->
  exists t, whole (base64_encode_obj fresh ml pad) msg (Ret t) /\
    t = (if ml then b64_multiline msg else b64_text pad msg) /\
    whole (base64_decode_obj fresh) t (Ret msg).
Proof. exact base64_round_trip. Qed.
Print Assumptions C59_base64_round_trip.

(* "Zm9vYmE=" is the RFC 4648 test vector for "fooba" *)
Example C59_case :
  run_string (base64_encode_obj toy_fresh false true) [102; 111; 111; 98; 97] = Ret [90; 109; 57; 118; 89; 109; 69; 61] /\
  run_string (base64_decode_obj toy_fresh) [90; 109; 57; 118; 89; 109; 69; 61] = Ret [102; 111; 111; 98; 97].
Proof. vm_compute. split; reflexivity. Qed.

(* C60.  The exact set of texts accepted, and what they decode to.
   [b64_decoded]: base 64 digits and blanks up to the first '=', then only
   blanks and '='; a lone last digit is refused. *)
Theorem C60_base64_decode_partial : forall fresh, (forall n, 0 <= n -> zlen (fresh n) = n) ->
  forall msg, bytes_ok msg -> zlen msg + 6 <= max_string_length ->
  whole (base64_decode_obj fresh) msg (match b64_decoded msg with Some r => Ret r | None => Raise (Error Bad_encoding) end).
Proof. exact base64_decode_whole. Qed.
Print Assumptions C60_base64_decode_partial.

(* Every text of RFC 4648, with blanks anywhere, is accepted *)
Theorem C60_wellformed_accepted : forall pad msg t, bytes_ok msg -> no_blank t = b64_text pad msg ->
  b64_decoded t = Some msg.
Proof. exact b64_decoded_blanks. Qed.
Print Assumptions C60_wellformed_accepted.

(* Texts that are not base 64 are accepted too: too much padding, too
   little padding, padding alone, bits that do not belong to any byte. *)
Theorem C60_illformed_accepted_refuted : exists ts, length ts = 4%nat /\ forall t, In t ts ->
  (exists r, run_string (base64_decode_obj toy_fresh) t = Ret r) /\
  ~ exists pad msg, bytes_ok msg /\ b64_text pad msg = no_blank t.
Proof. exact b64_illformed. Qed.
Print Assumptions C60_illformed_accepted_refuted.

Example C60_case :
  run_string (base64_decode_obj toy_fresh) [90; 32; 109; 10; 57; 118] = Ret [102; 111; 111] /\
  run_string (base64_decode_obj toy_fresh) [90; 109; 57; 118; 89] = Raise (Error Bad_encoding) /\
  run_string (base64_decode_obj toy_fresh) [90; 109; 57; 61; 118] = Raise (Error Bad_encoding) /\
  run_string (base64_decode_obj toy_fresh) [90; 109; 46; 57; 118] = Raise (Error Bad_encoding).
Proof. vm_compute. repeat split; reflexivity. Qed.

(* C61.  Lines are not 76 characters long, and the last one is not always
   terminated. *)
Theorem C61_line_length_refuted : exists msg l1 l2,
  run_string (base64_encode_obj toy_fresh true true) msg = Ret (l1 ++ [10] ++ l2) /\ ~ In 10 l1 /\ zlen l1 <> 76 /\ 0 < zlen l2.
Proof. exact multiline_not_76. Qed.
Print Assumptions C61_line_length_refuted.
Theorem C61_unterminated_refuted : exists msg,
  run_string (base64_encode_obj toy_fresh true true) msg = Ret [81; 81; 61; 61].
Proof. exists [65]. vm_compute. reflexivity. Qed.
Print Assumptions C61_unterminated_refuted.
(* What holds: the text is the padded RFC 4648 text cut into lines of at most
   72 characters, all but the last one exactly 72 characters and terminated *)
Theorem C61_layout_partial : forall fresh, (forall n, 0 <= n -> zlen (fresh n) = n) ->
  forall msg, bytes_ok msg -> 2 * zlen msg + 18 <= max_string_length ->
  exists lines last fin, whole (base64_encode_obj fresh true true) msg (Ret (concat (map (fun l => l ++ [10]) lines) ++ last ++ fin)) /\
    concat lines ++ last = b64_text true msg /\
    Forall (fun l => zlen l = 72) lines /\ zlen last <= 72 /\ (fin = [] \/ fin = [10]) /\
    Forall (fun c => c <> 10) (concat lines ++ last) /\
    (fin = [] <-> zlen msg mod 54 < 3).
Proof. exact multiline_layout. Qed.
Print Assumptions C61_layout_partial.

(* C62 *)
Theorem C62_hexa_round_trip : forall fresh, (forall n, 0 <= n -> zlen (fresh n) = n) ->
  forall msg, bytes_ok msg -> 2 * zlen msg + 2 <= max_string_length ->
  exists t, whole (hexa_encode_obj fresh) msg (Ret t) /\ t = hex_text msg /\
    whole (hexa_decode_obj fresh) t (Ret msg).
Proof. exact hexa_round_trip. Qed.
Print Assumptions C62_hexa_round_trip.
Theorem C62_hexa_decode : forall fresh, (forall n, 0 <= n -> zlen (fresh n) = n) ->
  forall msg, bytes_ok msg -> zlen msg + 2 <= max_string_length ->
  whole (hexa_decode_obj fresh) msg (match hex_decoded msg with Some r => Ret r | None => Raise (Error Bad_encoding) end).
Proof. exact hexa_decode_whole. Qed.
Print Assumptions C62_hexa_decode.
(* an independent reading of [hex_decoded]: accepted iff only blanks and hex
   digits, an even number of digits *)
Theorem C62_accepts_iff : forall t,
  (exists r, hex_decoded t = Some r) <->
  Forall (fun c => blank c = true \/ 48 <= c <= 57 \/ 65 <= c <= 70 \/ 97 <= c <= 102) t /\
  zlen (no_blank t) mod 2 = 0.
Proof. exact hex_accepts_iff. Qed.
Print Assumptions C62_accepts_iff.
Example C62_case :
  run_string (hexa_encode_obj toy_fresh) [0; 171; 255] = Ret [48; 48; 97; 98; 102; 102] /\
  run_string (hexa_decode_obj toy_fresh) [48; 32; 48; 65; 98; 10; 102; 70] = Ret [0; 171; 255] /\
  run_string (hexa_decode_obj toy_fresh) [48; 48; 65] = Raise (Error Bad_encoding) /\
  run_string (hexa_decode_obj toy_fresh) [48; 103] = Raise (Error Bad_encoding).
Proof. vm_compute. repeat split; reflexivity. Qed.
