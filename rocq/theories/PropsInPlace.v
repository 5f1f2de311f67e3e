(* C88: block ciphers and modes when source and destination are the same array. *)
From Verif Require Import Prelude PreludeFacts SpecBlock SpecDes SpecModes BlockModel CipherModel CipherSpec CipherApi DesModel AesModel AesniModel BlowfishModel SpecInPlace InPlaceModel
  DesApi InPlace2 Toy.

(* C88.  A block cipher, under any number of chaining modes; l lists the modes and the arrays of their private fields.  A sequence of
   calls of transform, on any arrays of the caller, which may be the same, returns what it returns when each source is copied before
   the call (run_copy, where the functions work on lists), and leaves the same in the arrays *)
Theorem C88_calls : forall fresh l o c m cs, base o c -> NoDup (private l) ->
  Forall (fun k => ~ In (tc_src k) (private l) /\ ~ In (tc_dst k) (private l)) cs ->
  same_out (fun c' x =>
    fst (run_m (mo_c (fst x)) (mo_st (fst x)) (snd x) cs) = fst (run_copy (b_bc c') (b_st c') m cs) /\
    forall z, ~ In z (private l) -> snd (run_m (mo_c (fst x)) (mo_st (fst x)) (snd x) cs) z = snd (run_copy (b_bc c') (b_st c') m cs) z)
  (build fresh l c) (build_m fresh l o m).
Proof. exact calls_ok. Qed.
Print Assumptions C88_calls.

(* the ciphers of the library are such objects *)
Theorem C88_library : forall fresh, (forall n, 0 <= n -> zlen (fresh n) = n) ->
  forall nb, In nb [new_aes fresh; new_aesni fresh; new_blowfish; new_des; new_triple_des] ->
  forall d key c, bytes_ok key -> nb d key = Ret c -> exists o, base o c.
Proof. exact lib_base. Qed.
Print Assumptions C88_library.

(* n blocks of an array processed one after the other into the same array, in place (dd = so) or towards its start or
   without overlap: the blocks written are those of SP 800-38A for the blocks as they were, and nothing else changes *)
Theorem C88_in_place : forall fresh, (forall n, 0 <= n -> zlen (fresh n) = n) ->
  forall nb key bs E D md d iv c o m riv rtmp a so dd n, block_family nb key bs E D -> mode_ok bs md -> iv_ok bs md iv ->
  nb (normalize_dir (Some md) d) key = Ret c -> base o c -> riv <> rtmp -> a <> riv -> a <> rtmp ->
  let b := mode_bs bs md in
  0 <= so -> 0 <= dd -> so + Z.of_nat n * b <= zlen (m a) -> dd + Z.of_nat n * b <= zlen (m a) -> bytes_ok (m a) ->
  dd <= so \/ so + Z.of_nat n * b <= dd -> within_limit bs md (Z.of_nat n) ->
  exists o' m' Y, chain_m fresh md d iv o m riv rtmp = Ret (o', m') /\
    mode_spec bs (mode_fun E D md d) md d (iv_val bs iv) (blocks_at (m a) so b n) Y /\
    fst (run_m (mo_c o') (mo_st o') m' (sweep a so dd b n)) = repeat (Ret tt) n /\
    forall z, z <> riv -> z <> rtmp -> snd (run_m (mo_c o') (mo_st o') m' (sweep a so dd b n)) z = upd m a (splice (m a) dd (concat Y)) z.
Proof. exact place_ok. Qed.
Print Assumptions C88_in_place.

(* encryption in place, then decryption in place with another object, gives the array back *)
Theorem C88_inverse : forall fresh, (forall n, 0 <= n -> zlen (fresh n) = n) ->
  forall nb key bs E D md iv ce cd oe od m r1 r2 r3 r4 a so n, block_family nb key bs E D -> mode_ok bs md -> iv_ok bs md iv ->
  nb (normalize_dir (Some md) Encrypt) key = Ret ce -> base oe ce -> nb (normalize_dir (Some md) Decrypt) key = Ret cd -> base od cd ->
  NoDup [r1; r2; r3; r4; a] ->
  let b := mode_bs bs md in
  0 <= so -> so + Z.of_nat n * b <= zlen (m a) -> bytes_ok (m a) -> within_limit bs md (Z.of_nat n) ->
  exists oe' m1 od' m2, chain_m fresh md Encrypt iv oe m r1 r2 = Ret (oe', m1) /\
    let m1' := snd (run_m (mo_c oe') (mo_st oe') m1 (sweep a so so b n)) in
    chain_m fresh md Decrypt iv od m1' r3 r4 = Ret (od', m2) /\
    snd (run_m (mo_c od') (mo_st od') m2 (sweep a so so b n)) a = m a.
Proof. exact place_inverse. Qed.
Print Assumptions C88_inverse.

(* the hypotheses of the two theorems hold for DES in CBC mode, on an array of 20 bytes *)
Example C88_hypotheses : forall d, let key := [19; 52; 87; 121; 155; 188; 223; 241] in
  block_family new_des key 8 (des_E key) (des_D key) /\ mode_ok 8 CBC /\ iv_ok 8 CBC None /\ within_limit 8 CBC 2 /\
  exists c o, new_des (normalize_dir (Some CBC) d) key = Ret c /\ base o c.
Proof.
  intros d key. assert (Hk : bytes_ok key) by (unfold key, bytes_ok; repeat (apply Forall_cons; [unfold byte_ok; lia|]); apply Forall_nil). assert (F := des_family key eq_refl Hk).
  split; [exact F|]. split; [exact I|]. split; [exact I|]. split; [exact I|].
  destruct (fam_new _ _ _ _ _ F (normalize_dir (Some CBC) d)) as (c & _ & Hc & _).
  destruct (lib_base zeros (fun n H => zlen_zeros n H) new_des ltac:(simpl; tauto) _ key c Hk Hc) as (o & Ho).
  exists c, o. split; assumption.
Qed.

Definition ip_key : bytes := [17; 34; 51; 68].
Definition ip_mem : mem := fun r => if Nat.eqb r 5 then map Z.of_nat (seq 1 20) else [].
(* the hypotheses hold for a cipher on 4 bytes whose results always have 4 bytes *)
Definition ip_prim (d : dir) (k b : bytes) : out bytes := Ret (map (nthZ (match d with Encrypt => toy_E k b | Decrypt => toy_D k b end)) [0; 1; 2; 3]).
Example C88_base_case : forall d, base (MObj (raw_m bytes 4 (ip_prim d)) ip_key) (BObj (raw_cipher bytes 4 (ip_prim d) (fun k => k)) ip_key).
Proof. intros d. apply Base_raw; [lia|]. intros b r H. injection H as <-. reflexivity. Qed.
(* CBC in place, and from offset 4 to offset 2 *)
Example C88_case :
  let o := MObj (raw_m bytes 4 (ip_prim Encrypt)) ip_key in
  match chain_m zeros CBC Encrypt None o ip_mem 0 1 with
  | Ret (o', m') =>
      let x := run_m (mo_c o') (mo_st o') m' (sweep 5 0 0 4 3) in let y := run_m (mo_c o') (mo_st o') m' (sweep 5 4 2 4 3) in
      fst x = [Ret tt; Ret tt; Ret tt] /\ sub (snd x 5%nat) 0 12 = [21; 33; 49; 69; 92; 20; 20; 84; 73; 61; 45; 17] /\ sub (snd x 5%nat) 12 8 = [13; 14; 15; 16; 17; 18; 19; 20] /\
      snd y 5%nat = [1; 2; 25; 37; 53; 65; 92; 28; 28; 84; 85; 49; 33; 21; 15; 16; 17; 18; 19; 20]
  | _ => False
  end.
Proof. vm_compute. repeat split. Qed.

(* moved towards the end of the array by less than its length, the blocks not yet read are overwritten by the first calls: the
   hypothesis on dd is needed in C88_in_place *)
Theorem C88_moved_up : exists m, let x := run_m (raw_m bytes 4 (ip_prim Encrypt)) ip_key m (sweep 5 0 4 4 2) in
  fst x = [Ret tt; Ret tt] /\ sub (snd x 5%nat) 4 4 = toy_E ip_key (sub (m 5%nat) 0 4) /\ sub (snd x 5%nat) 8 4 <> toy_E ip_key (sub (m 5%nat) 4 4).
Proof. exists ip_mem. vm_compute. split; [reflexivity|]. split; [reflexivity|discriminate]. Qed.
Print Assumptions C88_moved_up.
