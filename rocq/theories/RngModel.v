(* module Random, cryptokit.ml 1813-1951, and stubs-rng.c. *)
From Verif Require Import Prelude BytesNum SpecTransducer TransformModel BlockModel CipherModel StreamModel.

(* class type rng, cryptokit.ml 1815-1819.  random_bytes buf ofs len: the state, the
   buffer afterwards (kept also if an exception is raised) and the outcome. *)
Record rng := Rng {
  r_st : Type;
  r_bytes : r_st -> bytes -> Z -> Z -> (r_st * bytes) * out unit;
  r_wipe : r_st -> r_st * out unit }.
Record robj := RObj { ro_class : rng; ro_st : r_st ro_class }.

(* Random.string rng len, cryptokit.ml 1821-1824 *)
Definition rng_string (fresh : Z -> bytes) (R : rng) (s : r_st R) (len : Z) : r_st R * out bytes :=
  if (len <? 0) || (len >? max_string_length) then (s, Raise Invalid_argument) else
  let r := r_bytes R s (fresh len) 0 len in
  (fst (fst r), olet u := snd r in Ret (snd (fst r))).

(* the test of system_rng, hardware_rng and pseudo_rng, cryptokit.ml 1837, 1870, 1912.
   ofs > Bytes.length buf - len does not overflow since len >= 0. *)
Definition bad_range (buf : bytes) (ofs len : Z) : bool := (ofs <? 0) || (len <? 0) || (ofs >? zlen buf - len).

(* ------------------------------------------------------------------ *)
(* The system generator, cryptokit.ml 1826-1848, with getentropy
   (stubs-rng.c 25-51).  [ge k n]: the result of the k-th call, for n bytes; None
   for -1.  The state is the number of calls made.  The Win32 variant is in
   WinRngModel.v. *)
Section System.
Variable ge : nat -> Z -> option bytes.
(* caml_system_rng_random_bytes, stubs-rng.c 40-51; writes at ofs .. ofs+l-1 of str *)
Fixpoint system_loop (fuel : nat) (k : nat) (str : bytes) (ofs l : Z) : (nat * bytes) * out bool :=
  match fuel with
  | O => ((k, str), Hang)
  | S f =>
    if l >? 0 then
      let n := if l <? 256 then l else 256 in
      match ge k n with
      | None => ((S k, str), Ret false)
      | Some b => system_loop f (S k) (splice str ofs b) (ofs + n) (l - n)
      end
    else ((k, str), Ret true)
  end.
(* class system_rng: get_system_rng and close_system_rng do nothing *)
Definition system_rng : rng := {|
  r_st := nat;
  r_bytes := fun k buf ofs len =>
    if bad_range buf ofs len then ((k, buf), Raise Invalid_argument) else
    let r := system_loop (S (Z.to_nat len)) k buf ofs len in
    (fst r, olet b := snd r in if b then Ret tt else Raise (Error Entropy_source_closed));
  r_wipe := fun k => (k, Ret tt) |}.
End System.

(* ------------------------------------------------------------------ *)
(* class device_rng, cryptokit.ml 1849-1860.  The open file: the bytes the device will
   still deliver and the number of reads so far; [sched k] is how many bytes the k-th read
   would like to deliver, or None for an error.  None as state: the descriptor is closed. *)
Section Device.
Variable sched : nat -> option Z.
(* Unix.read fd buf ofs len *)
Definition unix_read (s : option channel) (buf : bytes) (ofs len : Z) : (option channel * bytes) * out Z :=
  if bad_range buf ofs len then ((s, buf), Raise Invalid_argument) else
  match s with
  | None => ((None, buf), Raise Unix_error)
  | Some ch =>
    match sched (ch_calls ch) with
    | None => ((Some (Channel (ch_data ch) (S (ch_calls ch))), buf), Raise Unix_error)
    | Some want =>
      let n := Z.min (Z.min len (zlen (ch_data ch))) (Z.max 1 want) in
      ((Some (Channel (skipn (Z.to_nat n) (ch_data ch)) (S (ch_calls ch))),
        splice buf ofs (firstn (Z.to_nat n) (ch_data ch))), Ret n)
    end
  end.
Fixpoint device_loop (fuel : nat) (s : option channel * bytes) (ofs len : Z) : (option channel * bytes) * out unit :=
  match fuel with
  | O => (s, Hang)
  | S f =>
    if len >? 0 then
      let! (s, n) := unix_read (fst s) (snd s) ofs len in
      if n =? 0 then (s, Raise (Error Entropy_source_closed)) else
      if n <? len then device_loop f s (ofs + n) (len - n) else (s, Ret tt)
    else (s, Ret tt)
  end.
Definition device_rng : rng := {|
  r_st := option channel;
  r_bytes := fun s buf ofs len => device_loop (S (Z.to_nat len)) (s, buf) ofs len;
  r_wipe := fun s => match s with Some _ => (None, Ret tt) | None => (None, Raise Unix_error) end |}.
End Device.

(* ------------------------------------------------------------------ *)
(* class hardware_rng, cryptokit.ml 1864-1876, with the RDRAND instruction (stubs-rng.c
   117-176).  [rd k]: the result of the k-th execution of the instruction, None if the
   carry flag is clear; the state is the number of executions.  The test at start
   (caml_hardware_rng_available) is in SourcesModel.v. *)
Section Hardware.
Variable rd : nat -> option Z.
(* rdrand64, stubs-rng.c 125-136: 20 attempts *)
Fixpoint rdrand64 (retries : nat) (k : nat) : nat * option Z :=
  match retries with
  | O => (k, None)
  | S r => match rd k with Some n => (S k, Some n) | None => rdrand64 r (S k) end
  end.
(* caml_hardware_rng_random_bytes, stubs-rng.c 159-176; the store of a uint64_t is
   little-endian on x86_64 *)
Fixpoint hardware_loop (fuel : nat) (k : nat) (str : bytes) (dst nbytes : Z) : (nat * bytes) * out bool :=
  match fuel with
  | O => ((k, str), Hang)
  | S f =>
    if nbytes >=? 8 then
      match rdrand64 20 k with
      | (k, None) => ((k, str), Ret false)
      | (k, Some r) => hardware_loop f k (splice str dst (to_le 8 r)) (dst + 8) (nbytes - 8)
      end
    else if nbytes >? 0 then
      match rdrand64 20 k with
      | (k, None) => ((k, str), Ret false)
      | (k, Some rr) => ((k, splice str dst (firstn (Z.to_nat nbytes) (to_le 8 rr))), Ret true)
      end
    else ((k, str), Ret true)
  end.
Definition hardware_rng : rng := {|
  r_st := nat;
  r_bytes := fun k buf ofs len =>
    if bad_range buf ofs len then ((k, buf), Raise Invalid_argument) else
    let r := hardware_loop (S (Z.to_nat len)) k buf ofs len in
    (fst r, olet b := snd r in if b then Ret tt else Raise (Error Entropy_source_closed));
  r_wipe := fun k => (k, Ret tt) |}.
End Hardware.

(* class no_rng, cryptokit.ml 1883-1888 *)
Definition no_rng : rng := {|
  r_st := unit;
  r_bytes := fun s buf ofs len => ((s, buf), Raise (Error No_entropy_source));
  r_wipe := fun s => (s, Ret tt) |}.

(* ------------------------------------------------------------------ *)
(* class pseudo_rng, cryptokit.ml 1901-1917.  The state is the ChaCha20 context and the
   string [seed], which wipe overwrites. *)
Definition pseudo_rng_class : rng := {|
  r_st := chacha * bytes;
  r_bytes := fun s buf ofs len =>
    if (len <? 0) || (ofs <? 0) || (ofs >? zlen buf - len) then ((s, buf), Raise Invalid_argument) else
    let r := chacha20_extract (fst s) (Z.to_nat len) in
    (((fst r, snd s), splice buf ofs (snd r)), Ret tt);
  r_wipe := fun s => ((chacha_wipe (fst s), map (fun _ => 0) (snd s)), Ret tt) |}.
Definition pseudo_rng (fresh : Z -> bytes) (seed : bytes) : out robj :=
  if zlen seed <? 16 then Raise (Error Seed_too_short) else
  let l := zlen seed in
  let key := if l >=? 32 then sub seed 0 32 else if l >? 16 then seed ++ zeros (32 - l) else seed in
  Ret (RObj pseudo_rng_class (chacha20_init fresh key (zeros 8) 0, seed)).

(* ------------------------------------------------------------------ *)
(* class pseudo_rng_aes_ctr, cryptokit.ml 1921-1947, over the block cipher object
   [aes] = new Block.aes_encrypt (String.sub seed 0 16) *)
Record actr (T : Type) := ACtr { ac_c : T; ac_ctr : bytes; ac_obuf : bytes; ac_opos : Z; ac_seed : bytes }.
Arguments ACtr {T}. Arguments ac_c {T}. Arguments ac_ctr {T}. Arguments ac_obuf {T}. Arguments ac_opos {T}. Arguments ac_seed {T}.
Section AesCtr.
Variable A : block_cipher.
Let st := actr (bc_st A).
(* lines 1931-1938 *)
Definition actr_refill (s : st) : st * out unit :=
  if ac_opos s >=? 16 then
    let r := bc_transform A (ac_c s) (ac_ctr s) 0 (ac_obuf s) 0 in
    let! (s, u) := (ACtr (fst (fst r)) (ac_ctr s) (snd (fst r)) (ac_opos s) (ac_seed s), snd r) in
    let! (s, c) := (s, increment_counter (ac_ctr s) 0 15) in
    (ACtr (ac_c s) c (ac_obuf s) 0 (ac_seed s), Ret tt)
  else (s, Ret tt).
Fixpoint actr_loop (fuel : nat) (s : st) (buf : bytes) (ofs len : Z) : (st * bytes) * out unit :=
  match fuel with
  | O => ((s, buf), Hang)
  | S f =>
    if len >? 0 then
      match actr_refill s with
      | (s, Ret _) =>
        let r := Z.min (16 - ac_opos s) len in
        match blit (ac_obuf s) (ac_opos s) buf ofs r with
        | Ret buf =>
          let s := ACtr (ac_c s) (ac_ctr s) (ac_obuf s) (ac_opos s + r) (ac_seed s) in
          if r <? len then actr_loop f s buf (ofs + r) (len - r) else ((s, buf), Ret tt)
        | Raise e => ((s, buf), Raise e) | Undef => ((s, buf), Undef) | Hang => ((s, buf), Hang)
        end
      | (s, Raise e) => ((s, buf), Raise e) | (s, Undef) => ((s, buf), Undef) | (s, Hang) => ((s, buf), Hang)
      end
    else ((s, buf), Ret tt)
  end.
(* wipe: only obuf and the seed *)
Definition actr_class : rng := {|
  r_st := st;
  r_bytes := fun s buf ofs len => actr_loop (S (Z.to_nat len)) s buf ofs len;
  r_wipe := fun s => (ACtr (ac_c s) (ac_ctr s) (map (fun _ => 0) (ac_obuf s)) (ac_opos s) (map (fun _ => 0) (ac_seed s)), Ret tt) |}.
End AesCtr.
Definition pseudo_rng_aes_ctr (fresh : Z -> bytes) (new_block : bytes -> out bobj) (seed : bytes) : out robj :=
  if zlen seed <? 16 then Raise (Error Seed_too_short) else
  olet key := bytes_sub seed 0 16 in
  olet aes := new_block key in
  Ret (RObj (actr_class (b_bc aes)) (ACtr (b_st aes) (zeros 16) (fresh 16) 16 seed)).
