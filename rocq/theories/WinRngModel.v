(* Model: the system generator on Windows, stubs-rng.c 53-93 with class system_rng, cryptokit.ml 1826-1847.  On systems that have
   neither getentropy nor this (stubs-rng.c 95-112) there is no such generator: SourcesModel.v. *)
From Verif Require Import Prelude SpecTransducer RngModel SpecWinRng.

(* The Windows functions.  A provider is known by a handle; the system gives the handles of its choice, and may give one again once it is
   released.
   [avail k]: whether the k-th CryptAcquireContext succeeds; [pick k l]: the handle it then gives, l being the handles in use;
   [gen k n]: what the k-th CryptGenRandom on a handle in use does when its second argument, of type DWORD, is n: TRUE or FALSE, and the
   bytes written at the start of the area.  With a handle not in use CryptGenRandom returns FALSE and CryptReleaseContext does nothing. *)
Section Windows.
Variable avail : nat -> bool.
Variable pick : nat -> list Z -> Z.
Variable gen : nat -> Z -> bool * bytes.
Record world := World { w_requests : nat; w_answers : nat; w_handles : list Z }.
Definition CryptAcquireContext (w : world) : world * option Z :=
  if avail (w_requests w) then
    let h := pick (w_requests w) (w_handles w) in
    (World (S (w_requests w)) (w_answers w) (h :: w_handles w), Some h)
  else (World (S (w_requests w)) (w_answers w) (w_handles w), None).
Definition in_use (w : world) (h : Z) : bool := existsb (Z.eqb h) (w_handles w).
Definition CryptReleaseContext (w : world) (h : Z) : world :=
  World (w_requests w) (w_answers w) (filter (fun x => negb (x =? h)) (w_handles w)).
Definition CryptGenRandom (w : world) (h : Z) (dwLen : Z) (area : bytes) (ofs : Z) : world * bytes * bool :=
  if in_use w h then
    let (ok, b) := gen (w_answers w) dwLen in
    (World (w_requests w) (S (w_answers w)) (w_handles w), splice area ofs b, ok)
  else (w, area, false).

(* caml_system_rng_random_bytes, stubs-rng.c 86-93: Long_val(len) is converted to DWORD, 32 bits without sign *)
Definition win_random_bytes (w : world) (h : Z) (str : bytes) (ofs len : Z) : world * bytes * bool :=
  CryptGenRandom w h (len mod 2 ^ 32) str ofs.
(* class system_rng, cryptokit.ml 1833-1845, with the handle h; the state is that of Windows.  wipe: caml_close_system_rng, 80-84 *)
Definition win_rng (h : Z) : rng := {|
  r_st := world;
  r_bytes := fun w buf ofs len =>
    if bad_range buf ofs len then ((w, buf), Raise Invalid_argument) else
    let r := win_random_bytes w h buf ofs len in
    (fst r, if snd r then Ret tt else Raise (Error Entropy_source_closed));
  r_wipe := fun w => (CryptReleaseContext w h, Ret tt) |}.
(* system_rng (), cryptokit.ml 1846-1847, and caml_get_system_rng, stubs-rng.c 66-78, which raises Not_found *)
Definition win_system_rng (w : world) : world * out Z :=
  match CryptAcquireContext w with (w, Some h) => (w, Ret h) | (w, None) => (w, Raise (Error No_entropy_source)) end.

(* a program; gs: the handles of the generators made, in order *)
Definition win_step (w : world) (gs : list Z) (o : wrop) : world * list Z * (bytes * out unit) :=
  match o with
  | WNew => match win_system_rng w with
            | (w, Ret h) => (w, gs ++ [h], ([], Ret tt))
            | (w, Raise e) => (w, gs, ([], Raise e)) | (w, Undef) => (w, gs, ([], Undef)) | (w, Hang) => (w, gs, ([], Hang))
            end
  | WAsk g buf ofs len =>
    match nth_error gs g with
    | None => (w, gs, (buf, Ret tt))
    | Some h => let r := r_bytes (win_rng h) w buf ofs len in (fst (fst r), gs, (snd (fst r), snd r))
    end
  | WWipe g =>
    match nth_error gs g with
    | None => (w, gs, ([], Ret tt))
    | Some h => let r := r_wipe (win_rng h) w in (fst r, gs, ([], snd r))
    end
  end.
Fixpoint win_run (w : world) (gs : list Z) (ops : list wrop) : list (bytes * out unit) :=
  match ops with
  | [] => []
  | o :: ops => let '(w, gs, r) := win_step w gs o in r :: win_run w gs ops
  end.
End Windows.
