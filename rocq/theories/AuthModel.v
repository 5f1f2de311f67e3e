(* Authenticated transforms: cryptokit.ml 270-315, and the combination of a
   transform and a hash, 374-436. *)
From Verif Require Import Prelude BufOutModel SpecTransducer TransformModel CipherModel HashModel MiscModel.

(* class type authenticated_transform, cryptokit.ml 271-292.  The block sizes
   are left out. *)
Record auth := {
  a_st : Type;
  a_tag_size : Z;
  a_put_substring : a_st -> bytes -> Z -> Z -> a_st * out unit;
  a_put_string : a_st -> bytes -> a_st * out unit;
  a_put_char : a_st -> Z -> a_st * out unit;
  a_put_byte : a_st -> Z -> a_st * out unit;
  a_finish : a_st -> a_st * out bytes;           (* finish_and_get_tag *)
  a_available : a_st -> Z;
  a_get_string : a_st -> a_st * out bytes;
  a_get_substring : a_st -> a_st * out (bytes * Z * Z);
  a_get_char : a_st -> a_st * out Z;
  a_get_byte : a_st -> a_st * out Z;
  a_wipe : a_st -> a_st * out unit }.

Record aobj := AObj { ao_class : auth; ao_st : a_st ao_class }.

(* a class that inherits a transform class and adds tag_size and
   finish_and_get_tag, seen as an authenticated_transform *)
Definition auth_of (T : transform) (size : Z) (fin : t_st T -> t_st T * out bytes) : auth := {|
  a_st := t_st T; a_tag_size := size;
  a_put_substring := t_put_substring T; a_put_string := t_put_string T;
  a_put_char := t_put_char T; a_put_byte := t_put_byte T;
  a_finish := fin; a_available := t_available T;
  a_get_string := t_get_string T; a_get_substring := t_get_substring T;
  a_get_char := t_get_char T; a_get_byte := t_get_byte T; a_wipe := t_wipe T |}.

(* auth_transform_string_detached, cryptokit.ml 294-299 *)
Definition auth_transform_string_detached (a : auth) (s : a_st a) (str : bytes) : a_st a * out (bytes * bytes) :=
  let! (s, u) := a_put_string a s str in
  let! (s, tag) := a_finish a s in
  let! (s, txt) := a_get_string a s in
  let! (s, u) := a_wipe a s in
  (s, Ret (txt, tag)).

(* auth_transform_string, cryptokit.ml 301-303 *)
Definition auth_transform_string (a : auth) (s : a_st a) (str : bytes) : a_st a * out bytes :=
  let! (s, r) := auth_transform_string_detached a s str in
  (s, Ret (fst r ++ snd r)).

(* auth_check_transform_string, cryptokit.ml 305-316 *)
Definition auth_check_transform_string (a : auth) (s : a_st a) (str : bytes) : a_st a * out (option bytes) :=
  let ls := zlen str in
  let lt := a_tag_size a in
  if ls <? lt then (s, Raise (Error Wrong_data_length)) else
  let! (s, body) := (s, bytes_sub str 0 (ls - lt)) in
  let! (s, u) := a_put_string a s body in
  let! (s, tag) := a_finish a s in
  let! (s, given) := (s, bytes_sub str (ls - lt) lt) in
  let! (s, eq) := (s, snd (seq_equal tag given)) in
  let! (s, res) := (if eq : bool then
                      let! (s, txt) := a_get_string a s in (s, Ret (Some txt))
                    else (s, Ret None)) in
  let! (s, u) := a_wipe a s in
  (s, Ret res).

(* The methods other than finish_and_get_tag and wipe as a transform; there
   is no flush and no finish, and wipe is not called through this view. *)
Definition data_view (a : auth) : transform := {|
  t_st := a_st a;
  t_put_substring := a_put_substring a; t_put_string := a_put_string a;
  t_put_char := a_put_char a; t_put_byte := a_put_byte a;
  t_flush := fun s => (s, Undef); t_finish := fun s => (s, Undef);
  t_available := a_available a;
  t_get_string := a_get_string a; t_get_substring := a_get_substring a;
  t_get_char := a_get_char a; t_get_byte := a_get_byte a;
  t_wipe := fun s => (s, Ret tt) |}.

(* A history: data calls, then finish_and_get_tag, then get_string.  The
   result is everything delivered, and the tag; [acc] is what was delivered
   before. *)
Fixpoint auth_history (a : auth) (s : a_st a) (ops : list op) (acc : bytes) : out (bytes * bytes) :=
  match ops with
  | [] =>
      snd (let! (s, tag) := a_finish a s in
           let! (s, txt) := a_get_string a s in
           (s, Ret (acc ++ txt, tag)))
  | o :: ops' =>
      let '(s, ob) := t_step (data_view a) s o in
      if ends o ob then match ob with OExn e => Raise e | OHang => Hang | _ => Undef end
      else auth_history a s ops' (acc ++ got o ob)
  end.

(* for objects *)
Definition auth_detached (o : aobj) (str : bytes) : out (bytes * bytes) :=
  snd (auth_transform_string_detached (ao_class o) (ao_st o) str).
Definition auth_string (o : aobj) (str : bytes) : out bytes :=
  snd (auth_transform_string (ao_class o) (ao_st o) str).
Definition auth_check (o : aobj) (str : bytes) : out (option bytes) :=
  snd (auth_check_transform_string (ao_class o) (ao_st o) str).
Definition auth_run (o : aobj) (ops : list op) : out (bytes * bytes) :=
  auth_history (ao_class o) (ao_st o) ops [].

(* ------------------------------------------------------------------ *)
(* class transform_then_hash, cryptokit.ml 374-404 *)
Section ThenHash.
Variable fresh : Z -> bytes.
Variables (T : transform) (H : hash).
Record ths := TH { th_tr : t_st T; th_h : h_st H; th_bo : bo }.

Definition th_on_tr {A} (s : ths) (r : t_st T * out A) : ths * out A :=
  (TH (fst r) (th_h s) (th_bo s), snd r).
Definition th_on_h {A} (s : ths) (r : h_st H * out A) : ths * out A :=
  (TH (th_tr s) (fst r) (th_bo s), snd r).
Definition th_on_bo {A} (s : ths) (r : bo * out A) : ths * out A :=
  (TH (th_tr s) (th_h s) (fst r), snd r).

(* method private transfer, 378-383 *)
Definition th_transfer (s : ths) : ths * out unit :=
  let! (s, r) := th_on_tr s (t_get_substring T (th_tr s)) in
  let '(buf, ofs, len) := r in
  let! (s, u) := th_on_h s (h_add_substring H (th_h s) buf ofs len) in
  let! (s, u) := th_on_bo s (ensure_capacity fresh (th_bo s) len) in
  let b := th_bo s in
  let! (s, ob) := (s, blit buf ofs (obuf b) (oend b) len) in
  (TH (th_tr s) (th_h s) (BO ob (obeg b) (oend b + len)), Ret tt).

Definition transform_then_hash : auth := {|
  a_st := ths; a_tag_size := h_size H;
  a_put_substring := fun s buf ofs len =>
    let! (s, u) := th_on_tr s (t_put_substring T (th_tr s) buf ofs len) in th_transfer s;
  a_put_string := fun s str =>
    let! (s, u) := th_on_tr s (t_put_string T (th_tr s) str) in th_transfer s;
  a_put_char := fun s c =>
    let! (s, u) := th_on_tr s (t_put_char T (th_tr s) c) in th_transfer s;
  a_put_byte := fun s c =>
    let! (s, u) := th_on_tr s (t_put_byte T (th_tr s) c) in th_transfer s;
  a_finish := fun s =>
    let! (s, u) := th_on_tr s (t_finish T (th_tr s)) in
    let! (s, u) := th_transfer s in
    th_on_h s (h_result H (th_h s));
  a_available := fun s => bo_available (th_bo s);
  a_get_string := fun s => th_on_bo s (bo_get_string (th_bo s));
  a_get_substring := fun s => th_on_bo s (bo_get_substring (th_bo s));
  a_get_char := fun s => th_on_bo s (bo_get_char (th_bo s));
  a_get_byte := fun s => th_on_bo s (bo_get_char (th_bo s));
  a_wipe := fun s =>
    let s := TH (th_tr s) (th_h s) (bo_wipe (th_bo s)) in
    let! (s, u) := th_on_tr s (t_wipe T (th_tr s)) in
    th_on_h s (h_wipe H (th_h s)) |}.
End ThenHash.
Arguments TH {T H}. Arguments th_tr {T H}. Arguments th_h {T H}. Arguments th_bo {T H}.
(* let transform_then_hash tr h, 406 *)
Definition new_transform_then_hash (fresh : Z -> bytes) (tr : tobj) (h : hobj) : aobj :=
  AObj (transform_then_hash fresh (o_tr tr) (ho_class h)) (TH (o_st tr) (ho_st h) (bo_new fresh 256)).

(* class transform_and_hash, cryptokit.ml 408-434 *)
Section AndHash.
Variables (T : transform) (H : hash).
Definition ahs : Type := (t_st T * h_st H)%type.
Definition ah_on_tr {A} (s : ahs) (r : t_st T * out A) : ahs * out A := ((fst r, snd s), snd r).
Definition ah_on_h {A} (s : ahs) (r : h_st H * out A) : ahs * out A := ((fst s, fst r), snd r).
Definition transform_and_hash : auth := {|
  a_st := ahs; a_tag_size := h_size H;
  a_put_substring := fun s buf ofs len =>
    let! (s, u) := ah_on_tr s (t_put_substring T (fst s) buf ofs len) in
    ah_on_h s (h_add_substring H (snd s) buf ofs len);
  a_put_string := fun s str =>
    let! (s, u) := ah_on_tr s (t_put_string T (fst s) str) in
    ah_on_h s (h_add_string H (snd s) str);
  a_put_char := fun s c =>
    let! (s, u) := ah_on_tr s (t_put_char T (fst s) c) in
    ah_on_h s (h_add_char H (snd s) c);
  a_put_byte := fun s c =>
    let! (s, u) := ah_on_tr s (t_put_byte T (fst s) c) in
    ah_on_h s (h_add_byte H (snd s) c);
  a_finish := fun s =>
    let! (s, u) := ah_on_tr s (t_finish T (fst s)) in
    ah_on_h s (h_result H (snd s));
  a_available := fun s => t_available T (fst s);
  a_get_string := fun s => ah_on_tr s (t_get_string T (fst s));
  a_get_substring := fun s => ah_on_tr s (t_get_substring T (fst s));
  a_get_char := fun s => ah_on_tr s (t_get_char T (fst s));
  a_get_byte := fun s => ah_on_tr s (t_get_byte T (fst s));
  a_wipe := fun s =>
    let! (s, u) := ah_on_tr s (t_wipe T (fst s)) in
    ah_on_h s (h_wipe H (snd s)) |}.
End AndHash.
(* let transform_and_hash tr h, 436 *)
Definition new_transform_and_hash (tr : tobj) (h : hobj) : aobj :=
  AObj (transform_and_hash (o_tr tr) (ho_class h)) (o_st tr, ho_st h).
