(* Vocabulary for Zlib: a zlib library recording its calls. *)
From Verif Require Import Prelude SpecTransducer TransformModel ZlibModel.

(* what the library promises: it does not consume more than available, nor
   produce more than there is room for *)
Definition zlib_ok {zs} (zlib : zs -> bytes -> Z -> flush_command -> zs * zcode * Z * bytes) : Prop :=
  forall z i room f, 0 <= room -> let '(_, _, used, o) := zlib z i room f in 0 <= used <= zlen i /\ zlen o <= room.

(* one call that did not fail: the bytes consumed, the bytes produced, the
   flush command, and whether the end of the stream was reached *)
Record zcall := ZCall { zc_in : bytes; zc_out : bytes; zc_flush : flush_command; zc_end : bool }.

Definition recorded {zs} (zlib : zs -> bytes -> Z -> flush_command -> zs * zcode * Z * bytes)
    (z : zs * list zcall) (i : bytes) (room : Z) (f : flush_command) : (zs * list zcall) * zcode * Z * bytes :=
  let '(z', code, used, o) := zlib (fst z) i room f in
  ((z', snd z ++ match code with
                 | ZFail => []
                 | _ => [ZCall (firstn (Z.to_nat used) i) o f (match code with ZEnd => true | _ => false end)]
                 end), code, used, o).
Definition recorded_end {zs} (zend : zs -> zs * bool) (z : zs * list zcall) : (zs * list zcall) * bool :=
  let '(z', ok) := zend (fst z) in ((z', snd z), ok).

(* everything consumed, everything produced *)
Definition taken (l : list zcall) : bytes := flat_map zc_in l.
Definition made (l : list zcall) : bytes := flat_map zc_out l.

(* a history of calls with the final state *)
Fixpoint t_exec (T : transform) (s : t_st T) (ops : list op) : t_st T * list obs :=
  match ops with
  | [] => (s, [])
  | o :: ops' =>
      let '(s', ob) := t_step T s o in
      if ends o ob then (s', [ob]) else let '(s2, l) := t_exec T s' ops' in (s2, ob :: l)
  end.

(* no exception, except End_of_file from get_char and get_byte *)
Fixpoint all_done (ops : list op) (l : list obs) : Prop :=
  match ops, l with
  | [], [] => True
  | o :: ops', ob :: l' => ends o ob = false /\ all_done ops' l'
  | _, _ => False
  end.

(* the output returned to the caller *)
Fixpoint returned (ops : list op) (l : list obs) : bytes :=
  match ops, l with
  | (GetString | GetSubstring) :: ops', OBytes x :: l' => x ++ returned ops' l'
  | (GetChar | GetByte) :: ops', OInt c :: l' => c :: returned ops' l'
  | _ :: ops', _ :: l' => returned ops' l'
  | _, _ => []
  end.

(* the input of a history; [uncompress] hands over one more byte, a space, when it finishes, that
   the library may take or not *)
Inductive given (extra : bytes) : list op -> bytes -> Prop :=
  | given_nil : given extra [] []
  | given_finish ops l x : (x = [] \/ x = extra) -> given extra ops l -> given extra (Finish :: ops) (x ++ l)
  | given_op o ops l : o <> Finish -> given extra ops l -> given extra (o :: ops) (op_data o ++ l).

(* sizes below 4 gigabytes *)
Definition op_small (o : op) : Prop := zlen (op_data o) < 2 ^ 32.

(* the calls recorded in an object *)
Definition calls {zs} (s : zobj (zs * list zcall)) : list zcall := snd (fst s).
(* the output considered: below one gigabyte, so that the output buffer has less than 4 *)
Definition zlimit : Z := 2 ^ 30 - 256.

(* the last call reached the end of the stream; all with command f *)
Definition ended (f : flush_command) (l : list zcall) : Prop := Forall (fun c => zc_flush c = f) l /\ exists l' c, l = l' ++ [c] /\ zc_end c = true.

(* every call consumes something or decreases a measure of the work left in the library, or
   fails, or reaches the end with one of the commands [stop] *)
Definition progress {zs} (zlib : zs -> bytes -> Z -> flush_command -> zs * zcode * Z * bytes) (stop : flush_command) (mu : zs -> nat) : Prop :=
  forall z i room f, 256 <= room -> let '(z', code, used, _) := zlib z i room f in
    code = ZFail \/ (code = ZEnd /\ f = stop) \/ 0 < used \/ (mu z' < mu z)%nat.
