(* The arrays that an output buffer has used.  Same code as BufOutModel.v and the last part of BlockModel.v, with the list of the arrays
   that ensure_capacity has replaced: nothing reads or writes them any more, but they keep their contents until the collector
   reuses them. *)
From Verif Require Import Prelude SpecTransducer BufOutModel BufHistory TransformModel BlockModel.

(* obuf, obeg, oend (cryptokit.ml 321-323), and the arrays that obuf has been before *)
Record bm := BM { m_old : list bytes; m_bo : bo }.
(* all arrays allocated by the buffer *)
Definition bm_arrays (s : bm) : list bytes := obuf (m_bo s) :: m_old s.

Section BufDrop.
Variable fresh : Z -> bytes.

Definition bm_new (n : Z) : bm := BM [] (bo_new fresh n).

(* method ensure_capacity, cryptokit.ml 325-349; [obuf <- newbuf] (345) drops the array *)
Definition ensure_capacity_m (s : bm) (n : Z) : bm * out unit :=
  let b := m_bo s in
  let len := zlen (obuf b) in
  if wrap63 (oend b + n) >? len then
    if wrap63 (oend b - obeg b + n) <? len then
      match blit (obuf b) (obeg b) (obuf b) 0 (oend b - obeg b) with
      | Ret ob => (BM (m_old s) (BO ob 0 (oend b - obeg b)), Ret tt)
      | Raise e => (s, Raise e) | Undef => (s, Undef) | Hang => (s, Hang)
      end
    else
      let need := wrap63 (oend b - obeg b + n) in
      match grow_loop grow_fuel need (wrap63 (2 * len)) with
      | None => (s, Hang)
      | Some newlen0 =>
        let alloc newlen :=
          match blit (obuf b) (obeg b) (fresh newlen) 0 (oend b - obeg b) with
          | Ret newbuf => (BM (obuf b :: m_old s) (BO newbuf 0 (oend b - obeg b)), Ret tt)
          | Raise e => (s, Raise e) | Undef => (s, Undef) | Hang => (s, Hang)
          end in
        if newlen0 >? max_string_length then
          if need <=? max_string_length then alloc max_string_length
          else (s, Raise (Error Output_buffer_overflow))
        else alloc newlen0
      end
  else (s, Ret tt).

(* the other methods work on the current array, cryptokit.ml 351-369 *)
Definition on_cur {A} (s : bm) (r : bo * out A) : bm * out A := (BM (m_old s) (fst r), snd r).
Definition bm_wipe (s : bm) : bm := BM (m_old s) (bo_wipe (m_bo s)).

(* class cipher, cryptokit.ml 770-834: the state of BlockModel.v and the dropped arrays *)
Section Cipher.
Variable C : block_cipher.
Let bs := bc_blocksize C.
Record cm := CM { cm_old : list bytes; cm_cs : cs C }.
Definition set_bm (s : cm) (b : bm) : cm := CM (m_old b) (set_bo C (cm_cs s) (m_bo b)).
Definition get_bm (s : cm) : bm := BM (cm_old s) (c_bo C (cm_cs s)).
Definition set_cs (s : cm) (c : cs C) : cm := CM (cm_old s) c.
Definition cm_arrays (s : cm) : list bytes := bm_arrays (get_bm s).

(* 773-776 *)
Definition cipher_new_m (c0 : bc_st C) : cm := CM [] (cipher_new fresh C c0).

(* 790-792 *)
Definition process_block_m (s : cm) : cm * out unit :=
  let! (s, u) := lift (set_bm s) (ensure_capacity_m (get_bm s) bs) in
  let c := cm_cs s in
  let b := c_bo C c in
  let r := bc_transform C (c_c C c) (c_ibuf C c) 0 (obuf b) (oend b) in
  let s := set_cs s (CS C (c_ibuf C c) (c_used C c) (BO (snd (fst r)) (obeg b) (oend b)) (fst (fst r))) in
  let! (s, u) := (s, snd r) in
  let c := cm_cs s in
  (set_cs s (set_bo C c (BO (obuf (c_bo C c)) (obeg (c_bo C c)) (oend (c_bo C c) + bs))), Ret tt).

(* 781-797 *)
Fixpoint put_loop_m (fuel : nat) (s : cm) (src : bytes) (ofs len : Z) : cm * out unit :=
  match fuel with
  | O => (s, Hang)
  | S f =>
    let c := cm_cs s in
    if len <=? 0 then (s, Ret tt) else
    if wrap63 (c_used C c + len) <=? bs then
      let! (s, u) := lift (set_cs s) (to_ibuf C c (blit src ofs (c_ibuf C c) (c_used C c) len)) in
      (set_cs s (set_used C (cm_cs s) (c_used C (cm_cs s) + len)), Ret tt)
    else
      let n := bs - c_used C c in
      let! (s, u) := lift (set_cs s) (to_ibuf C c (blit src ofs (c_ibuf C c) (c_used C c) n)) in
      let! (s, u) := process_block_m s in
      put_loop_m f (set_cs s (set_used C (cm_cs s) 0)) src (wrap63 (ofs + n)) (wrap63 (len - n))
  end.
Definition cipher_put_substring_m (s : cm) (src : bytes) (ofs len : Z) : cm * out unit :=
  put_loop_m (S (S (S (length src)))) s src ofs len.

(* 802-812 *)
Definition cipher_put_char_m (s : cm) (x : Z) : cm * out unit :=
  let c := cm_cs s in
  if c_used C c <? bs then
    let! (s, u) := lift (set_cs s) (to_ibuf C c (bytes_set (c_ibuf C c) (c_used C c) x)) in
    (set_cs s (set_used C (cm_cs s) (c_used C (cm_cs s) + 1)), Ret tt)
  else
    let! (s, u) := process_block_m s in
    let! (s, u) := lift (set_cs s) (to_ibuf C (cm_cs s) (bytes_set (c_ibuf C (cm_cs s)) 0 x)) in
    (set_cs s (set_used C (cm_cs s) 1), Ret tt).

(* 822-830 *)
Definition cipher_flush_m (s : cm) : cm * out unit :=
  if c_used C (cm_cs s) =? 0 then (s, Ret tt)
  else if c_used C (cm_cs s) =? bs then
    let! (s, u) := process_block_m s in (set_cs s (set_used C (cm_cs s) 0), Ret tt)
  else (s, Raise (Error Wrong_data_length)).

(* 770-834; wipe (817-820) erases the current array, ibuf and the cipher *)
Definition cipher_with_finish_m (fin : cm -> cm * out unit) : transform := {|
  t_st := cm;
  t_put_substring := cipher_put_substring_m;
  t_put_string := fun s str => cipher_put_substring_m s str 0 (zlen str);
  t_put_char := cipher_put_char_m;
  t_put_byte := fun s n => cipher_put_char_m s (n mod 256);
  t_flush := cipher_flush_m;
  t_finish := fin;
  t_available := fun s => bo_available (c_bo C (cm_cs s));
  t_get_string := fun s => lift (set_bm s) (on_cur (get_bm s) (bo_get_string (c_bo C (cm_cs s))));
  t_get_substring := fun s => lift (set_bm s) (on_cur (get_bm s) (bo_get_substring (c_bo C (cm_cs s))));
  t_get_char := fun s => lift (set_bm s) (on_cur (get_bm s) (bo_get_char (c_bo C (cm_cs s))));
  t_get_byte := fun s => lift (set_bm s) (on_cur (get_bm s) (bo_get_char (c_bo C (cm_cs s))));
  t_wipe := fun s =>
    let c := cm_cs s in
    (CM (cm_old s) (CS C (zeros (zlen (c_ibuf C c))) (c_used C c) (m_bo (bm_wipe (get_bm s))) (bc_wipe C (c_c C c))), Ret tt) |}.

Definition cipher_m : transform := cipher_with_finish_m cipher_flush_m.

(* class cipher_padded_encrypt, finish: 844-855 *)
Definition padded_encrypt_finish_m (p : scheme) (s : cm) : cm * out unit :=
  let! (s, u) :=
    if c_used C (cm_cs s) >=? bs then
      let! (s, u) := process_block_m s in (set_cs s (set_used C (cm_cs s) 0), Ret tt)
    else (s, Ret tt) in
  let! (s, u) := lift (set_cs s) (to_ibuf C (cm_cs s) (pad p (c_ibuf C (cm_cs s)) (c_used C (cm_cs s)))) in
  process_block_m s.
Definition cipher_padded_encrypt_m (p : scheme) : transform := cipher_with_finish_m (padded_encrypt_finish_m p).

(* class cipher_padded_decrypt, finish: 864-871 *)
Definition padded_decrypt_finish_m (p : scheme) (s : cm) : cm * out unit :=
  let c := cm_cs s in
  if negb (c_used C c =? bs) then (s, Raise (Error Wrong_data_length)) else
  let r := bc_transform C (c_c C c) (c_ibuf C c) 0 (c_ibuf C c) 0 in
  let s := set_cs s (CS C (snd (fst r)) (c_used C c) (c_bo C c) (fst (fst r))) in
  let! (s, u) := (s, snd r) in
  let! (s, valid) := (s, strip p (c_ibuf C (cm_cs s))) in
  let! (s, u) := lift (set_bm s) (ensure_capacity_m (get_bm s) valid) in
  let b := c_bo C (cm_cs s) in
  let! (s, ob) := (s, blit (c_ibuf C (cm_cs s)) 0 (obuf b) (oend b) valid) in
  (set_cs s (set_bo C (cm_cs s) (BO ob (obeg b) (oend b + valid))), Ret tt).
Definition cipher_padded_decrypt_m (p : scheme) : transform := cipher_with_finish_m (padded_decrypt_finish_m p).

(* the three classes *)
Inductive ckind := Plain | PadEnc (p : scheme) | PadDec (p : scheme).
Definition cipher_kind (k : ckind) : transform :=
  match k with Plain => cipher fresh C | PadEnc p => cipher_padded_encrypt fresh C p | PadDec p => cipher_padded_decrypt fresh C p end.
Definition finish_m (k : ckind) : cm -> cm * out unit :=
  match k with Plain => cipher_flush_m | PadEnc p => padded_encrypt_finish_m p | PadDec p => padded_decrypt_finish_m p end.
Definition cipher_kind_m (k : ckind) : transform := cipher_with_finish_m (finish_m k).
End Cipher.

(* what subclasses do to produce output, see BufHistory.v *)
Definition produce_m (s : bm) (l : bytes) : bm * out unit :=
  let! (s, u) := ensure_capacity_m s (zlen l) in
  on_cur s (match blit l 0 (obuf (m_bo s)) (oend (m_bo s)) (zlen l) with
            | Ret ob => (BO ob (obeg (m_bo s)) (oend (m_bo s) + zlen l), Ret tt)
            | Raise e => (m_bo s, Raise e) | Undef => (m_bo s, Undef) | Hang => (m_bo s, Hang)
            end).
Definition bm_step (s : bm) (o : bop) : bm :=
  match o with
  | Produce l => fst (produce_m s l)
  | Available => s
  | GetStr => fst (on_cur s (bo_get_string (m_bo s)))
  | GetSub => fst (on_cur s (bo_get_substring (m_bo s)))
  | GetChr => fst (on_cur s (bo_get_char (m_bo s)))
  end.
Definition bm_after (s : bm) (ops : list bop) : bm := fold_left bm_step ops s.
End BufDrop.

(* the state after a history, whatever the outcomes *)
Fixpoint after (T : transform) (s : t_st T) (ops : list op) : t_st T :=
  match ops with [] => s | o :: ops => after T (fst (t_step T s o)) ops end.
(* after each call of the history less than L bytes of output are pending, and no call raises Invalid_argument *)
Fixpoint timely (T : transform) (L : Z) (s : t_st T) (ops : list op) : Prop :=
  match ops with
  | [] => True
  | o :: ops =>
      snd (t_step T s o) <> OExn Invalid_argument /\ t_available T (fst (t_step T s o)) < L /\ timely T L (fst (t_step T s o)) ops
  end.
