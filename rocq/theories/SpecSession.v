(* Objects that are given more data after result.  Independent of the
   cryptokit model up to the record of the methods and the objects. *)
From Verif Require Import Prelude SpecBlock SpecMac HashModel HashSpec CipherSpec MacApi SpecAgain SpecMacAgain.

(* each list of additions is followed by a call of result: what the calls return *)
Fixpoint session (H : hash) (s : h_st H) (l : list (list hop)) : list (out bytes) :=
  match l with
  | [] => []
  | ops :: l => let r := h_result H (fst (h_run H s ops)) in snd r :: session H (fst r) l
  end.
Definition session_of (o : hobj) (l : list (list hop)) : list (out bytes) := session (ho_class o) (ho_st o) l.

(* the digests of everything given so far *)
Fixpoint digests (d : bytes -> bytes) (m : bytes) (l : list bytes) : list bytes :=
  match l with [] => [] | x :: l => d (m ++ x) :: digests d (m ++ x) l end.
(* a sponge goes on from the padded message and its last bytes *)
Fixpoint sponge_digests (d : bytes -> bytes) (again : bytes -> bytes) (m : bytes) (l : list bytes) : list bytes :=
  match l with [] => [] | x :: l => d (m ++ x) :: sponge_digests d again (again (m ++ x)) l end.
(* a block MAC starts again with its value as IV; when it is refused because
   the length is wrong the data stays *)
Fixpoint mac_session (E : bytes -> bytes) (bs : Z) (p : option padding) (v m : bytes) (l : list bytes) : list (out bytes) :=
  match l with
  | [] => []
  | x :: l =>
      match mac_value E bs p v (m ++ x) with
      | Some t => Ret t :: mac_session E bs p t [] l
      | None => Raise (Error Wrong_data_length) :: mac_session E bs p v (m ++ x) l
      end
  end.
Fixpoint cmac_session (E : bytes -> bytes) (v : bytes) (l : list bytes) : list bytes :=
  match l with [] => [] | x :: l => let t := cmac_spec E v x in t :: cmac_session E t l end.

(* a Merkle-Damgard hash goes on from all it has compressed, d; its length
   field counts the data given, m *)
Definition md_fill (B L : Z) (enc : nat -> Z -> bytes) (d m : bytes) : bytes :=
  d ++ [128] ++ zeros ((- (zlen d + 1 + L)) mod B) ++ enc (Z.to_nat L) (8 * zlen m).
Definition md_next (B L : Z) (enc : nat -> Z -> bytes) (d m : bytes) : bytes :=
  let p := md_fill B L enc d m in p ++ firstn (Z.to_nat (zlen d mod B)) (last (chunks B p) []).
Fixpoint md_session (B L : Z) (enc : nat -> Z -> bytes) (iv : list Z) (g : list Z -> bytes -> list Z) (d m : bytes) (l : list bytes) : list (list Z) :=
  match l with
  | [] => []
  | x :: l => fold_left g (chunks B (md_fill B L enc (d ++ x) (m ++ x))) iv :: md_session B L enc iv g (md_next B L enc (d ++ x) (m ++ x)) (m ++ x) l
  end.
