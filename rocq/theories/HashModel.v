(* Model: hash objects (class type hash), hash_string, hash_channel. *)
From Verif Require Import Prelude SpecTransducer TransformModel.

(* class type hash, cryptokit.ml 230-239.  Methods take and return the state
   of the object. *)
Record hash := Hash {
  h_st : Type;
  h_size : Z;                                        (* hash_size *)
  h_add_substring : h_st -> bytes -> Z -> Z -> h_st * out unit;
  h_add_string : h_st -> bytes -> h_st * out unit;
  h_add_char : h_st -> Z -> h_st * out unit;
  h_add_byte : h_st -> Z -> h_st * out unit;
  h_result : h_st -> h_st * out bytes;
  h_wipe : h_st -> h_st * out unit }.

(* an object: its class and its current state *)
Record hobj := HObj { ho_class : hash; ho_st : h_st ho_class }.

(* The C stub reads len bytes of src from ofs on without checking. *)
Definition c_update {K} (upd : K -> bytes -> out K) (k : K) (src : bytes) (ofs len : Z) : K * out unit :=
  if in_range src ofs len then
    match upd k (sub src ofs len) with
    | Ret k' => (k', Ret tt)
    | Raise e => (k, Raise e) | Undef => (k, Undef) | Hang => (k, Hang)
    end
  else (k, Undef).

(* The common shape of the classes of module Hash: sha1 1076-1094,
   sha224 1098-1116, sha256 1120-1138, sha384 1142-1160, sha512 1164-1182,
   sha3 1194-1214, ripemd160 1220-1238, md5 1242-1260, blake2b 1264-1284,
   blake2s 1289-1309, blake3 1314-1334 of cryptokit.ml.
   add_substring tests the range then calls the C stub; add_string calls it on
   the whole string; add_char c = add_string (String.make 1 c);
   add_byte b = add_char (Char.unsafe_chr b): the byte stored is b mod 256. *)
Definition c_hash (K : Type) (size : Z) (upd : K -> bytes -> out K)
    (fin : K -> K * out bytes) (wipe : K -> K) : hash :=
  let add_string k src := c_update upd k src 0 (zlen src) in
  {| h_st := K; h_size := size;
     h_add_substring := fun k src ofs len =>
       if (ofs <? 0) || (len <? 0) || (ofs >? zlen src - len)
       then (k, Raise Invalid_argument) else c_update upd k src ofs len;
     h_add_string := add_string;
     h_add_char := fun k c => add_string k [c];
     h_add_byte := fun k b => add_string k [b mod 256];
     h_result := fin;
     h_wipe := fun k => (wipe k, Ret tt) |}.

(* hash_string, cryptokit.ml 241-245 *)
Definition hash_string (H : hash) (h : h_st H) (s : bytes) : h_st H * out bytes :=
  let! (h, u) := h_add_string H h s in
  let! (h, r) := h_result H h in
  let! (h, u) := h_wipe H h in
  (h, Ret r).

(* state of hash_channel: the hash, the input channel, ibuf *)
Record hcs (H : hash) := HCS { hc_h : h_st H; hc_ch : channel; hc_ibuf : bytes }.
Arguments HCS {H}. Arguments hc_h {H}. Arguments hc_ch {H}. Arguments hc_ibuf {H}.

Section Channel.
Variable fresh : Z -> bytes.
Variable sched : nat -> Z.
Variable H : hash.

Definition set_h (s : hcs H) (h : h_st H) : hcs H := HCS h (hc_ch s) (hc_ibuf s).

(* hash_to_eof, cryptokit.ml 249-254; fuel as in transf_to_eof *)
Fixpoint hash_to_eof (fuel : nat) (s : hcs H) : hcs H * out unit :=
  match fuel with
  | O => (s, Hang)
  | S f =>
      let '(ch, ib, r) := input sched (hc_ch s) (hc_ibuf s) 256 in
      let s := HCS (hc_h s) ch ib in
      if r >? 0 then
        let! (s, u) := lift (set_h s) (h_add_substring H (hc_h s) (hc_ibuf s) 0 r) in
        hash_to_eof f s
      else (s, Ret tt)
  end.

(* hash_bounded, cryptokit.ml 255-261 *)
Fixpoint hash_bounded (fuel : nat) (s : hcs H) (numleft : Z) : hcs H * out unit :=
  match fuel with
  | O => (s, Hang)
  | S f =>
      if numleft >? 0 then
        let '(ch, ib, r) := input sched (hc_ch s) (hc_ibuf s) (Z.min 256 numleft) in
        let s := HCS (hc_h s) ch ib in
        if r =? 0 then (s, Raise End_of_file) else
        let! (s, u) := lift (set_h s) (h_add_substring H (hc_h s) (hc_ibuf s) 0 r) in
        hash_bounded f s (numleft - r)
      else (s, Ret tt)
  end.

(* hash_channel, cryptokit.ml 247-269 *)
Definition hash_channel (h : h_st H) (len : option Z) (ic : bytes) : hcs H * out bytes :=
  let s := HCS h (Channel ic 0) (fresh 256) in
  let fuel := S (length ic) in
  let! (s, u) := match len with
                 | None => hash_to_eof fuel s
                 | Some l => hash_bounded fuel s l
                 end in
  let s := HCS (hc_h s) (hc_ch s) (zeros (zlen (hc_ibuf s))) in
  let! (s, res) := lift (set_h s) (h_result H (hc_h s)) in
  let! (s, u) := lift (set_h s) (h_wipe H (hc_h s)) in
  (s, Ret res).
End Channel.
