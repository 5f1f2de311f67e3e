(* Keys read cyclically, complements, and the weak and semi-weak keys of DES (NBS special
   publication 500-20; FIPS 74). *)
From Verif Require Import Prelude BlockModel CipherModel.

(* byte number i of the key repeated for ever *)
Definition cycle_at (key : bytes) (i : nat) : Z := nth (i mod length key) key 0.
Definition same_cycle (key key' : bytes) : Prop := forall i, cycle_at key i = cycle_at key' i.

(* every bit inverted *)
Definition inverted (l : bytes) : bytes := map (fun b => 255 - b) l.

(* pairs of keys, each of which undoes the other; the first four are paired with themselves *)
Definition weak_pairs : list (bytes * bytes) := [
  ([0x01;0x01;0x01;0x01;0x01;0x01;0x01;0x01], [0x01;0x01;0x01;0x01;0x01;0x01;0x01;0x01]);
  ([0xFE;0xFE;0xFE;0xFE;0xFE;0xFE;0xFE;0xFE], [0xFE;0xFE;0xFE;0xFE;0xFE;0xFE;0xFE;0xFE]);
  ([0xE0;0xE0;0xE0;0xE0;0xF1;0xF1;0xF1;0xF1], [0xE0;0xE0;0xE0;0xE0;0xF1;0xF1;0xF1;0xF1]);
  ([0x1F;0x1F;0x1F;0x1F;0x0E;0x0E;0x0E;0x0E], [0x1F;0x1F;0x1F;0x1F;0x0E;0x0E;0x0E;0x0E]);
  ([0x01;0xFE;0x01;0xFE;0x01;0xFE;0x01;0xFE], [0xFE;0x01;0xFE;0x01;0xFE;0x01;0xFE;0x01]);
  ([0x1F;0xE0;0x1F;0xE0;0x0E;0xF1;0x0E;0xF1], [0xE0;0x1F;0xE0;0x1F;0xF1;0x0E;0xF1;0x0E]);
  ([0x01;0xE0;0x01;0xE0;0x01;0xF1;0x01;0xF1], [0xE0;0x01;0xE0;0x01;0xF1;0x01;0xF1;0x01]);
  ([0x1F;0xFE;0x1F;0xFE;0x0E;0xFE;0x0E;0xFE], [0xFE;0x1F;0xFE;0x1F;0xFE;0x0E;0xFE;0x0E]);
  ([0x01;0x1F;0x01;0x1F;0x01;0x0E;0x01;0x0E], [0x1F;0x01;0x1F;0x01;0x0E;0x01;0x0E;0x01]);
  ([0xE0;0xFE;0xE0;0xFE;0xF1;0xFE;0xF1;0xFE], [0xFE;0xE0;0xFE;0xE0;0xFE;0xF1;0xFE;0xF1])].

(* two block ciphers that cannot be told apart: the same effect of transform on every
   destination, for every source and offsets, and the objects stay as they are *)
Definition same_block (o o' : bobj) : Prop := bc_blocksize (b_bc o) = bc_blocksize (b_bc o') /\
  forall src so dst p, bytes_ok src ->
    let r := bc_transform (b_bc o) (b_st o) src so dst p in
    let r' := bc_transform (b_bc o') (b_st o') src so dst p in
    fst (fst r) = b_st o /\ fst (fst r') = b_st o' /\ snd (fst r) = snd (fst r') /\ snd r = snd r'.
(* o' does to the inverted bytes what o does to the bytes *)
Definition inverts (o o' : bobj) : Prop := forall src so dst p, bytes_ok src ->
  let r := bc_transform (b_bc o) (b_st o) src so dst p in
  let r' := bc_transform (b_bc o') (b_st o') (inverted src) so (inverted dst) p in
  snd (fst r') = inverted (snd (fst r)) /\ snd r' = snd r.
