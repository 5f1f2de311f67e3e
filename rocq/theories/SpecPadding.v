(* Specification of the two padding schemes.  Independent of the model. *)
From Verif Require Import Prelude.

(* Padding.length: a block with u data bytes is completed by n = bs - u bytes
   of value n; a byte cannot hold n >= 256. *)
Definition length_pad (bs u : Z) : option bytes :=
  if (0 <? bs - u) && (bs - u <? 256) then Some (repeat (bs - u) (Z.to_nat (bs - u))) else None.

(* [blk] is [data] followed by n bytes of value n *)
Definition length_padded (blk data : bytes) : Prop :=
  exists n : nat, (0 < n)%nat /\ blk = data ++ repeat (Z.of_nat n) n.

(* Padding._8000: a byte 0x80 and as many zero bytes as needed *)
Definition zeros_pad (bs u : Z) : option bytes := Some (128 :: zeros (bs - u - 1)).

Definition zeros_padded (blk data : bytes) : Prop :=
  exists n : nat, blk = data ++ 128 :: repeat 0 n.

(* executable versions *)
Definition length_unpad (blk : bytes) : option Z :=
  let n := last blk 0 in
  if (0 <? n) && (n <=? zlen blk) &&
     forallb (fun x => x =? n) (sub blk (zlen blk - n) n)
  then Some (zlen blk - n) else None.

(* data length of a block given in reverse *)
Fixpoint zeros_unpad_rev (r : bytes) : option Z :=
  match r with
  | [] => None
  | c :: r' => if c =? 128 then Some (zlen r')
               else if c =? 0 then zeros_unpad_rev r' else None
  end.
Definition zeros_unpad (blk : bytes) : option Z := zeros_unpad_rev (rev blk).
