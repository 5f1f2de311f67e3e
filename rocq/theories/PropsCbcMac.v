(* C99: what the CBC-MACs of module MAC tell and do not tell about messages. *)
From Verif Require Import Prelude SpecBlock SpecModes SpecHash SpecMac HashModel HashSpec BlockModel CipherModel CipherSpec CipherApi MacModel MacApi DesModel SpecCollide MacCollide Toy.

(* [mac_message bs p m]: the blocks of the padded message (C38).  The MAC t of one message is enough to write, from any second message of at
   least a block, a longer message that has the MAC of the second one. *)
Theorem C99_extension : forall fresh nb key bs E D iv p o ops1 ops2 ops3 X t, (forall n, 0 <= n -> zlen (fresh n) = n) -> block_family nb key bs E D -> mac_iv_ok bs iv ->
  (forall q, p = Some q -> pad_supports q bs) -> block_mac fresh (nb Encrypt) iv (option_map scheme_of p) key = Ret o ->
  Forall hop_valid ops1 -> Forall hop_valid ops2 -> Forall hop_valid ops3 ->
  mac_message bs p (added ops1) = Some X -> result_of o ops1 = Ret t -> bs <= zlen (added ops2) ->
  added ops3 = concat X ++ xorb (firstn (Z.to_nat bs) (added ops2)) (xorb t (iv_val bs iv)) ++ skipn (Z.to_nat bs) (added ops2) ->
  result_of o ops3 = result_of o ops2.
Proof. exact extend. Qed.
Print Assumptions C99_extension.
(* Two messages that differ in one block only have different MACs (a: the blocks before). *)
Theorem C99_one_block : forall fresh nb key bs E D iv p o ops1 ops2 a x y b t, (forall n, 0 <= n -> zlen (fresh n) = n) -> block_family nb key bs E D -> mac_iv_ok bs iv ->
  (forall q, p = Some q -> pad_supports q bs) -> block_mac fresh (nb Encrypt) iv (option_map scheme_of p) key = Ret o -> Forall hop_valid ops1 -> Forall hop_valid ops2 ->
  added ops1 = a ++ x ++ b -> added ops2 = a ++ y ++ b -> zlen a mod bs = 0 -> zlen x = zlen y -> zlen x <= bs -> x <> y -> result_of o ops1 = Ret t -> result_of o ops2 <> Ret t.
Proof. exact one_block. Qed.
Print Assumptions C99_one_block.
Theorem C99_one_block_cmac : forall fresh nb key E D iv o ops1 ops2 a x y b, (forall n, 0 <= n -> zlen (fresh n) = n) -> block_family nb key 16 E D -> mac_iv_ok 16 iv ->
  aes_cmac fresh (nb Encrypt) iv key = Ret o -> Forall hop_valid ops1 -> Forall hop_valid ops2 ->
  added ops1 = a ++ x ++ b -> added ops2 = a ++ y ++ b -> zlen a mod 16 = 0 -> zlen x = zlen y -> zlen x <= 16 -> x <> y -> result_of o ops1 <> result_of o ops2.
Proof. exact one_block_cmac. Qed.
Print Assumptions C99_one_block_cmac.
Theorem C99_one_block_final_triple : forall fresh key iv p o ops1 ops2 a x y b t, (forall n, 0 <= n -> zlen (fresh n) = n) -> bytes_ok key -> zlen key = 16 \/ zlen key = 24 -> mac_iv_ok 8 iv ->
  des_final_triple_des fresh new_des iv (option_map scheme_of p) key = Ret o -> Forall hop_valid ops1 -> Forall hop_valid ops2 ->
  added ops1 = a ++ x ++ b -> added ops2 = a ++ y ++ b -> zlen a mod 8 = 0 -> zlen x = zlen y -> zlen x <= 8 -> x <> y -> result_of o ops1 = Ret t -> result_of o ops2 <> Ret t.
Proof. exact one_block_final. Qed.
Print Assumptions C99_one_block_final_triple.
(* Two different messages of the same length with the same MAC: they begin with two strings of whole blocks a and b, whose MACs without
   padding (object ob) are different, and the next blocks x and y differ by exactly the difference of these MACs.  l is the padding. *)
Theorem C99_same_length : forall fresh nb key bs E D iv p o ob ops1 ops2 t, (forall n, 0 <= n -> zlen (fresh n) = n) -> block_family nb key bs E D -> mac_iv_ok bs iv ->
  (forall q, p = Some q -> pad_supports q bs) -> block_mac fresh (nb Encrypt) iv (option_map scheme_of p) key = Ret o -> block_mac fresh (nb Encrypt) iv None key = Ret ob ->
  Forall hop_valid ops1 -> Forall hop_valid ops2 -> zlen (added ops1) = zlen (added ops2) -> added ops1 <> added ops2 -> result_of o ops1 = Ret t -> result_of o ops2 = Ret t ->
  exists a b x y l r, added ops1 ++ l = a ++ x ++ r /\ added ops2 ++ l = b ++ y ++ r /\ zlen a = zlen b /\ zlen a mod bs = 0 /\ zlen x = bs /\ zlen y = bs /\ x <> y /\ zlen l <= bs /\
    exists ta tb, ta <> tb /\ xorb ta tb = xorb x y /\ (forall ops, Forall hop_valid ops -> added ops = a -> result_of ob ops = Ret ta) /\ (forall ops, Forall hop_valid ops -> added ops = b -> result_of ob ops = Ret tb).
Proof. exact same_length. Qed.
Print Assumptions C99_same_length.
(* the message 1 2 3 4 has the MAC t; so has the message 1 2 3 4 followed by that block xored with t; two messages of two blocks with the
   same MAC *)
Example C99_case : let k := [17; 34; 51; 68] in block_family toy_block k 4 (toy_E k) (toy_D k) /\
  match block_mac toy_fresh (toy_block Encrypt) None None k with
  | Ret o => match result_of o [HString [1; 2; 3; 4]] with
    | Ret t => result_of o [HString [1; 2; 3; 4]; HString (xorb [1; 2; 3; 4] t)] = Ret t /\ result_of o [HString [1; 2; 3; 5]] <> Ret t /\
        match result_of o [HString [1; 2; 3; 5]] with
        | Ret u => result_of o [HString [1; 2; 3; 5]; HString (xorb [1; 2; 3; 4] u)] = Ret t /\ xorb t u = xorb (xorb [1; 2; 3; 4] t) (xorb [1; 2; 3; 4] u)
        | _ => False end
    | _ => False end
  | _ => False end.
Proof. split; [apply toy_family; [reflexivity|repeat constructor; lia]|]. vm_compute. repeat split; discriminate || reflexivity. Qed.
