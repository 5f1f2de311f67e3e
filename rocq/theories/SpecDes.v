(* DES and triple DES as in FIPS 46-3: bits are numbered from 1, leftmost first. *)
From Verif Require Import Prelude BytesNum.

Definition permute (t : list nat) (l : list bool) : list bool := map (fun i => nth (i - 1) l false) t.
(* bits of a byte, of a byte string; back *)
Definition byte_bits (b : Z) : list bool := map (fun i => Z.testbit b (7 - Z.of_nat i)) (seq 0 8).
Definition bits_of (l : bytes) : list bool := flat_map byte_bits l.
Definition num (l : list bool) : Z := fold_left (fun a b => 2 * a + (if b : bool then 1 else 0)) l 0.
Fixpoint bytes_of_bits (n : nat) (l : list bool) : bytes :=
  match n with O => [] | S n => num (firstn 8 l) :: bytes_of_bits n (skipn 8 l) end.
Definition xor_bits (a b : list bool) : list bool := map (fun p => Datatypes.xorb (fst p) (snd p)) (combine a b).

Definition IP : list nat := [
  58; 50; 42; 34; 26; 18; 10; 2; 60; 52; 44; 36; 28; 20; 12; 4; 62; 54; 46; 38; 30; 22; 14; 6; 64; 56; 48; 40; 32; 24; 16; 8;
  57; 49; 41; 33; 25; 17; 9; 1; 59; 51; 43; 35; 27; 19; 11; 3; 61; 53; 45; 37; 29; 21; 13; 5; 63; 55; 47; 39; 31; 23; 15; 7]%nat.
Definition IP_inv : list nat := [
  40; 8; 48; 16; 56; 24; 64; 32; 39; 7; 47; 15; 55; 23; 63; 31; 38; 6; 46; 14; 54; 22; 62; 30; 37; 5; 45; 13; 53; 21; 61; 29;
  36; 4; 44; 12; 52; 20; 60; 28; 35; 3; 43; 11; 51; 19; 59; 27; 34; 2; 42; 10; 50; 18; 58; 26; 33; 1; 41; 9; 49; 17; 57; 25]%nat.
Definition E_table : list nat := [
  32; 1; 2; 3; 4; 5; 4; 5; 6; 7; 8; 9; 8; 9; 10; 11; 12; 13; 12; 13; 14; 15; 16; 17;
  16; 17; 18; 19; 20; 21; 20; 21; 22; 23; 24; 25; 24; 25; 26; 27; 28; 29; 28; 29; 30; 31; 32; 1]%nat.
Definition P_table : list nat := [
  16; 7; 20; 21; 29; 12; 28; 17; 1; 15; 23; 26; 5; 18; 31; 10; 2; 8; 24; 14; 32; 27; 3; 9; 19; 13; 30; 6; 22; 11; 4; 25]%nat.
Definition PC1 : list nat := [
  57; 49; 41; 33; 25; 17; 9; 1; 58; 50; 42; 34; 26; 18; 10; 2; 59; 51; 43; 35; 27; 19; 11; 3; 60; 52; 44; 36;
  63; 55; 47; 39; 31; 23; 15; 7; 62; 54; 46; 38; 30; 22; 14; 6; 61; 53; 45; 37; 29; 21; 13; 5; 28; 20; 12; 4]%nat.
Definition PC2 : list nat := [
  14; 17; 11; 24; 1; 5; 3; 28; 15; 6; 21; 10; 23; 19; 12; 4; 26; 8; 16; 7; 27; 20; 13; 2;
  41; 52; 31; 37; 47; 55; 30; 40; 51; 45; 33; 48; 44; 49; 39; 56; 34; 53; 46; 42; 50; 36; 29; 32]%nat.
Definition left_shifts : list nat := [1; 1; 2; 2; 2; 2; 2; 2; 1; 2; 2; 2; 2; 2; 2; 1]%nat.
Definition S1 : list Z := [
  14;4;13;1;2;15;11;8;3;10;6;12;5;9;0;7; 0;15;7;4;14;2;13;1;10;6;12;11;9;5;3;8;
  4;1;14;8;13;6;2;11;15;12;9;7;3;10;5;0; 15;12;8;2;4;9;1;7;5;11;3;14;10;0;6;13].
Definition S2 : list Z := [
  15;1;8;14;6;11;3;4;9;7;2;13;12;0;5;10; 3;13;4;7;15;2;8;14;12;0;1;10;6;9;11;5;
  0;14;7;11;10;4;13;1;5;8;12;6;9;3;2;15; 13;8;10;1;3;15;4;2;11;6;7;12;0;5;14;9].
Definition S3 : list Z := [
  10;0;9;14;6;3;15;5;1;13;12;7;11;4;2;8; 13;7;0;9;3;4;6;10;2;8;5;14;12;11;15;1;
  13;6;4;9;8;15;3;0;11;1;2;12;5;10;14;7; 1;10;13;0;6;9;8;7;4;15;14;3;11;5;2;12].
Definition S4 : list Z := [
  7;13;14;3;0;6;9;10;1;2;8;5;11;12;4;15; 13;8;11;5;6;15;0;3;4;7;2;12;1;10;14;9;
  10;6;9;0;12;11;7;13;15;1;3;14;5;2;8;4; 3;15;0;6;10;1;13;8;9;4;5;11;12;7;2;14].
Definition S5 : list Z := [
  2;12;4;1;7;10;11;6;8;5;3;15;13;0;14;9; 14;11;2;12;4;7;13;1;5;0;15;10;3;9;8;6;
  4;2;1;11;10;13;7;8;15;9;12;5;6;3;0;14; 11;8;12;7;1;14;2;13;6;15;0;9;10;4;5;3].
Definition S6 : list Z := [
  12;1;10;15;9;2;6;8;0;13;3;4;14;7;5;11; 10;15;4;2;7;12;9;5;6;1;13;14;0;11;3;8;
  9;14;15;5;2;8;12;3;7;0;4;10;1;13;11;6; 4;3;2;12;9;5;15;10;11;14;1;7;6;0;8;13].
Definition S7 : list Z := [
  4;11;2;14;15;0;8;13;3;12;9;7;5;10;6;1; 13;0;11;7;4;9;1;10;14;3;5;12;2;15;8;6;
  1;4;11;13;12;3;7;14;10;15;6;8;0;5;9;2; 6;11;13;8;1;4;10;7;9;5;0;15;14;2;3;12].
Definition S8 : list Z := [
  13;2;8;4;6;15;11;1;10;9;3;14;5;0;12;7; 1;15;13;8;10;3;7;4;12;5;6;11;0;14;9;2;
  7;11;4;1;9;12;14;2;0;6;10;13;15;3;5;8; 2;1;14;7;4;10;8;13;15;12;9;0;3;5;6;11].

(* a selection function: the first and last bits give the row, the others the column *)
Definition select (t : list Z) (b : list bool) : list bool :=
  let row := num [nth 0 b false; nth 5 b false] in
  let col := num [nth 1 b false; nth 2 b false; nth 3 b false; nth 4 b false] in
  let v := nth (Z.to_nat (16 * row + col)) t 0 in
  [Z.testbit v 3; Z.testbit v 2; Z.testbit v 1; Z.testbit v 0].
Definition S_all (b : list bool) : list bool :=
  select S1 (firstn 6 b) ++ select S2 (firstn 6 (skipn 6 b)) ++ select S3 (firstn 6 (skipn 12 b)) ++ select S4 (firstn 6 (skipn 18 b)) ++
  select S5 (firstn 6 (skipn 24 b)) ++ select S6 (firstn 6 (skipn 30 b)) ++ select S7 (firstn 6 (skipn 36 b)) ++ select S8 (firstn 6 (skipn 42 b)).
Definition des_f (R K : list bool) : list bool := permute P_table (S_all (xor_bits (permute E_table R) K)).
Definition des_round (LR : list bool * list bool) (K : list bool) : list bool * list bool :=
  (snd LR, xor_bits (fst LR) (des_f (snd LR) K)).

(* the key schedule KS: K1 ... K16 *)
Definition rot_left (n : nat) (l : list bool) : list bool := skipn n l ++ firstn n l.
Fixpoint schedule (shifts : list nat) (C D : list bool) : list (list bool) :=
  match shifts with
  | [] => []
  | n :: shifts => let C := rot_left n C in let D := rot_left n D in permute PC2 (C ++ D) :: schedule shifts C D
  end.
Definition des_keys (key : bytes) : list (list bool) :=
  let k := permute PC1 (bits_of key) in schedule left_shifts (firstn 28 k) (skipn 28 k).

(* enciphering with given subkeys: the preoutput block is R16 L16 *)
Definition des_bits (keys : list (list bool)) (b : list bool) : list bool :=
  let p := permute IP b in
  let lr := fold_left des_round keys (firstn 32 p, skipn 32 p) in
  permute IP_inv (snd lr ++ fst lr).
Definition des_E (key b : bytes) : bytes := bytes_of_bits 8 (des_bits (des_keys key) (bits_of b)).
Definition des_D (key b : bytes) : bytes := bytes_of_bits 8 (des_bits (rev (des_keys key)) (bits_of b)).

(* TDEA: keying option 1 (24 bytes, three keys) and 2 (16 bytes, K3 = K1) *)
Definition tdea_key (key : bytes) (i : Z) : bytes := if (i =? 2) && (zlen key =? 16) then sub key 0 8 else sub key (8 * i) 8.
Definition tdea_E (key b : bytes) : bytes := des_E (tdea_key key 2) (des_D (tdea_key key 1) (des_E (tdea_key key 0) b)).
Definition tdea_D (key b : bytes) : bytes := des_D (tdea_key key 0) (des_E (tdea_key key 1) (des_D (tdea_key key 2) b)).
