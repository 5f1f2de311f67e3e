(* C114: the generator built on AES in counter mode never repeats a block. *)
From Verif Require Import Prelude TransformModel BlockModel CipherModel SpecAes AesModel AesniModel SpecRng RngModel Rng Toy SpecRepeat Repeat.

(* output_of o ns: what calls for ns bytes, in this order, give; total ns: the sum *)
Theorem C114_no_repeat : forall (fresh : Z -> bytes) nb seed, (forall n, 0 <= n -> zlen (fresh n) = n) ->
  (nb = new_aes fresh Encrypt \/ nb = new_aesni fresh Encrypt) -> bytes_ok seed -> 16 <= zlen seed ->
  exists o, pseudo_rng_aes_ctr fresh nb seed = Ret o /\
  forall ns, Forall (Z.le 0) ns -> zlen (output_of o ns) = total ns /\
    forall i j, 0 <= i < j -> j < 2 ^ 128 -> 16 * j + 16 <= total ns ->
    sub (output_of o ns) (16 * i) 16 <> sub (output_of o ns) (16 * j) 16.
Proof. exact aes_ctr_no_repeat. Qed.
Print Assumptions C114_no_repeat.
(* 40 bytes in three calls: two whole blocks, which differ *)
Example C114_case :
  match pseudo_rng_aes_ctr toy_fresh (new_aes toy_fresh Encrypt) (zeros 20) with
  | Ret o => total [15; 0; 25] = 40 /\ map (fun i => firstn 4 (sub (output_of o [15; 0; 25]) (16 * i) 16)) [0; 1] = [[0x66; 0xe9; 0x4b; 0xd4]; [0x58; 0xe2; 0xfc; 0xce]]
  | _ => False
  end.
Proof. vm_compute. split; reflexivity. Qed.
