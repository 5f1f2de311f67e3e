(* Values of a MAC over a block cipher when result is called again. *)
From Verif Require Import Prelude SpecBlock SpecMac CipherSpec MacApi.

(* CBC-MAC of the message m from the initial block iv *)
Definition mac_value (E : bytes -> bytes) (bs : Z) (p : option padding) (iv m : bytes) : option bytes :=
  option_map (cbc_mac E iv) (mac_message bs p m).
(* a later call: the MAC of the empty message from the previous value *)
Definition mac_values (E : bytes -> bytes) (bs : Z) (p : option padding) (iv m : bytes) (k : nat) : option bytes :=
  Nat.iter k (fun r => match r with Some t => mac_value E bs p t [] | None => None end) (mac_value E bs p iv m).
Definition cmac_values (E : bytes -> bytes) (iv m : bytes) (k : nat) : bytes :=
  Nat.iter k (fun t => cmac_spec E t []) (cmac_spec E iv m).
