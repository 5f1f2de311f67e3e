(* Specification side of the Cipher entry points: which block function and
   which transducer a choice of mode and padding stands for. *)
From Verif Require Import Prelude SpecTransducer SpecBlock SpecModes SpecPadding CipherModel BlockModel.

Section Spec.
Variables (bs : Z) (E : bytes -> bytes).

(* the block size of the resulting transform *)
Definition mode_bs (m : chaining_mode) : Z :=
  match m with CFB n | OFB n => n | _ => bs end.

(* parameters allowed by the interface *)
Definition mode_ok (m : chaining_mode) : Prop :=
  match m with CFB n | OFB n | CTR_N n => 0 < n <= bs | _ => True end.

(* the IV used: an omitted IV is all zero *)
Definition iv_val (iv : option bytes) : bytes := match iv with Some v => v | None => zeros bs end.
Definition iv_ok (m : chaining_mode) (iv : option bytes) : Prop :=
  match iv with None => True | Some v => bytes_ok v /\ (m = ECB \/ zlen v = bs) end.

(* relation between input and output blocks: SP 800-38A.  E is the cipher
   function, or its inverse for ECB and CBC decryption. *)
Definition mode_spec (m : chaining_mode) (d : dir) (iv : bytes) (X Y : list bytes) : Prop :=
  match m, d with
  | ECB, _ => ecb_spec E X Y
  | CBC, Encrypt => cbc_enc_spec E iv X Y
  | CBC, Decrypt => cbc_dec_spec E iv X Y
  | CFB n, Encrypt => cfb_enc_spec E (Z.to_nat n) iv X Y
  | CFB n, Decrypt => cfb_dec_spec E (Z.to_nat n) iv X Y
  | OFB n, _ => ofb_spec E (Z.to_nat n) iv X Y
  | CTR, _ => ctr_spec E (Z.to_nat bs) iv X Y
  | CTR_N n, _ => ctr_spec E (Z.to_nat n) iv X Y
  end.

(* number of blocks a mode can process, None: no limit *)
Definition mode_limit (m : chaining_mode) : option Z :=
  match m with
  | CTR => Some (ctr_limit (Z.to_nat bs) - 1)
  | CTR_N n => Some (ctr_limit (Z.to_nat n) - 1)
  | _ => None
  end.
Definition within_limit (m : chaining_mode) (nblocks : Z) : Prop :=
  match mode_limit m with None => True | Some l => nblocks <= l end.

(* the same as stateful block functions *)
Definition mode_fn (m : chaining_mode) (d : dir) : blockfn :=
  match m, d with
  | ECB, _ => ecb_fn E
  | CBC, Encrypt => cbc_enc_fn E
  | CBC, Decrypt => cbc_dec_fn E
  | CFB n, Encrypt => cfb_enc_fn E (Z.to_nat n)
  | CFB n, Decrypt => cfb_dec_fn E (Z.to_nat n)
  | OFB n, _ => ofb_fn E (Z.to_nat n)
  | CTR, _ => ctr_fn E (Z.to_nat bs)
  | CTR_N n, _ => ctr_fn E (Z.to_nat n)
  end.
Definition mode_st0 (m : chaining_mode) (d : dir) (iv : bytes) : bf_st (mode_fn m d) :=
  match m, d return bf_st (mode_fn m d) with
  | ECB, _ => tt
  | CBC, Encrypt => iv
  | CBC, Decrypt => iv
  | CFB n, Encrypt => iv
  | CFB n, Decrypt => iv
  | OFB n, _ => iv
  | CTR, _ => (iv, ctr_limit (Z.to_nat bs))
  | CTR_N n, _ => (iv, ctr_limit (Z.to_nat n))
  end.
End Spec.

(* the two padding schemes *)
Inductive padding := PLength | P8000.
Definition scheme_of (p : padding) : scheme :=
  match p with PLength => padding_length | P8000 => padding_8000 end.
Definition pad_fn (p : padding) : Z -> Z -> option bytes :=
  match p with PLength => length_pad | P8000 => zeros_pad end.
Definition unpad_fn (p : padding) : bytes -> option Z :=
  match p with PLength => length_unpad | P8000 => zeros_unpad end.
(* block sizes the scheme supports *)
Definition pad_supports (p : padding) (bs : Z) : Prop :=
  match p with PLength => bs < 256 | P8000 => True end.

Definition fin_of (bs : Z) (f : blockfn) (p : option padding) (d : dir)
    : bf_st f * bytes -> (bf_st f * bytes) * bytes * option exn :=
  match p, d with
  | None, _ => block_flush bs f
  | Some p, Encrypt => padenc_fin bs (pad_fn p bs) f
  | Some p, Decrypt => paddec_fin bs (unpad_fn p) f
  end.

(* histories without flush and finish *)
Definition data_op (o : op) : bool := match o with Flush | Finish => false | _ => true end.
