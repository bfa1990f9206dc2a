(** What an exponential ElGamal ciphertext is, in terms of integer powers only:
    the specification the ElGamal theorems are stated with. *)
From Verif Require Import Base GroupModel ElgamalModel.
Open Scope Z_scope.

(** The encryption of [m] with nonce [r] under the public key [K]. *)
Definition spec_enc (gp : params) (K m r : Z) : ciphertext :=
  {| ct_pad := (gpG gp ^ r) mod gpP gp;
     ct_data := (gpG gp ^ m * K ^ r) mod gpP gp |}.

(** The public key of a secret. *)
Definition spec_key (gp : params) (s : Z) : Z := (gpG gp ^ s) mod gpP gp.

(** [m] is a decryption of [c] under [s]. *)
Definition spec_decrypts (gp : params) (c : ciphertext) (s m : Z) : Prop :=
  ct_data c mod gpP gp = (gpG gp ^ m * ct_pad c ^ s) mod gpP gp.

(** An element of the order-Q subgroup, given by its canonical representative. *)
Definition spec_subgroup (gp : params) (x : Z) : Prop :=
  0 < x < gpP gp /\ (x ^ gpQ gp) mod gpP gp = 1.
