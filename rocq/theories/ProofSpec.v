(** What accepting Chaum-Pedersen transcripts are, in terms of integer powers and a
    challenge value: the specification the proof theorems are stated with. *)
From Verif Require Import Base GroupModel HashModel ElgamalModel ElgamalSpec ChaumModel.
Open Scope Z_scope.

(** The four verification equations of a disjunctive proof. *)
Definition spec_dequations (gp : params) (K : Z) (m : ciphertext) (p : dproof) : Prop :=
  let P := gpP gp in let G := gpG gp in
  let A := ct_pad m in let B := ct_data m in
  (G ^ dp_v0 p) mod P = (dp_a0 p * A ^ dp_c0 p) mod P /\
  (G ^ dp_v1 p) mod P = (dp_a1 p * A ^ dp_c1 p) mod P /\
  (K ^ dp_v0 p) mod P = (dp_b0 p * B ^ dp_c0 p) mod P /\
  (G ^ dp_c1 p * K ^ dp_v1 p) mod P = (dp_b1 p * B ^ dp_c1 p) mod P.

(** The complete acceptance condition; [chal] is the Fiat-Shamir challenge. *)
Definition spec_daccepts (gp : params) (K : Z) (m : ciphertext) (p : dproof) (chal : Z) : Prop :=
  let Q := gpQ gp in
  spec_subgroup gp (ct_pad m) /\ spec_subgroup gp (ct_data m) /\
  spec_subgroup gp (dp_a0 p) /\ spec_subgroup gp (dp_b0 p) /\
  spec_subgroup gp (dp_a1 p) /\ spec_subgroup gp (dp_b1 p) /\
  0 < dp_c0 p < Q /\ 0 < dp_c1 p < Q /\ 0 < dp_v0 p < Q /\ 0 < dp_v1 p < Q /\
  dp_c p = (dp_c0 p + dp_c1 p) mod Q /\ dp_c p = chal /\
  spec_dequations gp K m p.

(** The same for the constant proof of the value [cp_const p]. *)
Definition spec_caccepts (gp : params) (K : Z) (m : ciphertext) (p : cproof) (chal : Z) : Prop :=
  let P := gpP gp in let G := gpG gp in let Q := gpQ gp in
  spec_subgroup gp (ct_pad m) /\ spec_subgroup gp (ct_data m) /\
  spec_subgroup gp (cp_a p) /\ spec_subgroup gp (cp_b p) /\
  0 < cp_c p < Q /\ 0 < cp_v p < Q /\ cp_c p = chal /\
  (G ^ cp_v p) mod P = (cp_a p * ct_pad m ^ cp_c p) mod P /\
  (G ^ (cp_c p * cp_const p) * K ^ cp_v p) mod P = (cp_b p * ct_data m ^ cp_c p) mod P.

(** The statements being proved: some nonce explains the ciphertext as an encryption
    of the value. *)
Definition spec_encrypts (gp : params) (K : Z) (m : ciphertext) (v r : Z) : Prop :=
  m = spec_enc gp K v r.
