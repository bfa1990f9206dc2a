(** Specification vocabulary for zero knowledge: all exponents, all triples of
    exponents, and a simulator that knows neither nonce nor plaintext. *)
From Verif Require Import Base GroupModel ElgamalModel ChaumModel.
Open Scope Z_scope.

(** The integers 0 .. n-1. *)
Definition zrange (n : Z) : list Z := map Z.of_nat (seq 0 (Z.to_nat n)).

(** All triples of exponents. *)
Definition all_triples (n : Z) : list (Z * Z * Z) :=
  list_prod (list_prod (zrange n) (zrange n)) (zrange n).

(** The textbook simulator: choose the second challenge share and both responses,
    solve the four verification equations for the commitments. *)
Definition simulate (gp : params) (m : ciphertext) (K c : Z) (x : Z * Z * Z) : dproof :=
  let '(c1, v0, v1) := x in
  let c0 := (c - c1) mod gpQ gp in
  {| dp_a0 := (gpG gp ^ v0 * ct_pad m ^ (gpQ gp - c0)) mod gpP gp;
     dp_b0 := (K ^ v0 * ct_data m ^ (gpQ gp - c0)) mod gpP gp;
     dp_a1 := (gpG gp ^ v1 * ct_pad m ^ (gpQ gp - c1)) mod gpP gp;
     dp_b1 := (gpG gp ^ c1 * K ^ v1 * ct_data m ^ (gpQ gp - c1)) mod gpP gp;
     dp_c0 := c0; dp_c1 := c1; dp_c := c; dp_v0 := v0; dp_v1 := v1 |}.
