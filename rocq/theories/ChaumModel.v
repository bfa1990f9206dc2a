(** src/electionguard/chaum_pedersen.cpp *)
From Coq Require Import String.
From Verif Require Import Base GroupModel CodecModel HashModel ElgamalModel.
Open Scope Z_scope.

(** chaum_pedersen.cpp:22-47 DisjunctiveChaumPedersenProof::Impl. *)
Record dproof := {
  dp_a0 : Z; dp_b0 : Z; dp_a1 : Z; dp_b1 : Z;   (* proof_{zero,one}_{pad,data} *)
  dp_c0 : Z; dp_c1 : Z; dp_c : Z;               (* challenges *)
  dp_v0 : Z; dp_v1 : Z                          (* responses *)
}.

(** chaum_pedersen.cpp:512-524 ConstantChaumPedersenProof::Impl. *)
Record cproof := {
  cp_a : Z; cp_b : Z; cp_c : Z; cp_v : Z; cp_const : Z
}.

(** precompute_buffers.hpp Quadruple (exp1, exp2, g_to_exp1,
    g_to_exp2_mult_by_pubkey_to_exp1). *)
Record quadruple := { qd_exp1 : Z; qd_exp2 : Z; qd_g1 : Z; qd_g2k1 : Z }.
(** precompute_buffers.hpp TwoTriplesAndAQuadruple. *)
Record two_triples_quad := { tq_t1 : triple; tq_t2 : triple; tq_q : quadruple }.

Section Chaum.
Context (gp : params) (sha : bytes -> Z).
Notation hash := (hash_elems gp sha).

(** The challenge hash of chaum_pedersen.cpp:325, 362, 398, 428, 459, 496, 232. *)
Definition dchallenge (q : Z) (m : ciphertext) (a0 b0 a1 b1 : Z) : Z :=
  hash [HElemQ q; HElemP (ct_pad m); HElemP (ct_data m);
        HElemP a0; HElemP b0; HElemP a1; HElemP b1].

(** chaum_pedersen.cpp:306-335 make_zero without seed; [u v w] are the three
    results of rand_q. *)
Definition make_zero_rand (m : ciphertext) (r k q : Z) (u v w : Z) : outcome dproof :=
  let a0 := g_pow_p gp u in
  let b0 := pow_mod_p gp k u in
  let a1 := g_pow_p gp v in
  let b1 := mul_mod_p gp (g_pow_p gp w) (pow_mod_p gp k v) in
  let c := dchallenge q m a0 b0 a1 b1 in
  let c0 := sub_mod_q gp c w in
  do v0 <- a_plus_bc_mod_q gp u c0 r;
  do v1 <- a_plus_bc_mod_q gp v w r;
  Ok {| dp_a0 := a0; dp_b0 := b0; dp_a1 := a1; dp_b1 := b1;
        dp_c0 := c0; dp_c1 := w; dp_c := c; dp_v0 := v0; dp_v1 := v1 |}.

(** Nonces(seed, "disjoint-chaum-pedersen-proof"): get(0), get(1), get(2)
    (chaum_pedersen.cpp:346-349, 449-452). *)
Definition dnonce (seed i : Z) : Z :=
  fst (nonces_get gp sha
         (nonces_new gp sha seed (HStr (s2b "disjoint-chaum-pedersen-proof"))) i).

(** chaum_pedersen.cpp:337-370 make_zero with seed. *)
Definition make_zero_seed (m : ciphertext) (r k q seed : Z) : outcome dproof :=
  let alpha := ct_pad m in
  let beta := ct_data m in
  let c1 := dnonce seed 0 in
  let v1 := dnonce seed 1 in
  let u0 := dnonce seed 2 in
  let a0 := g_pow_p gp u0 in
  let b0 := pow_mod_p gp k u0 in
  let q_min_c1 := sub_from_q gp c1 in
  let a1 := mul_mod_p gp (g_pow_p gp v1) (pow_mod_p gp alpha q_min_c1) in
  let b1 := mul_mod_p_list gp [pow_mod_p gp k v1; g_pow_p gp c1; pow_mod_p gp beta q_min_c1] in
  let c := dchallenge q m a0 b0 a1 b1 in
  let c0 := sub_mod_q gp c c1 in
  do v0 <- a_plus_bc_mod_q gp u0 c0 r;
  Ok {| dp_a0 := a0; dp_b0 := b0; dp_a1 := a1; dp_b1 := b1;
        dp_c0 := c0; dp_c1 := c1; dp_c := c; dp_v0 := v0; dp_v1 := v1 |}.

(** chaum_pedersen.cpp:372-408 make_zero_with_precomputed. *)
Definition make_zero_precomp (m : ciphertext) (t : two_triples_quad) (q : Z) : outcome dproof :=
  let r := tr_exp (tq_t1 t) in
  let u := tr_exp (tq_t2 t) in
  let v := qd_exp1 (tq_q t) in
  let w := qd_exp2 (tq_q t) in
  let a0 := tr_g (tq_t2 t) in
  let b0 := tr_k (tq_t2 t) in
  let a1 := qd_g1 (tq_q t) in
  let b1 := qd_g2k1 (tq_q t) in
  let c := dchallenge q m a0 b0 a1 b1 in
  let c0 := sub_mod_q gp c w in
  do v0 <- a_plus_bc_mod_q gp u c0 r;
  do v1 <- a_plus_bc_mod_q gp v w r;
  Ok {| dp_a0 := a0; dp_b0 := b0; dp_a1 := a1; dp_b1 := b1;
        dp_c0 := c0; dp_c1 := w; dp_c := c; dp_v0 := v0; dp_v1 := v1 |}.

(** chaum_pedersen.cpp:410-438 make_one without seed. *)
Definition make_one_rand (m : ciphertext) (r k q : Z) (u v w : Z) : outcome dproof :=
  let a0 := g_pow_p gp v in
  let b0 := mul_mod_p gp (g_pow_p gp w) (pow_mod_p gp k v) in
  let a1 := g_pow_p gp u in
  let b1 := pow_mod_p gp k u in
  let c := dchallenge q m a0 b0 a1 b1 in
  let c0 := sub_mod_q gp (gpQ gp) w in
  let c1 := add_mod_q gp c w in
  do v0 <- a_plus_bc_mod_q gp v c0 r;
  do v1 <- a_plus_bc_mod_q gp u c1 r;
  Ok {| dp_a0 := a0; dp_b0 := b0; dp_a1 := a1; dp_b1 := b1;
        dp_c0 := c0; dp_c1 := c1; dp_c := c; dp_v0 := v0; dp_v1 := v1 |}.

(** chaum_pedersen.cpp:440-466 make_one with seed. *)
Definition make_one_seed (m : ciphertext) (r k q seed : Z) : outcome dproof :=
  let alpha := ct_pad m in
  let beta := ct_data m in
  let c0 := dnonce seed 0 in
  let v0 := dnonce seed 1 in
  let u1 := dnonce seed 2 in
  let q_min_c0 := sub_from_q gp c0 in
  let a0 := mul_mod_p gp (g_pow_p gp v0) (pow_mod_p gp alpha q_min_c0) in
  let b0 := mul_mod_p gp (pow_mod_p gp k v0) (pow_mod_p gp beta q_min_c0) in
  let a1 := g_pow_p gp u1 in
  let b1 := pow_mod_p gp k u1 in
  let c := dchallenge q m a0 b0 a1 b1 in
  let c1 := sub_mod_q gp c c0 in
  do v1 <- a_plus_bc_mod_q gp u1 c1 r;
  Ok {| dp_a0 := a0; dp_b0 := b0; dp_a1 := a1; dp_b1 := b1;
        dp_c0 := c0; dp_c1 := c1; dp_c := c; dp_v0 := v0; dp_v1 := v1 |}.

(** chaum_pedersen.cpp:468-506 make_one_with_precomputed. *)
Definition make_one_precomp (m : ciphertext) (t : two_triples_quad) (q : Z) : outcome dproof :=
  let r := tr_exp (tq_t1 t) in
  let u := tr_exp (tq_t2 t) in
  let v := qd_exp1 (tq_q t) in
  let w := qd_exp2 (tq_q t) in
  let a0 := qd_g1 (tq_q t) in
  let b0 := qd_g2k1 (tq_q t) in
  let a1 := tr_g (tq_t2 t) in
  let b1 := tr_k (tq_t2 t) in
  let c := dchallenge q m a0 b0 a1 b1 in
  let c0 := sub_mod_q gp (gpQ gp) w in
  let c1 := add_mod_q gp c w in
  do v0 <- a_plus_bc_mod_q gp v c0 r;
  do v1 <- a_plus_bc_mod_q gp u c1 r;
  Ok {| dp_a0 := a0; dp_b0 := b0; dp_a1 := a1; dp_b1 := b1;
        dp_c0 := c0; dp_c1 := c1; dp_c := c; dp_v0 := v0; dp_v1 := v1 |}.

(** chaum_pedersen.cpp:142-156 make without seed. *)
Definition dproof_make_rand (m : ciphertext) (r k q plaintext : Z) (u v w : Z) : outcome dproof :=
  if 1 <? plaintext then Throw InvalidArgument
  else if plaintext =? 1 then make_one_rand m r k q u v w
  else make_zero_rand m r k q u v w.

(** chaum_pedersen.cpp:158-172 make with seed. *)
Definition dproof_make_seed (m : ciphertext) (r k q seed plaintext : Z) : outcome dproof :=
  if 1 <? plaintext then Throw InvalidArgument
  else if plaintext =? 1 then make_one_seed m r k q seed
  else make_zero_seed m r k q seed.

(** chaum_pedersen.cpp:174-193 make_with_precomputed. *)
Definition dproof_make_precomp (m : ciphertext) (t : two_triples_quad) (q plaintext : Z)
  : outcome dproof :=
  if 1 <? plaintext then Throw InvalidArgument
  else if plaintext =? 1 then make_one_precomp m t q
  else make_zero_precomp m t q.

(** chaum_pedersen.cpp:197-292 DisjunctiveChaumPedersenProof::isValid. *)
Definition dproof_valid (p : dproof) (m : ciphertext) (k q : Z) : bool :=
  let alpha := ct_pad m in
  let beta := ct_data m in
  let consistent_c :=
    elem_eq (add_mod_q gp (dp_c0 p) (dp_c1 p)) (dp_c p) &&
    elem_eq (dp_c p) (dchallenge q m (dp_a0 p) (dp_b0 p) (dp_a1 p) (dp_b1 p)) in
  let consistent_gv0 :=
    elem_eq (g_pow_p gp (dp_v0 p)) (mul_mod_p gp (dp_a0 p) (pow_mod_p gp alpha (dp_c0 p))) in
  let consistent_gv1 :=
    elem_eq (g_pow_p gp (dp_v1 p)) (mul_mod_p gp (dp_a1 p) (pow_mod_p gp alpha (dp_c1 p))) in
  let consistent_kv0 :=
    elem_eq (pow_mod_p gp k (dp_v0 p)) (mul_mod_p gp (dp_b0 p) (pow_mod_p gp beta (dp_c0 p))) in
  let consistent_gc1kv1 :=
    elem_eq (mul_mod_p gp (g_pow_p gp (dp_c1 p)) (pow_mod_p gp k (dp_v1 p)))
            (mul_mod_p gp (dp_b1 p) (pow_mod_p gp beta (dp_c1 p))) in
  valid_residue gp alpha && valid_residue gp beta
  && valid_residue gp (dp_a0 p) && valid_residue gp (dp_b0 p)
  && valid_residue gp (dp_a1 p) && valid_residue gp (dp_b1 p)
  && in_bounds_q gp (dp_c0 p) && in_bounds_q gp (dp_c1 p)
  && in_bounds_q gp (dp_v0 p) && in_bounds_q gp (dp_v1 p)
  && consistent_c && consistent_gv0 && consistent_gv1 && consistent_kv0 && consistent_gc1kv1.

(** chaum_pedersen.cpp:294-302 DisjunctiveChaumPedersenProof::clone: the fourth
    argument is proof_one_pad again.  ElementModQ::clone re-checks its value. *)
Definition dproof_clone (p : dproof) : outcome dproof :=
  do a0 <- clone_p gp (dp_a0 p);
  do b0 <- clone_p gp (dp_b0 p);
  do a1 <- clone_p gp (dp_a1 p);
  do b1 <- clone_p gp (dp_a1 p);
  do c0 <- clone_q gp (dp_c0 p);
  do c1 <- clone_q gp (dp_c1 p);
  do c <- clone_q gp (dp_c p);
  do v0 <- clone_q gp (dp_v0 p);
  do v1 <- clone_q gp (dp_v1 p);
  Ok {| dp_a0 := a0; dp_b0 := b0; dp_a1 := a1; dp_b1 := b1;
        dp_c0 := c0; dp_c1 := c1; dp_c := c; dp_v0 := v0; dp_v1 := v1 |}.

(** chaum_pedersen.cpp:48-66 Impl::clone, used by the copy constructor (71-75). *)
Definition dproof_copy (p : dproof) : dproof := p.

(** ** Constant proofs *)

Definition cchallenge (q : Z) (m : ciphertext) (a b : Z) : Z :=
  hash [HElemQ q; HElemP (ct_pad m); HElemP (ct_data m); HElemP a; HElemP b].

(** Nonces(seed, "constant-chaum-pedersen-proof"): get(0). *)
Definition cnonce (seed : Z) : Z :=
  fst (nonces_get gp sha
         (nonces_new gp sha seed (HStr (s2b "constant-chaum-pedersen-proof"))) 0).

(** chaum_pedersen.cpp:575-610 ConstantChaumPedersenProof::make.  [pre] is the
    result of PrecomputeBufferContext::getTriple(). *)
Definition cproof_make (pre : option triple) (m : ciphertext) (r k seed hash_header constant : Z)
  : outcome cproof :=
  let '(u, a, b) :=
    match pre with
    | Some t => (tr_exp t, tr_g t, tr_k t)
    | None => let u := cnonce seed in (u, g_pow_p gp u, pow_mod_p gp k u)
    end in
  let c := cchallenge hash_header m a b in
  do v <- a_plus_bc_mod_q gp u c r;
  Ok {| cp_a := a; cp_b := b; cp_c := c; cp_v := v; cp_const := constant |}.

(** chaum_pedersen.cpp:614-678 ConstantChaumPedersenProof::isValid.  The constant
    is converted with a checked fromUint64 (638), the exponent c*L is an
    ElementModP, i.e. reduced modulo P and read to 512 bits (647). *)
Definition cproof_valid (p : cproof) (m : ciphertext) (k q : Z) : outcome bool :=
  let alpha := ct_pad m in
  let beta := ct_data m in
  do constant_q <- from_uint64_q gp (cp_const p) false;
  let consistent_c := elem_eq (cp_c p) (cchallenge q m (cp_a p) (cp_b p)) in
  let consistent_gv :=
    elem_eq (g_pow_p gp (cp_v p)) (mul_mod_p gp (cp_a p) (pow_mod_p gp alpha (cp_c p))) in
  let consistent_kv :=
    elem_eq (mul_mod_p gp (pow_mod_p_p gp (gpG gp) (mul_mod_p_list gp [cp_c p; constant_q]))
                       (pow_mod_p gp k (cp_v p)))
            (mul_mod_p gp (cp_b p) (pow_mod_p gp beta (cp_c p))) in
  Ok (valid_residue gp alpha && valid_residue gp beta
      && valid_residue gp (cp_a p) && valid_residue gp (cp_b p)
      && in_bounds_q gp (cp_c p) && in_bounds_q gp (cp_v p)
      && consistent_c && consistent_gv && consistent_kv).

End Chaum.
