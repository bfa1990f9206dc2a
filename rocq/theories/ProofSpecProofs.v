(** isValid of chaum_pedersen.cpp decides the acceptance conditions of ProofSpec.v. *)
From Coq Require Import Znumtheory Permutation.
From Verif Require Import Base GroupModel GroupSpec GroupProofs HashModel Algebra ElgamalModel
  ElgamalSpec ElgamalProofs ChaumModel ChaumProofs SoundProofs TallyProofs ProofSpec.
Open Scope Z_scope.
Ltac Zify.zify_post_hook ::= idtac.

Section Spec.
Context (gp : params) (VP : valid_params gp) (sha : bytes -> Z).
Notation P := (gpP gp).
Notation Q := (gpQ gp).
Notation G := (gpG gp).

Lemma mul_pow a b e : 0 <= e < W256 -> mul_mod_p gp a (pow_mod_p gp b e) = (a * b ^ e) mod P.
Proof. intros He. unfold mul_mod_p. rewrite pow_mod_p_correct by assumption. apply Zmult_mod_idemp_r. Qed.
Lemma gmul_pow a b e f : 0 <= e < W256 -> 0 <= f < W256 ->
  mul_mod_p gp (pow_mod_p gp a e) (pow_mod_p gp b f) = (a ^ e * b ^ f) mod P.
Proof. intros He Hf. rewrite mul_pow, pow_mod_p_correct by assumption. apply Zmult_mod_idemp_l. Qed.

Lemma in_q_W v : 0 < v < Q -> 0 <= v < W256.
Proof. pose proof (vp_Qhi _ VP). lia. Qed.
Lemma in_q_exp v : 0 < v < Q -> exp_ok gp v.
Proof. unfold exp_ok. lia. Qed.

Ltac ranges :=
  repeat match goal with
  | H : 0 < ?v < Q |- _ =>
      lazymatch goal with
      | _ : 0 <= v < W256 |- _ => fail
      | _ => pose proof (in_q_W v H); pose proof (in_q_exp v H)
      end
  end.
Ltac conv H :=
  unfold g_pow_p in H; rewrite ?mul_pow in H by assumption;
  rewrite ?pow_mod_p_correct in H by assumption;
  rewrite ?Zmult_mod_idemp_l in H.

Lemma dproof_valid_spec p m K q :
  dproof_valid gp sha p m K q = true <->
  spec_daccepts gp K m p (dchallenge gp sha q m (dp_a0 p) (dp_b0 p) (dp_a1 p) (dp_b1 p)).
Proof.
  unfold dproof_valid, elem_eq, spec_daccepts, spec_dequations, spec_subgroup.
  rewrite !andb_true_iff, !Z.eqb_eq, !in_bounds_q_spec, !(valid_residue_spec gp VP).
  pose proof (vp_Qhi _ VP) as HQ. cbn zeta.
  split.
  - intros ((((((((((((((H1 & H2) & H3) & H4) & H5) & H6) & H7) & H8) & H9) & H10) & (H11 & H12)) & H13) & H14) & H15) & H16).
    ranges. rewrite (add_mod_q_correct gp VP) in H11 by assumption.
    conv H13. conv H14. conv H15. conv H16.
    repeat (split; [first [assumption | symmetry; assumption | congruence]|]). assumption.
  - intros (H1 & H2 & H3 & H4 & H5 & H6 & H7 & H8 & H9 & H10 & H11 & H12 & H13 & H14 & H15 & H16).
    ranges. rewrite (add_mod_q_correct gp VP) by assumption.
    unfold g_pow_p. rewrite !mul_pow by assumption. rewrite !pow_mod_p_correct by assumption.
    rewrite ?Zmult_mod_idemp_l.
    do 4 (split; [|assumption]). split; [|split; [symmetry|]; assumption].
    do 9 (split; [|assumption]). assumption.
Qed.

Lemma mul_exponent c L : 0 < c < Q -> 0 <= L <= Q ->
  pow_mod_p_p gp G (mul_mod_p_list gp [c; L]) = (G ^ (c * L)) mod P.
Proof.
  intros Hc HL. destruct (prod_exponent_small gp VP c L) as [E HW]; [lia|assumption|].
  rewrite E. apply pow_mod_p_p_correct; assumption.
Qed.

Lemma cproof_valid_spec p m K q :
  0 <= cp_const p <= Q ->
  cproof_valid gp sha p m K q = Ok true <->
  spec_caccepts gp K m p (cchallenge gp sha q m (cp_a p) (cp_b p)).
Proof.
  intros HL.
  unfold cproof_valid, elem_eq, spec_caccepts, spec_subgroup, from_uint64_q, make_q.
  cbn [Nat.ltb Nat.leb negb andb].
  destruct (Z.ltb_spec Q (cp_const p)) as [?|_]; [lia|]. cbn [bind].
  pose proof (vp_Qhi _ VP) as HQ. cbn zeta.
  set (b := _ && _).
  assert (E : Ok b = Ok true <-> b = true) by (split; [congruence|intros ->; reflexivity]).
  rewrite E. subst b. clear E.
  rewrite !andb_true_iff, !Z.eqb_eq, !in_bounds_q_spec, !(valid_residue_spec gp VP).
  split.
  - intros ((((((((H1 & H2) & H3) & H4) & H5) & H6) & H7) & H8) & H9).
    ranges. rewrite mul_exponent in H9 by assumption. conv H8. conv H9.
    repeat (split; [assumption|]). assumption.
  - intros (H1 & H2 & H3 & H4 & H5 & H6 & H7 & H8 & H9).
    ranges. rewrite mul_exponent by assumption.
    unfold g_pow_p. rewrite !mul_pow by assumption. rewrite !pow_mod_p_correct by assumption.
    rewrite ?Zmult_mod_idemp_l.
    repeat (split; [|assumption]). assumption.
Qed.

(** A constant above the modulus throws instead of answering. *)
Lemma cproof_valid_throws p m K q :
  Q < cp_const p -> cproof_valid gp sha p m K q = Throw OutOfRange.
Proof.
  intros HL. unfold cproof_valid, from_uint64_q, make_q. cbn [Nat.ltb Nat.leb negb andb].
  destruct (Z.ltb_spec Q (cp_const p)) as [_|?]; [reflexivity|lia].
Qed.
End Spec.
