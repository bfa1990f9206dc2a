(** Soundness of Chaum-Pedersen verification: special soundness, uniqueness of
    accepted transcripts, uniqueness of the plaintext.  Here Q must be prime. *)
From Coq Require Import Znumtheory Zpow_facts Permutation Psatz.
From Coq Require Import ZifyBool ZifyNat.
From Verif Require Import Base GroupModel GroupSpec GroupProofs Algebra CodecModel HashModel
  ElgamalModel ElgamalProofs ChaumModel ChaumProofs.
Open Scope Z_scope.
Ltac Zify.zify_post_hook ::= idtac.

Section Sound.
Context (gp : params) (PP : prime_params gp).
Notation P := (gpP gp).
Notation Q := (gpQ gp).
Notation G := (gpG gp).
Let VP : valid_params gp := pp_valid _ PP.

Lemma inverse_mod_Q d : d mod Q <> 0 -> exists e, (d * e) mod Q = 1.
Proof.
  intros Hd. pose proof (pp_prime _ PP) as Hp. pose proof (vp_Qlo _ VP).
  assert (Hr : rel_prime d Q).
  { apply rel_prime_sym, prime_rel_prime; [assumption|].
    intros Hdiv. apply Hd. apply Z.mod_divide; [lia|assumption]. }
  destruct (rel_prime_bezout _ _ Hr) as [u v Huv].
  exists u. replace (d * u) with (1 + (- v) * Q) by lia.
  rewrite Z.mod_add by lia. apply Z.mod_small. lia.
Qed.

Lemma ex_root x d e : sub gp x -> 0 <= x < P -> (d * e) mod Q = 1 -> ex gp (ex gp x d) e = x.
Proof.
  intros Hx Hr He. rewrite ex_mul by assumption.
  pose proof (vp_Qlo _ VP).
  rewrite (ex_congr gp x (d * e) 1).
  - rewrite ex_1 by assumption. apply Z.mod_small. assumption.
  - rewrite He. symmetry. apply Z.mod_small. lia.
Qed.

(** G has order exactly Q. *)
Lemma ex_G_inj a b : ex gp G a = ex gp G b -> a mod Q = b mod Q.
Proof.
  intros H. pose proof (vp_Qlo _ VP). pose proof (sub_G gp VP) as HG.
  assert (H1 : ex gp G (a - b) = 1).
  { unfold Z.sub. rewrite ex_add by assumption. rewrite H. apply ex_neg; assumption. }
  apply (q_modulo_eq gp VP).
  destruct (Z.eq_dec ((a - b) mod Q) 0) as [E|N]; [assumption|exfalso].
  destruct (inverse_mod_Q _ N) as [e He].
  pose proof (vp_Grng _ VP).
  pose proof (ex_root G (a - b) e HG ltac:(lia) He) as Hroot.
  rewrite H1 in Hroot. unfold ex in Hroot. rewrite Z.pow_1_l in Hroot.
  - rewrite one_mod_P in Hroot by assumption. lia.
  - pose proof (Z.mod_pos_bound e Q ltac:(lia)). lia.
Qed.

Lemma neq_mod a b : 0 <= a < Q -> 0 <= b < Q -> a <> b -> (a - b) mod Q <> 0.
Proof.
  intros Ha Hb N E. apply N. pose proof (q_modulo_eq gp VP _ _ E) as H.
  rewrite !Z.mod_small in H by lia. assumption.
Qed.

Lemma pow_ex x e : sub gp x -> 0 <= e < Q -> pow_mod_p gp x e = ex gp x e.
Proof. intros Hx He. pose proof (vp_Qhi _ VP). apply pow_mod_p_ex; [assumption..|lia]. Qed.

Ltac subs := solve [assumption | apply sub_G; assumption | lia].
Section Key.
Context (K : Z) (HK : sub gp K).

(** Two accepting equations with one commitment: the commitment cancels. *)
Lemma extract a x v w c v' w' c' :
  sub gp a -> sub gp x ->
  ex2 gp K v w = (a * ex gp x c) mod P ->
  ex2 gp K v' w' = (a * ex gp x c') mod P ->
  ex gp x (c - c') = ex2 gp K (v - v') (w - w').
Proof.
  intros Ha Hx E E'. pose proof (P_pos gp VP).
  rewrite <- (ex_mod_idem gp VP), <- (Z.mod_small (ex2 gp K (v - v') _) P) by (apply ex2_range, VP).
  apply (mul_cancel gp VP (ex2 gp K v' w')); [apply sub_ex2; assumption|].
  rewrite ex2_mul by assumption.
  replace (v' + (v - v')) with v by lia. replace (w' + (w - w')) with w by lia.
  rewrite E, E'. rewrite Zmult_mod_idemp_l.
  replace (a * ex gp x c' * ex gp x (c - c')) with (a * (ex gp x c' * ex gp x (c - c'))) by ring.
  rewrite <- Zmult_mod_idemp_r. rewrite <- ex_add by assumption.
  f_equal. f_equal. f_equal. lia.
Qed.

(** What an accepted proof says, equation by equation. *)
Lemma dproof_valid_elim sha p m q :
  dproof_valid gp sha p m K q = true ->
  (sub gp (ct_pad m) /\ 0 < ct_pad m < P) /\ (sub gp (ct_data m) /\ 0 < ct_data m < P) /\
  (sub gp (dp_a0 p) /\ 0 < dp_a0 p < P) /\ (sub gp (dp_b0 p) /\ 0 < dp_b0 p < P) /\
  (sub gp (dp_a1 p) /\ 0 < dp_a1 p < P) /\ (sub gp (dp_b1 p) /\ 0 < dp_b1 p < P) /\
  (0 < dp_c0 p < Q /\ 0 < dp_c1 p < Q /\ 0 < dp_v0 p < Q /\ 0 < dp_v1 p < Q) /\
  dp_c p = (dp_c0 p + dp_c1 p) mod Q /\
  dp_c p = dchallenge gp sha q m (dp_a0 p) (dp_b0 p) (dp_a1 p) (dp_b1 p) /\
  ex2 gp K (dp_v0 p) 0 = (dp_a0 p * ex gp (ct_pad m) (dp_c0 p)) mod P /\
  ex2 gp K (dp_v1 p) 0 = (dp_a1 p * ex gp (ct_pad m) (dp_c1 p)) mod P /\
  ex2 gp K 0 (dp_v0 p) = (dp_b0 p * ex gp (ct_data m) (dp_c0 p)) mod P /\
  ex2 gp K (dp_c1 p) (dp_v1 p) = (dp_b1 p * ex gp (ct_data m) (dp_c1 p)) mod P.
Proof.
  unfold dproof_valid, elem_eq. rewrite !andb_true_iff, !Z.eqb_eq, !in_bounds_q_spec.
  intros H. decompose [and] H; clear H.
  pose proof (vp_Qhi _ VP) as HQ.
  repeat match goal with H : valid_residue gp _ = true |- _ => apply (valid_sub gp VP) in H end.
  match goal with
  | H : add_mod_q gp _ _ = _ |- _ =>
      rewrite add_mod_q_correct in H by (assumption || unfold exp_ok; lia)
  end.
  repeat match goal with
  | H : context [pow_mod_p gp K ?e] |- _ => rewrite (k_pow_ex2 gp VP K HK e) in H by lia
  | H : context [g_pow_p gp ?e] |- _ => rewrite (g_pow_ex2 gp VP K e) in H by lia
  | H : context [pow_mod_p gp ?x ?e] |- _ => rewrite (pow_ex x e) in H by (tauto || lia)
  end.
  repeat match goal with
  | H : context [mul_mod_p gp (ex2 _ _ _ _) (ex2 _ _ _ _)] |- _ =>
      rewrite mul_mod_p_ex2, Z.add_0_l, Z.add_0_r in H by assumption
  end.
  unfold mul_mod_p in *.
  repeat (split; [first [assumption | tauto | congruence]|]).
  assumption.
Qed.

(** Special soundness of the disjunctive proof: two accepting transcripts with
    the same commitments and different challenges (produced under two hash
    oracles, as after rewinding) determine the nonce. *)
Lemma disjunctive_special_soundness sha sha' p p' m q :
  dproof_valid gp sha p m K q = true ->
  dproof_valid gp sha' p' m K q = true ->
  dp_a0 p = dp_a0 p' -> dp_b0 p = dp_b0 p' -> dp_a1 p = dp_a1 p' -> dp_b1 p = dp_b1 p' ->
  dp_c p <> dp_c p' ->
  exists r, 0 <= r < Q /\
    ((dp_c0 p <> dp_c0 p' /\ (r * (dp_c0 p - dp_c0 p')) mod Q = (dp_v0 p - dp_v0 p') mod Q /\
      ct_pad m = (G ^ r) mod P /\ ct_data m = (K ^ r) mod P) \/
     (dp_c1 p <> dp_c1 p' /\ (r * (dp_c1 p - dp_c1 p')) mod Q = (dp_v1 p - dp_v1 p') mod Q /\
      ct_pad m = (G ^ r) mod P /\ ct_data m = (G * K ^ r) mod P)).
Proof.
  intros H H' Ea0 Eb0 Ea1 Eb1 Nc.
  apply dproof_valid_elim in H. apply dproof_valid_elim in H'.
  destruct H as (Hal & Hbe & Ha0 & Hb0 & Ha1 & Hb1 & (B0 & B1 & B2 & B3) & Hc & _ & E1 & E2 & E3 & E4).
  destruct H' as (_ & _ & _ & _ & _ & _ & (B0' & B1' & B2' & B3') & Hc' & _ & E1' & E2' & E3' & E4').
  rewrite <- Ea0 in E1'. rewrite <- Ea1 in E2'. rewrite <- Eb0 in E3'. rewrite <- Eb1 in E4'.
  pose proof (vp_Qlo _ VP).
  assert (Fin : forall c c' v v' j,
    0 < c < Q -> 0 < c' < Q -> c <> c' ->
    ex gp (ct_pad m) (c - c') = ex2 gp K (v - v') 0 ->
    ex gp (ct_data m) (c - c') = ex2 gp K (j * (c - c')) (v - v') ->
    exists r, 0 <= r < Q /\ (r * (c - c')) mod Q = (v - v') mod Q /\
              ct_pad m = ex2 gp K r 0 /\ ct_data m = ex2 gp K j r).
  { clear - Hal Hbe HK VP. intros c c' v v' j Hc Hc' N F1 F2.
    destruct (inverse_mod_Q (c - c')) as [e He].
    { apply neq_mod; lia || assumption. }
    exists (((v - v') * e) mod Q). pose proof (vp_Qlo _ VP).
    split; [apply Z.mod_pos_bound; lia|]. split; [|split].
    - rewrite Zmult_mod_idemp_l.
      replace ((v - v') * e * (c - c')) with ((v - v') * ((c - c') * e)) by ring.
      rewrite <- Zmult_mod_idemp_r, He. f_equal. ring.
    - rewrite <- (ex_root (ct_pad m) (c - c') e) by (tauto || lia).
      rewrite F1, ex2_ex by assumption. apply ex2_congr.
      + rewrite Z.mod_mod by lia. reflexivity.
      + reflexivity.
    - rewrite <- (ex_root (ct_data m) (c - c') e) by (tauto || lia).
      rewrite F2, ex2_ex by assumption. apply ex2_congr.
      + replace (j * (c - c') * e) with (j * ((c - c') * e)) by ring.
        rewrite <- Zmult_mod_idemp_r, He. f_equal. ring.
      + rewrite Z.mod_mod by lia. reflexivity. }
  assert (Out : forall r, 0 <= r < Q -> ex2 gp K r 0 = (G ^ r) mod P /\
     ex2 gp K 0 r = (K ^ r) mod P /\ ex2 gp K 1 r = (G * K ^ r) mod P).
  { clear - HK VP. intros r Hr. pose proof (vp_Qlo _ VP). unfold ex2.
    rewrite !ex_0, Z.mul_1_l, Z.mul_1_r, !ex_mod_idem by assumption.
    rewrite ex_1 by subs.
    rewrite !ex_nonneg by subs.
    rewrite <- Zmult_mod. auto. }
  destruct (Z.eq_dec (dp_c0 p) (dp_c0 p')) as [C0|C0].
  - assert (C1 : dp_c1 p <> dp_c1 p') by (intros C1; apply Nc; rewrite Hc, Hc', C0, C1; reflexivity).
    destruct (Fin (dp_c1 p) (dp_c1 p') (dp_v1 p) (dp_v1 p') 1 B1 B1' C1) as (r & Hr & Er & F1 & F2).
    + rewrite (extract (dp_a1 p) (ct_pad m) _ _ _ _ _ _ (proj1 Ha1) (proj1 Hal) E2 E2'). f_equal.
    + rewrite (extract (dp_b1 p) (ct_data m) _ _ _ _ _ _ (proj1 Hb1) (proj1 Hbe) E4 E4').
      f_equal. ring.
    + exists r. split; [assumption|]. right. destruct (Out r Hr) as (O1 & O2 & O3).
      rewrite <- O1, <- O3. auto.
  - destruct (Fin (dp_c0 p) (dp_c0 p') (dp_v0 p) (dp_v0 p') 0 B0 B0' C0) as (r & Hr & Er & F1 & F2).
    + rewrite (extract (dp_a0 p) (ct_pad m) _ _ _ _ _ _ (proj1 Ha0) (proj1 Hal) E1 E1'). f_equal.
    + rewrite (extract (dp_b0 p) (ct_data m) _ _ _ _ _ _ (proj1 Hb0) (proj1 Hbe) E3 E3').
      f_equal.
    + exists r. split; [assumption|]. left. destruct (Out r Hr) as (O1 & O2 & O3).
      rewrite <- O1, <- O2. auto.
Qed.

Lemma cproof_valid_elim sha p m q :
  cproof_valid gp sha p m K q = Ok true -> 0 <= cp_const p ->
  (sub gp (ct_pad m) /\ 0 < ct_pad m < P) /\ (sub gp (ct_data m) /\ 0 < ct_data m < P) /\
  (sub gp (cp_a p) /\ 0 < cp_a p < P) /\ (sub gp (cp_b p) /\ 0 < cp_b p < P) /\
  (0 < cp_c p < Q /\ 0 < cp_v p < Q /\ cp_const p <= Q) /\
  cp_c p = cchallenge gp sha q m (cp_a p) (cp_b p) /\
  ex2 gp K (cp_v p) 0 = (cp_a p * ex gp (ct_pad m) (cp_c p)) mod P /\
  ex2 gp K (cp_c p * cp_const p) (cp_v p) = (cp_b p * ex gp (ct_data m) (cp_c p)) mod P.
Proof.
  unfold cproof_valid, from_uint64_q, make_q. cbn [Nat.ltb Nat.leb negb andb].
  intros H HL. destruct (Z.ltb_spec Q (cp_const p)) as [|HLQ]; [discriminate|].
  cbn [bind] in H. injection H as H.
  revert H. unfold elem_eq. rewrite !andb_true_iff, !Z.eqb_eq, !in_bounds_q_spec.
  intros H. decompose [and] H; clear H.
  pose proof (vp_Qhi _ VP) as HQ.
  repeat match goal with H : valid_residue gp _ = true |- _ => apply (valid_sub gp VP) in H end.
  destruct (prod_exponent_small gp VP (cp_c p) (cp_const p)) as [Ecl Hcl]; [lia|lia|].
  rewrite Ecl in *. rewrite pow_mod_p_p_correct in * by assumption.
  rewrite <- (ex_nonneg gp VP G) in * by subs.
  replace (ex gp G (cp_c p * cp_const p)) with (ex2 gp K (cp_c p * cp_const p) 0) in *.
  2:{ unfold ex2. rewrite ex_0 by assumption. rewrite Z.mul_1_r. apply ex_mod_idem, VP. }
  repeat match goal with
  | H : context [pow_mod_p gp K ?e] |- _ => rewrite (k_pow_ex2 gp VP K HK e) in H by lia
  | H : context [g_pow_p gp ?e] |- _ => rewrite (g_pow_ex2 gp VP K e) in H by lia
  | H : context [pow_mod_p gp ?x ?e] |- _ => rewrite (pow_ex x e) in H by (tauto || lia)
  end.
  repeat match goal with
  | H : context [mul_mod_p gp (ex2 _ _ _ _) (ex2 _ _ _ _)] |- _ =>
      rewrite mul_mod_p_ex2, Z.add_0_l, Z.add_0_r in H by assumption
  end.
  unfold mul_mod_p in *.
  repeat (split; [first [assumption | tauto | congruence]|]).
  assumption.
Qed.

Lemma constant_special_soundness sha sha' p p' m q :
  cproof_valid gp sha p m K q = Ok true ->
  cproof_valid gp sha' p' m K q = Ok true ->
  0 <= cp_const p ->
  cp_const p = cp_const p' -> cp_a p = cp_a p' -> cp_b p = cp_b p' ->
  cp_c p <> cp_c p' ->
  exists r, 0 <= r < Q /\ (r * (cp_c p - cp_c p')) mod Q = (cp_v p - cp_v p') mod Q /\
    ct_pad m = (G ^ r) mod P /\ ct_data m = (G ^ cp_const p * K ^ r) mod P.
Proof.
  intros H H' HL EL Ea Eb Nc.
  apply cproof_valid_elim in H; [|assumption]. apply cproof_valid_elim in H'; [|lia].
  destruct H as (Hal & Hbe & Ha & Hb & (B0 & B1 & B2) & _ & E1 & E2).
  destruct H' as (_ & _ & _ & _ & (B0' & B1' & _) & _ & E1' & E2').
  rewrite <- Ea in E1'. rewrite <- Eb, <- EL in E2'.
  pose proof (vp_Qlo _ VP).
  pose proof (extract (cp_a p) (ct_pad m) _ _ _ _ _ _ (proj1 Ha) (proj1 Hal) E1 E1') as F1.
  pose proof (extract (cp_b p) (ct_data m) _ _ _ _ _ _ (proj1 Hb) (proj1 Hbe) E2 E2') as F2.
  clear E1 E2 E1' E2'.
  destruct (inverse_mod_Q (cp_c p - cp_c p')) as [e He].
  { apply neq_mod; lia || assumption. }
  set (r := ((cp_v p - cp_v p') * e) mod Q).
  assert (Hr : 0 <= r < Q) by (apply Z.mod_pos_bound; lia).
  exists r. split; [assumption|]. split; [|split].
  - unfold r. rewrite Zmult_mod_idemp_l.
    replace ((cp_v p - cp_v p') * e * (cp_c p - cp_c p'))
      with ((cp_v p - cp_v p') * ((cp_c p - cp_c p') * e)) by ring.
    rewrite <- Zmult_mod_idemp_r, He. f_equal. ring.
  - rewrite <- (ex_nonneg gp VP) by subs.
    rewrite <- (ex_root (ct_pad m) (cp_c p - cp_c p') e) by (tauto || lia).
    rewrite F1, ex2_ex by assumption.
    transitivity (ex2 gp K r 0).
    + apply ex2_congr; [unfold r; rewrite Z.mod_mod by lia; reflexivity|reflexivity].
    + unfold ex2. rewrite ex_0 by assumption. rewrite Z.mul_1_r. apply ex_mod_idem, VP.
  - rewrite Zmult_mod. rewrite <- !(ex_nonneg gp VP) by subs.
    fold (ex2 gp K (cp_const p) r).
    rewrite <- (ex_root (ct_data m) (cp_c p - cp_c p') e) by (tauto || lia).
    rewrite F2, ex2_ex by assumption. apply ex2_congr.
    + replace ((cp_c p * cp_const p - cp_c p' * cp_const p) * e)
        with (cp_const p * ((cp_c p - cp_c p') * e)) by ring.
      rewrite <- Zmult_mod_idemp_r, He. f_equal. ring.
    + unfold r. rewrite Z.mod_mod by lia. reflexivity.
Qed.

(** Uniqueness: the scalars determine the commitments ... *)
Lemma left_unique a a' x c : sub gp x -> 0 < a < P -> 0 < a' < P ->
  (a * ex gp x c) mod P = (a' * ex gp x c) mod P -> a = a'.
Proof.
  intros Hx Ha Ha' E. rewrite (Z.mul_comm a), (Z.mul_comm a') in E.
  apply (mul_cancel gp VP) in E; [|apply sub_ex; assumption].
  rewrite !Z.mod_small in E by lia. assumption.
Qed.

Lemma dproof_scalars_determine sha p p' m q :
  dproof_valid gp sha p m K q = true -> dproof_valid gp sha p' m K q = true ->
  dp_c0 p = dp_c0 p' -> dp_c1 p = dp_c1 p' -> dp_v0 p = dp_v0 p' -> dp_v1 p = dp_v1 p' ->
  p = p'.
Proof.
  intros H H' C0 C1 V0 V1.
  apply dproof_valid_elim in H. apply dproof_valid_elim in H'.
  destruct H as (Hal & Hbe & Ha0 & Hb0 & Ha1 & Hb1 & _ & Hc & _ & E1 & E2 & E3 & E4).
  destruct H' as (_ & _ & Ha0' & Hb0' & Ha1' & Hb1' & _ & Hc' & _ & E1' & E2' & E3' & E4').
  rewrite V0, C0 in *. rewrite V1, C1 in *.
  assert (dp_a0 p = dp_a0 p') by (apply (left_unique _ _ (ct_pad m) (dp_c0 p')); try tauto; congruence).
  assert (dp_a1 p = dp_a1 p') by (apply (left_unique _ _ (ct_pad m) (dp_c1 p')); try tauto; congruence).
  assert (dp_b0 p = dp_b0 p') by (apply (left_unique _ _ (ct_data m) (dp_c0 p')); try tauto; congruence).
  assert (dp_b1 p = dp_b1 p') by (apply (left_unique _ _ (ct_data m) (dp_c1 p')); try tauto; congruence).
  destruct p, p'. cbn in *. congruence.
Qed.

(** ... and the commitments with one challenge share determine the rest. *)
Lemma dproof_commitments_determine sha p p' m q :
  dproof_valid gp sha p m K q = true -> dproof_valid gp sha p' m K q = true ->
  dp_a0 p = dp_a0 p' -> dp_b0 p = dp_b0 p' -> dp_a1 p = dp_a1 p' -> dp_b1 p = dp_b1 p' ->
  dp_c0 p = dp_c0 p' \/ dp_c1 p = dp_c1 p' ->
  p = p'.
Proof.
  intros H H' A0 B0 A1 B1 C.
  apply dproof_valid_elim in H. apply dproof_valid_elim in H'.
  destruct H as (Hal & Hbe & Ha0 & Hb0 & Ha1 & Hb1 & (R0 & R1 & R2 & R3) & Hc & Hh & E1 & E2 & E3 & E4).
  destruct H' as (_ & _ & Ha0' & Hb0' & Ha1' & Hb1' & (R0' & R1' & R2' & R3') & Hc' & Hh' & E1' & E2' & E3' & E4').
  rewrite <- A0, <- B0, <- A1, <- B1 in *.
  assert (Ec : dp_c p = dp_c p') by congruence.
  assert (Esum : (dp_c0 p + dp_c1 p) mod Q = (dp_c0 p' + dp_c1 p') mod Q) by congruence.
  assert (Hdiff : (dp_c0 p + dp_c1 p - (dp_c0 p' + dp_c1 p')) mod Q = 0).
  { rewrite Zminus_mod, Esum, Z.sub_diag. apply Z.mod_0_l.
    pose proof (vp_Qlo _ VP) as HQlo. clear - HQlo. lia. }
  assert (CC : dp_c0 p = dp_c0 p' /\ dp_c1 p = dp_c1 p').
  { clear - C Hdiff R0 R1 R0' R1' VP. destruct C as [C|C]; (split; [|]); try assumption.
    - replace (dp_c0 p + dp_c1 p - (dp_c0 p' + dp_c1 p')) with (dp_c1 p - dp_c1 p') in Hdiff by lia.
      apply (q_modulo_eq gp VP) in Hdiff. rewrite !Z.mod_small in Hdiff by lia. assumption.
    - replace (dp_c0 p + dp_c1 p - (dp_c0 p' + dp_c1 p')) with (dp_c0 p - dp_c0 p') in Hdiff by lia.
      apply (q_modulo_eq gp VP) in Hdiff. rewrite !Z.mod_small in Hdiff by lia. assumption. }
  destruct CC as [C0 C1]. rewrite <- C0 in E1'. rewrite <- C1 in E2'.
  assert (V : forall v v', 0 < v < Q -> 0 < v' < Q -> ex2 gp K v 0 = ex2 gp K v' 0 -> v = v').
  { clear - HK VP PP. intros v v' Hv Hv' E. unfold ex2 in E.
    rewrite !ex_0, !Z.mul_1_r, !ex_mod_idem in E by assumption.
    apply ex_G_inj in E. rewrite !Z.mod_small in E by lia. assumption. }
  assert (V0 : dp_v0 p = dp_v0 p') by (apply V; congruence).
  assert (V1 : dp_v1 p = dp_v1 p') by (apply V; congruence).
  destruct p, p'. cbn in *. congruence.
Qed.

(** The plaintext of an exponential encryption is unique modulo Q. *)
Lemma enc_exp_inj_plain m r m' r' s :
  0 <= s < W256 -> K = g_pow_p gp s ->
  enc_exp gp K (m, r) = enc_exp gp K (m', r') -> m mod Q = m' mod Q /\ r mod Q = r' mod Q.
Proof.
  intros Hs EK H. unfold enc_exp in H. cbn [fst snd] in H. injection H as H1 H2.
  assert (Hr : r mod Q = r' mod Q).
  { unfold ex2 in H1. rewrite !ex_0, !Z.mul_1_r, !ex_mod_idem in H1 by assumption.
    apply ex_G_inj. assumption. }
  split; [|assumption].
  rewrite EK in H2. rewrite !(ex2_key gp VP) in H2 by assumption.
  apply ex_G_inj in H2. apply (q_modulo_eq gp VP).
  destruct (mod_eq_diff gp VP _ _ Hr) as [k Hk]. destruct (mod_eq_diff gp VP _ _ H2) as [j Hj].
  replace (m - m') with ((j - s * k) * Q) by (rewrite Hk in Hj; clear - Hj; lia).
  apply Z.mod_mul. pose proof (vp_Qlo _ VP). lia.
Qed.

End Key.
End Sound.
