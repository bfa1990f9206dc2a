(** Proofs about GroupModel.v. *)
From Coq Require Import Znumtheory Zpow_facts Permutation Psatz.
From Coq Require Import ZifyBool.
From Verif Require Import Base GroupModel GroupSpec.
Open Scope Z_scope.

Ltac Zify.zify_post_hook ::= Z.div_mod_to_equations.

(** ** Opaque word sizes: only positivity and sizes are needed. *)
Lemma W256_pos : 0 < W256. Proof. reflexivity. Qed.
Lemma W4096_pos : 0 < W4096. Proof. reflexivity. Qed.
Lemma W512_pos : 0 < W512. Proof. reflexivity. Qed.
Lemma W64_pos : 0 < W64. Proof. reflexivity. Qed.
Lemma W256_lt_W512 : W256 < W512. Proof. reflexivity. Qed.
Lemma W256_lt_W4096 : W256 < W4096. Proof. reflexivity. Qed.
Lemma W512_lt_W4096 : W512 < W4096. Proof. reflexivity. Qed.
Lemma W64_lt_W256 : W64 < W256. Proof. reflexivity. Qed.

Global Opaque W256 W4096 W512 W64.

(** ** powmod *)
Lemma powmod_pos_spec b e m : m <> 0 -> powmod_pos b e m = (b ^ Zpos e) mod m.
Proof.
  intros Hm. induction e as [e IH|e IH|]; cbn [powmod_pos].
  - rewrite IH. rewrite Pos2Z.inj_xI.
    rewrite Z.pow_add_r by lia. rewrite Z.pow_1_r.
    replace (2 * Z.pos e) with (Z.pos e + Z.pos e) by lia.
    rewrite Z.pow_add_r by lia.
    rewrite <- Zmult_mod. rewrite Zmult_mod_idemp_l. reflexivity.
  - rewrite IH. rewrite Pos2Z.inj_xO.
    replace (2 * Z.pos e) with (Z.pos e + Z.pos e) by lia.
    rewrite Z.pow_add_r by lia.
    rewrite <- Zmult_mod. reflexivity.
  - rewrite Z.pow_1_r. reflexivity.
Qed.

Lemma powmod_spec b e m : m <> 0 -> 0 <= e -> powmod b e m = (b ^ e) mod m.
Proof.
  intros Hm He. destruct e as [|p|p]; cbn [powmod].
  - rewrite Z.pow_0_r. reflexivity.
  - apply powmod_pos_spec; assumption.
  - lia.
Qed.

Section Proofs.
Context (gp : params) (VP : valid_params gp).

Lemma P_gt_Q : gpQ gp < gpP gp.
Proof. rewrite (vp_PQR _ VP). pose proof (vp_QR _ VP). pose proof (vp_Qlo _ VP). nia. Qed.
Lemma P_pos : 3 < gpP gp.
Proof. pose proof P_gt_Q. pose proof (vp_Qlo _ VP). lia. Qed.
Lemma Q_pos : 0 < gpQ gp. Proof. pose proof (vp_Qlo _ VP). lia. Qed.

(** *** Exponent addition *)
Lemma bn_add_nocarry W a b :
  0 < W -> 0 <= a -> 0 <= b -> a + b < W -> bn_add W a b = (a + b, 0).
Proof.
  intros. unfold bn_add. rewrite Z.mod_small, Z.div_small by lia. reflexivity.
Qed.
Lemma bn_add_carry W a b :
  0 < W -> W <= a + b < 2 * W -> bn_add W a b = (a + b - W, 1).
Proof.
  intros HW H. unfold bn_add. f_equal.
  - symmetry. apply Z.mod_unique with (q := 1); lia.
  - symmetry. apply Z.div_unique with (r := a + b - W); lia.
Qed.

Lemma mod_sub_self a m : m <> 0 -> (a - m) mod m = a mod m.
Proof.
  intros. replace (a - m) with (a + (-1) * m) by lia. apply Z.mod_add; assumption.
Qed.

Lemma add_mod_q_correct a b :
  exp_ok gp a -> exp_ok gp b -> add_mod_q gp a b = (a + b) mod gpQ gp.
Proof.
  intros [Ha Ha'] [Hb Hb']. pose proof W256_pos. pose proof (vp_Qhi _ VP). pose proof Q_pos.
  pose proof (vp_Qoff _ VP) as Hoff. pose proof (vp_Qlo _ VP).
  unfold add_mod_q, isMax.
  assert (Hba : (gpQ gp <? a) = false) by lia.
  assert (Hbb : (gpQ gp <? b) = false) by lia.
  rewrite Hba, Hbb. cbn [orb].
  destruct (Z_lt_dec (a + b) W256) as [Hlt|Hge].
  - rewrite bn_add_nocarry by lia. cbn [Z.ltb orb].
    replace (0 <? 0) with false by reflexivity. cbn [orb].
    destruct (a + b =? W256 - 1) eqn:E.
    + apply Z.eqb_eq in E. rewrite E, Hoff.
      rewrite bn_add_carry by lia. cbn [fst].
      replace (W256 - 1 + (W256 - gpQ gp) - W256) with (W256 - 1 - gpQ gp) by lia.
      apply mod_sub_self; lia.
    + reflexivity.
  - rewrite bn_add_carry by lia.
    replace (0 <? 1) with true by reflexivity. cbn [orb].
    rewrite Hoff. rewrite bn_add_nocarry by lia. cbn [fst].
    replace (a + b - W256 + (W256 - gpQ gp)) with (a + b - gpQ gp) by lia.
    apply mod_sub_self; lia.
Qed.

Lemma add_mod_q_range a b : 0 <= add_mod_q gp a b < gpQ gp.
Proof.
  unfold add_mod_q. destruct (bn_add W256 a b). apply Z.mod_pos_bound, Q_pos.
Qed.

Lemma fold_add_mod_q l acc :
  Forall (exp_ok gp) l -> exp_ok gp acc ->
  fold_left (add_mod_q gp) l acc mod gpQ gp = (acc + zsum l) mod gpQ gp /\
  exp_ok gp (fold_left (add_mod_q gp) l acc) /\
  (l <> [] -> fold_left (add_mod_q gp) l acc < gpQ gp).
Proof.
  revert acc. induction l as [|x l IH]; intros acc Hl Hacc; cbn [fold_left zsum fold_right].
  - rewrite Z.add_0_r. repeat split; try apply Hacc; congruence.
  - inversion Hl as [|? ? Hx Hl']; subst.
    pose proof (add_mod_q_range acc x) as Hr.
    assert (Hok : exp_ok gp (add_mod_q gp acc x)) by (unfold exp_ok; lia).
    destruct (IH _ Hl' Hok) as (IH1 & IH2 & IH3).
    split; [|split].
    + rewrite IH1, add_mod_q_correct by assumption.
      fold (zsum l). rewrite Zplus_mod_idemp_l. f_equal. lia.
    + exact IH2.
    + intros _. destruct l as [|y l'].
      * cbn [fold_left]. lia.
      * apply IH3. discriminate.
Qed.

Lemma add_mod_q_list_correct l :
  Forall (exp_ok gp) l -> l <> [] -> add_mod_q_list gp l = Ok (zsum l mod gpQ gp).
Proof.
  intros Hl Hne.
  destruct (fold_add_mod_q l 0 Hl) as (H1 & H2 & H3).
  { unfold exp_ok. pose proof Q_pos. lia. }
  specialize (H3 Hne). unfold exp_ok in H2.
  rewrite Z.mod_small in H1 by lia. rewrite Z.add_0_l in H1.
  unfold add_mod_q_list. destruct l; [congruence|]. rewrite H1. reflexivity.
Qed.

Lemma zsum_perm l l' : Permutation l l' -> zsum l = zsum l'.
Proof. unfold zsum. induction 1; cbn [fold_right]; lia. Qed.

Lemma Forall_perm {A} (Pr : A -> Prop) l l' : Permutation l l' -> Forall Pr l -> Forall Pr l'.
Proof. intros HP HF. rewrite Forall_forall in *. intros x Hx.
  apply HF. eapply Permutation_in; [symmetry; exact HP|exact Hx]. Qed.

Lemma add_mod_q_list_perm l l' :
  Forall (exp_ok gp) l -> Permutation l l' -> add_mod_q_list gp l = add_mod_q_list gp l'.
Proof.
  intros Hl HP. destruct l as [|x l].
  - apply Permutation_nil in HP. subst. reflexivity.
  - rewrite add_mod_q_list_correct; [|assumption|discriminate].
    rewrite add_mod_q_list_correct.
    + rewrite (zsum_perm _ _ HP). reflexivity.
    + eapply Forall_perm; eassumption.
    + intros ->. apply Permutation_sym, Permutation_nil in HP. discriminate.
Qed.

(** *** Exponent subtraction *)
Lemma bn_sub_noborrow W a b : 0 <= b <= a -> a < W -> bn_sub W a b = (a - b, 0).
Proof.
  intros. unfold bn_sub. rewrite Z.mod_small by lia.
  destruct (a <? b) eqn:E; [lia|reflexivity].
Qed.
Lemma bn_sub_borrow W a b : 0 <= a < b -> b <= W -> bn_sub W a b = (a - b + W, 1).
Proof.
  intros. unfold bn_sub. f_equal.
  - symmetry. apply Z.mod_unique with (q := -1); lia.
  - destruct (a <? b) eqn:E; [reflexivity|lia].
Qed.

Lemma sub_mod_q_correct a b :
  exp_ok gp a -> exp_ok gp b -> sub_mod_q gp a b = (a - b) mod gpQ gp.
Proof.
  intros [Ha Ha'] [Hb Hb']. pose proof W256_pos. pose proof (vp_Qhi _ VP). pose proof Q_pos.
  pose proof (vp_Qoff _ VP) as Hoff. pose proof (vp_Qlo _ VP).
  unfold sub_mod_q.
  assert (Hba : (gpQ gp <? a) = false) by lia.
  assert (Hbb : (gpQ gp <? b) = false) by lia.
  rewrite Hba, Hbb. cbn [orb].
  destruct (Z_lt_dec a b) as [Hlt|Hge].
  - rewrite bn_sub_borrow by lia. replace (0 <? 1) with true by reflexivity.
    rewrite Hoff, bn_sub_noborrow by lia. cbn [fst].
    replace (a - b + W256 - (W256 - gpQ gp)) with (a - b + 1 * gpQ gp) by lia.
    apply Z.mod_add. lia.
  - rewrite bn_sub_noborrow by lia. reflexivity.
Qed.

Lemma sub_mod_q_range a b : 0 <= sub_mod_q gp a b < gpQ gp.
Proof. unfold sub_mod_q. destruct (bn_sub W256 a b). apply Z.mod_pos_bound, Q_pos. Qed.

Lemma a_plus_bc_mod_q_correct a b c :
  0 <= a < W256 ->
  a_plus_bc_mod_q gp a b c = Ok ((a + b * c) mod gpQ gp).
Proof.
  intros Ha. pose proof Q_pos. pose proof (vp_Qlo _ VP). pose proof (vp_Qhi _ VP).
  pose proof W256_pos.
  unfold a_plus_bc_mod_q.
  assert (He : Z.even (gpQ gp) = false).
  { rewrite <- Z.negb_odd, (vp_Qodd _ VP). reflexivity. }
  rewrite He. assert (Hq : (gpQ gp <=? 1) = false) by lia. rewrite Hq. cbn [orb].
  unfold bn_add. f_equal.
  replace ((a + (b * c) mod gpQ gp) mod W256 + W256 * ((a + (b * c) mod gpQ gp) / W256))
    with (a + (b * c) mod gpQ gp).
  2:{ pose proof (Z.div_mod (a + (b * c) mod gpQ gp) W256 ltac:(lia)) as E. lia. }
  rewrite Zplus_mod_idemp_r. reflexivity.
Qed.

Lemma sub_from_q_correct a :
  exp_ok gp a -> sub_from_q gp a = gpQ gp - a.
Proof.
  intros [Ha Hb]. unfold sub_from_q. pose proof (vp_Qhi _ VP).
  rewrite bn_sub_noborrow by lia. reflexivity.
Qed.

(** *** Multiplication *)
Lemma mul_mod_p_range a b : 0 <= mul_mod_p gp a b < gpP gp.
Proof. apply Z.mod_pos_bound. pose proof P_pos; lia. Qed.

Lemma fold_mul_mod_p l acc :
  fold_left (mul_mod_p gp) l acc mod gpP gp = (acc * zprod l) mod gpP gp.
Proof.
  revert acc. induction l as [|x l IH]; intros acc; cbn [fold_left zprod fold_right].
  - rewrite Z.mul_1_r. reflexivity.
  - rewrite IH. unfold mul_mod_p at 1. fold (zprod l).
    rewrite Zmult_mod_idemp_l. f_equal. lia.
Qed.

Lemma fold_mul_mod_p_range l acc :
  0 <= acc < gpP gp -> 0 <= fold_left (mul_mod_p gp) l acc < gpP gp.
Proof.
  revert acc. induction l as [|x l IH]; intros acc Hacc; cbn [fold_left]; [assumption|].
  apply IH, mul_mod_p_range.
Qed.

Lemma mul_mod_p_list_correct l : mul_mod_p_list gp l = zprod l mod gpP gp.
Proof.
  unfold mul_mod_p_list. pose proof P_pos.
  rewrite <- (Z.mod_small (fold_left _ _ _) (gpP gp)) by (apply fold_mul_mod_p_range; lia).
  rewrite fold_mul_mod_p, Z.mul_1_l. reflexivity.
Qed.

Lemma zprod_perm l l' : Permutation l l' -> zprod l = zprod l'.
Proof. unfold zprod. induction 1; cbn [fold_right]; nia. Qed.

Lemma mul_mod_p_list_perm l l' :
  Permutation l l' -> mul_mod_p_list gp l = mul_mod_p_list gp l'.
Proof. intros HP. rewrite !mul_mod_p_list_correct, (zprod_perm _ _ HP). reflexivity. Qed.

(** *** Exponentiation *)
Lemma pow_mod_p_p_correct b e :
  0 <= e < W512 -> pow_mod_p_p gp b e = (b ^ e) mod gpP gp.
Proof.
  intros He. unfold pow_mod_p_p. pose proof P_pos.
  destruct (e =? 0) eqn:E.
  - apply Z.eqb_eq in E. subst. rewrite Z.pow_0_r, Z.mod_1_l by lia. reflexivity.
  - rewrite (Z.mod_small e) by lia. apply powmod_spec; lia.
Qed.

Lemma pow_mod_p_correct b e :
  0 <= e < W256 -> pow_mod_p gp b e = (b ^ e) mod gpP gp.
Proof.
  intros He. pose proof W256_lt_W512. unfold pow_mod_p.
  destruct (e =? 0) eqn:E.
  - apply Z.eqb_eq in E. subst. pose proof P_pos.
    rewrite Z.pow_0_r, Z.mod_1_l by lia. reflexivity.
  - apply pow_mod_p_p_correct; lia.
Qed.

Lemma pow_mod_p_range b e : 0 <= e < W256 -> 0 <= pow_mod_p gp b e < gpP gp.
Proof. intros He. rewrite pow_mod_p_correct by assumption.
  apply Z.mod_pos_bound. pose proof P_pos; lia. Qed.

Lemma g_pow_p_correct e : 0 <= e < W256 -> g_pow_p gp e = (gpG gp ^ e) mod gpP gp.
Proof. apply pow_mod_p_correct. Qed.

(** What the truncation to 512 bits really computes. *)
Lemma pow_mod_p_p_actual b e :
  0 <= e < W4096 -> pow_mod_p_p gp b e = (b ^ (e mod W512)) mod gpP gp.
Proof.
  intros He. unfold pow_mod_p_p. pose proof P_pos. pose proof W512_pos.
  destruct (e =? 0) eqn:E.
  - apply Z.eqb_eq in E. subst. rewrite Z.mod_0_l by lia.
    rewrite Z.pow_0_r, Z.mod_1_l by lia. reflexivity.
  - apply powmod_spec; [lia|]. apply Z.mod_pos_bound. lia.
Qed.

(** *** add_mod_p below the carry *)
Lemma add_mod_p_nocarry a b :
  0 <= a -> 0 <= b -> a + b < W4096 - 1 -> add_mod_p gp a b = Ok ((a + b) mod gpP gp).
Proof.
  intros. unfold add_mod_p, isMax. pose proof W4096_pos.
  rewrite bn_add_nocarry by lia.
  replace (0 <? 0) with false by reflexivity. cbn [orb].
  destruct (a + b =? W4096 - 1) eqn:E; [lia|reflexivity].
Qed.

Lemma add_mod_p_ub a b :
  0 <= a <= gpP gp -> 0 <= b <= gpP gp -> W4096 - 1 <= a + b -> add_mod_p gp a b = UB.
Proof.
  intros Ha Hb Hs. unfold add_mod_p, isMax. pose proof W4096_pos.
  pose proof (vp_Phi _ VP).
  assert (H1 : (gpP gp <? a) = false) by lia.
  assert (H2 : (gpP gp <? b) = false) by lia.
  rewrite H1, H2. cbn [orb].
  destruct (Z_lt_dec (a + b) W4096) as [Hlt|Hge].
  - rewrite bn_add_nocarry by lia.
    assert (E : (a + b =? W4096 - 1) = true) by lia. rewrite E, orb_true_r. reflexivity.
  - rewrite bn_add_carry by lia. replace (0 <? 1) with true by reflexivity. reflexivity.
Qed.

(** *** Bounds and residues *)
Lemma in_bounds_p_spec a : in_bounds_p gp a = true <-> 0 < a < gpP gp.
Proof. unfold in_bounds_p. lia. Qed.
Lemma in_bounds_q_spec a : in_bounds_q gp a = true <-> 0 < a < gpQ gp.
Proof. unfold in_bounds_q. lia. Qed.

Lemma valid_residue_spec a :
  valid_residue gp a = true <-> 0 < a < gpP gp /\ (a ^ gpQ gp) mod gpP gp = 1.
Proof.
  unfold valid_residue. rewrite andb_true_iff, in_bounds_p_spec, Z.eqb_eq.
  rewrite pow_mod_p_correct by (pose proof (vp_Qhi _ VP); pose proof Q_pos; lia). tauto.
Qed.

End Proofs.
