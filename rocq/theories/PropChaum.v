(** Properties C27-C33: Chaum-Pedersen proofs. *)
From Coq Require Import Znumtheory Permutation Psatz.
From Verif Require Import Base GroupModel GroupSpec GroupProofs HashModel Algebra ElgamalModel
  ElgamalSpec ElgamalProofs ChaumModel ChaumProofs SoundProofs TallyProofs HashedProofs ProofSpec ProofSpecProofs
  ZkSpec ZkProofs TestParams.
Open Scope Z_scope.
Ltac Zify.zify_post_hook ::= idtac.
Notation tp := test_params.

Definition scalars_nonzero (p : dproof) : Prop :=
  dp_c0 p <> 0 /\ dp_c1 p <> 0 /\ dp_v0 p <> 0 /\ dp_v1 p <> 0.

Lemma valid_nonzero gp sha p m K q :
  valid_params gp -> dproof_valid gp sha p m K q = true -> scalars_nonzero p.
Proof.
  intros V H. apply (dproof_valid_spec gp V) in H.
  destruct H as (_ & _ & _ & _ & _ & _ & H1 & H2 & H3 & H4 & _).
  repeat split; clear - H1 H2 H3 H4; lia.
Qed.
Lemma spec_enc_enc gp K m r : valid_params gp -> spec_subgroup gp K -> 0 <= m -> 0 <= r ->
  spec_enc gp K m r = enc_exp gp K (m, r).
Proof. intros V HK Hm Hr. symmetry. apply (enc_exp_spec gp V); [apply HK|assumption..]. Qed.

(** * C27: honest proofs verify exactly when no scalar happens to be zero *)
Theorem C27_random gp sha K q r v u1 u2 u3 p :
  valid_params gp -> spec_subgroup gp K -> 0 <= r < 2 ^ 256 -> v = 0 \/ v = 1 ->
  0 <= u1 < gpQ gp -> 0 <= u2 < gpQ gp -> 0 <= u3 < gpQ gp ->
  dproof_make_rand gp sha (spec_enc gp K v r) r K q v u1 u2 u3 = Ok p ->
  (dproof_valid gp sha p (spec_enc gp K v r) K q = true <-> scalars_nonzero p).
Proof.
  intros V HK Hr Hv H1 H2 H3 HM. split; [apply valid_nonzero, V|]. intros HN.
  assert (Hr0 : 0 <= r) by (clear - Hr; lia).
  destruct Hv as [-> | ->]; cbn in HM; rewrite (spec_enc_enc gp K _ r V HK) in * by (assumption || discriminate || reflexivity).
  - exact (make_zero_rand_valid gp V sha K q r u1 u2 u3 p _ (proj2 HK) Hr H1 H2 H3 eq_refl HM HN).
  - exact (make_one_rand_valid gp V sha K q r u1 u2 u3 p _ (proj2 HK) Hr H1 H2 H3 eq_refl HM HN).
Qed.
Theorem C27_seeded gp sha K q r v seed p :
  valid_params gp -> spec_subgroup gp K -> 0 <= r < 2 ^ 256 -> v = 0 \/ v = 1 ->
  dproof_make_seed gp sha (spec_enc gp K v r) r K q seed v = Ok p ->
  (dproof_valid gp sha p (spec_enc gp K v r) K q = true <-> scalars_nonzero p).
Proof.
  intros V HK Hr Hv HM. split; [apply valid_nonzero, V|]. intros HN.
  assert (Hr0 : 0 <= r) by (clear - Hr; lia).
  destruct Hv as [-> | ->]; cbn in HM; rewrite (spec_enc_enc gp K _ r V HK) in * by (assumption || discriminate || reflexivity).
  - exact (make_zero_seed_valid gp V sha K q r seed p _ (proj2 HK) Hr eq_refl HM HN).
  - exact (make_one_seed_valid gp V sha K q r seed p _ (proj2 HK) Hr eq_refl HM HN).
Qed.
(** Precomputed: values of the documented form, given as powers. *)
Definition good_triple gp K (t : triple) : Prop :=
  0 <= tr_exp t < gpQ gp /\ tr_g t = (gpG gp ^ tr_exp t) mod gpP gp /\ tr_k t = (K ^ tr_exp t) mod gpP gp.
Definition good_quad gp K (t : quadruple) : Prop :=
  0 <= qd_exp1 t < gpQ gp /\ 0 <= qd_exp2 t < gpQ gp /\ qd_g1 t = (gpG gp ^ qd_exp1 t) mod gpP gp /\
  qd_g2k1 t = (gpG gp ^ qd_exp2 t * K ^ qd_exp1 t) mod gpP gp.
Lemma good_triple_ok gp K t : valid_params gp -> good_triple gp K t -> triple_ok gp K t.
Proof.
  intros V (H1 & H2 & H3). pose proof (vp_Qhi _ V).
  assert (R : 0 <= tr_exp t < W256) by (clear - H1 H; lia).
  split; [exact H1|]. split; [rewrite (g_pow_p_correct gp V _ R)|rewrite (pow_mod_p_correct gp V _ _ R)]; assumption.
Qed.
Lemma good_quad_ok gp K t : valid_params gp -> good_quad gp K t -> quad_ok gp K t.
Proof.
  intros V (H1 & H2 & H3 & H4). pose proof (vp_Qhi _ V).
  assert (R1 : 0 <= qd_exp1 t < W256) by (clear - H1 H; lia).
  assert (R2 : 0 <= qd_exp2 t < W256) by (clear - H2 H; lia).
  split; [exact H1|]. split; [exact H2|]. split; [rewrite (g_pow_p_correct gp V _ R1); exact H3|].
  unfold g_pow_p. rewrite (gmul_pow gp V _ _ _ _ R2 R1). exact H4.
Qed.
Theorem C27_precomputed gp sha K q v t p :
  valid_params gp -> spec_subgroup gp K -> v = 0 \/ v = 1 ->
  good_triple gp K (tq_t1 t) -> good_triple gp K (tq_t2 t) -> good_quad gp K (tq_q t) ->
  let m := spec_enc gp K v (tr_exp (tq_t1 t)) in
  dproof_make_precomp gp sha m t q v = Ok p ->
  (dproof_valid gp sha p m K q = true <-> scalars_nonzero p).
Proof.
  intros V HK Hv G1 G2 G3 m HM. apply (C27_random gp sha K q (tr_exp (tq_t1 t)) v (tr_exp (tq_t2 t))
    (qd_exp1 (tq_q t)) (qd_exp2 (tq_q t)) p); try assumption; try apply G2; try apply G3.
  - pose proof (vp_Qhi _ V) as HQ. destruct G1 as [G1 _]. change (2 ^ 256) with W256. clear - HQ G1. lia.
  - assert (T : tq_ok gp K t).
    { split; [apply good_triple_ok; assumption|]. split; [apply good_triple_ok; assumption|apply good_quad_ok; assumption]. }
    fold m. unfold dproof_make_rand. unfold dproof_make_precomp in HM.
    rewrite <- (make_zero_precomp_rand gp sha K m t q T), <- (make_one_precomp_rand gp sha K m t q T). exact HM.
Qed.
(** Making a proof for 0 or 1 never throws; for any other claimed plaintext it does. *)
Theorem C27_make_total gp sha m r k q v u1 u2 u3 seed :
  valid_params gp -> 0 <= v -> 0 <= u1 < 2 ^ 256 -> 0 <= u2 < 2 ^ 256 ->
  is_ok (dproof_make_rand gp sha m r k q v u1 u2 u3) = (v <=? 1) /\
  is_ok (dproof_make_seed gp sha m r k q seed v) = (v <=? 1).
Proof.
  intros V Hv Hu1 Hu2. unfold dproof_make_rand, dproof_make_seed.
  destruct (Z.ltb_spec 1 v) as [H|H], (Z.leb_spec v 1) as [H'|H']; try (exfalso; clear - H H'; lia); [split; reflexivity|].
  pose proof (vp_Qhi _ V) as HQ.
  assert (N : forall i, 0 <= dnonce gp sha seed i < W256).
  { intros i. pose proof (dnonce_range gp V sha seed i) as D. clear - D HQ. lia. }
  split; destruct (v =? 1).
  - unfold make_one_rand. rewrite !(a_plus_bc_mod_q_correct gp V) by assumption. reflexivity.
  - unfold make_zero_rand. rewrite !(a_plus_bc_mod_q_correct gp V) by assumption. reflexivity.
  - unfold make_one_seed. rewrite !(a_plus_bc_mod_q_correct gp V) by apply N. reflexivity.
  - unfold make_zero_seed. rewrite !(a_plus_bc_mod_q_correct gp V) by apply N. reflexivity.
Qed.
(** The side condition is needed: for every hash function, header, and nonce some
    honest randomness yields a proof that is rejected. *)
Theorem C27_unconditional_refuted gp sha K q r :
  valid_params gp -> spec_subgroup gp K -> 0 <= r < 2 ^ 256 ->
  exists u1 u2 u3 p, 0 <= u1 < gpQ gp /\ 0 <= u2 < gpQ gp /\ 0 <= u3 < gpQ gp /\
    dproof_make_rand gp sha (spec_enc gp K 0 r) r K q 0 u1 u2 u3 = Ok p /\
    dproof_valid gp sha p (spec_enc gp K 0 r) K q = false.
Proof.
  intros V HK Hr. pose proof (vp_Qlo _ V) as HQ. pose proof (vp_Qhi _ V) as HQ'.
  set (u2 := (- r) mod gpQ gp).
  assert (H2 : 0 <= u2 < gpQ gp) by (apply Z.mod_pos_bound; clear - HQ; lia).
  destruct (dproof_make_rand gp sha (spec_enc gp K 0 r) r K q 0 1 u2 1) as [p| |] eqn:E.
  - exists 1, u2, 1, p. split; [clear - HQ; lia|]. split; [exact H2|]. split; [clear - HQ; lia|].
    split; [exact E|]. destruct (dproof_valid gp sha p (spec_enc gp K 0 r) K q) eqn:EV; [|reflexivity].
    exfalso. apply valid_nonzero in EV; [|exact V]. destruct EV as (_ & _ & _ & N). apply N.
    cbn in E. unfold make_zero_rand in E.
    assert (R2 : 0 <= u2 < W256) by (clear - H2 HQ'; lia).
    assert (R1 : 0 <= 1 < W256) by (clear - HQ HQ'; lia).
    rewrite (a_plus_bc_mod_q_correct gp V _ _ _ R2), (a_plus_bc_mod_q_correct gp V _ _ _ R1) in E.
    cbn [bind] in E. apply Ok_inj in E. subst p. cbn [dp_v1].
    rewrite Z.mul_1_l. subst u2. rewrite Zplus_mod_idemp_l, Z.add_opp_diag_l. reflexivity.
  - exfalso. destruct (C27_make_total gp sha (spec_enc gp K 0 r) r K q 0 1 u2 1 0 V) as [T _];
      [discriminate|split; [discriminate|reflexivity]|change (2 ^ 256) with W256; clear - H2 HQ'; lia|].
    rewrite E in T. discriminate T.
  - exfalso. destruct (C27_make_total gp sha (spec_enc gp K 0 r) r K q 0 1 u2 1 0 V) as [T _];
      [discriminate|split; [discriminate|reflexivity]|change (2 ^ 256) with W256; clear - H2 HQ'; lia|].
    rewrite E in T. discriminate T.
Qed.
Example C27_case :
  exists m p, elgamal_encrypt tp 1 777 (g_pow_p tp 12345) = Ok m /\
    dproof_make_seed tp toy_sha m 777 (g_pow_p tp 12345) 42 99 1 = Ok p /\
    scalars_nonzero p /\ dproof_valid tp toy_sha p m (g_pow_p tp 12345) 42 = true.
Proof.
  do 2 eexists. split; [vm_compute; reflexivity|]. split; [vm_compute; reflexivity|].
  split; [vm_compute; repeat split; discriminate|vm_compute; reflexivity].
Qed.

(** * C28 *)
Lemma cproof_make_const gp sha pre m r k seed q L p :
  cproof_make gp sha pre m r k seed q L = Ok p -> cp_const p = L.
Proof.
  unfold cproof_make. destruct (match pre with Some _ => _ | None => _ end) as [[u a] b].
  destruct (a_plus_bc_mod_q gp u _ r) as [v| |]; cbn [bind]; [|discriminate..].
  intros E. apply Ok_inj in E. subst p. reflexivity.
Qed.
Theorem C28_constant gp sha pre K q r seed L p :
  valid_params gp -> spec_subgroup gp K -> 0 <= r < 2 ^ 256 -> 0 <= L <= gpQ gp ->
  (forall t, pre = Some t -> good_triple gp K t) ->
  cproof_make gp sha pre (spec_enc gp K L r) r K seed q L = Ok p ->
  (cproof_valid gp sha p (spec_enc gp K L r) K q = Ok true <-> cp_c p <> 0 /\ cp_v p <> 0).
Proof.
  intros V HK Hr HL Hp HM. split.
  - intros H. assert (EL : cp_const p = L).
    { exact (cproof_make_const gp sha pre _ r K seed q L p HM). }
    apply (cproof_valid_spec gp V) in H; [|rewrite EL; exact HL].
    destruct H as (_ & _ & _ & _ & H1 & H2 & _). clear - H1 H2. lia.
  - intros HN. assert (Hr0 : 0 <= r) by (clear - Hr; lia).
    rewrite (spec_enc_enc gp K L r V HK (proj1 HL) Hr0) in *.
    refine (cproof_make_valid gp V sha K q r seed L p _ pre (proj2 HK) Hr HL _ eq_refl HM HN).
    intros t E. apply good_triple_ok; [exact V|apply Hp, E].
Qed.
(** The side condition is needed: with a hash function that gives every input the
    same value, the honest proof for the nonce -1 is rejected for every constant. *)
Theorem C28_unconditional_refuted : exists gp sha K q r seed L p,
  valid_params gp /\ spec_subgroup gp K /\ 0 <= r < gpQ gp /\ 0 <= L <= gpQ gp /\
  cproof_make gp sha None (spec_enc gp K L r) r K seed q L = Ok p /\
  cproof_valid gp sha p (spec_enc gp K L r) K q = Ok false.
Proof.
  assert (HK : spec_subgroup tp (spec_key tp 5)) by (apply spec_key_subgroup; [exact test_params_valid|lia]).
  assert (EK : spec_key tp 5 = g_pow_p tp 5) by (symmetry; apply g_pow_p_correct; [exact test_params_valid|change W256 with (2 ^ 256); lia]).
  pose proof (encrypt_spec tp test_params_valid (spec_key tp 5) 1 (gpQ tp - 1) HK) as HE.
  specialize (HE ltac:(change W256 with (2 ^ 256); split; reflexivity) (or_intror eq_refl)).
  rewrite EK in *.
  destruct (elgamal_encrypt tp 1 (gpQ tp - 1) (g_pow_p tp 5)) as [m| |] eqn:EM; [|discriminate HE..].
  apply Ok_inj in HE. vm_compute in EM. apply Ok_inj in EM.
  exists tp, (fun _ => 5), (g_pow_p tp 5), 42, (gpQ tp - 1), 99, 1. eexists.
  split; [exact test_params_valid|]. split; [exact HK|]. split; [vm_compute; split; [discriminate|reflexivity]|].
  split; [vm_compute; split; discriminate|].
  rewrite <- HE, <- EM. split; [vm_compute; reflexivity|]. vm_compute. reflexivity.
Qed.
Example C28_case :
  let m := {| ct_pad := g_pow_p tp 777; ct_data := mul_mod_p tp (g_pow_p tp 3) (pow_mod_p tp (g_pow_p tp 5) 777) |} in
  exists p, cproof_make tp toy_sha None m 777 (g_pow_p tp 5) 99 42 3 = Ok p /\
    cproof_valid tp toy_sha p m (g_pow_p tp 5) 42 = Ok true /\
    cproof_valid tp toy_sha {| cp_a := cp_a p; cp_b := cp_b p; cp_c := cp_c p; cp_v := cp_v p; cp_const := 4 |}
      m (g_pow_p tp 5) 42 = Ok false.
Proof. eexists. split; [vm_compute; reflexivity|]. split; vm_compute; reflexivity. Qed.

(** * C29 *)
Theorem C29_special_soundness gp sha sha' K p p' m q :
  prime_params gp -> spec_subgroup gp K ->
  dproof_valid gp sha p m K q = true -> dproof_valid gp sha' p' m K q = true ->
  dp_a0 p = dp_a0 p' -> dp_b0 p = dp_b0 p' -> dp_a1 p = dp_a1 p' -> dp_b1 p = dp_b1 p' ->
  dp_c p <> dp_c p' ->
  exists r, 0 <= r < gpQ gp /\
    ((dp_c0 p <> dp_c0 p' /\ (r * (dp_c0 p - dp_c0 p')) mod gpQ gp = (dp_v0 p - dp_v0 p') mod gpQ gp /\
      m = spec_enc gp K 0 r) \/
     (dp_c1 p <> dp_c1 p' /\ (r * (dp_c1 p - dp_c1 p')) mod gpQ gp = (dp_v1 p - dp_v1 p') mod gpQ gp /\
      m = spec_enc gp K 1 r)).
Proof.
  intros PP HK H H' A0 B0 A1 B1 C.
  destruct (disjunctive_special_soundness gp PP K (proj2 HK) sha sha' p p' m q H H' A0 B0 A1 B1 C)
    as (r & Hr & [(N & E & Ep & Ed)|(N & E & Ep & Ed)]); exists r; (split; [exact Hr|]).
  - left. split; [exact N|]. split; [exact E|]. destruct m as [a b]. unfold spec_enc. cbn [ct_pad ct_data] in *.
    rewrite Z.pow_0_r, Z.mul_1_l. congruence.
  - right. split; [exact N|]. split; [exact E|]. destruct m as [a b]. unfold spec_enc. cbn [ct_pad ct_data] in *.
    rewrite Z.pow_1_r. congruence.
Qed.

(** * C30 *)
Theorem C30_special_soundness gp sha sha' K p p' m q :
  prime_params gp -> spec_subgroup gp K -> 0 <= cp_const p ->
  cproof_valid gp sha p m K q = Ok true -> cproof_valid gp sha' p' m K q = Ok true ->
  cp_const p = cp_const p' -> cp_a p = cp_a p' -> cp_b p = cp_b p' -> cp_c p <> cp_c p' ->
  exists r, 0 <= r < gpQ gp /\ (r * (cp_c p - cp_c p')) mod gpQ gp = (cp_v p - cp_v p') mod gpQ gp /\
    m = spec_enc gp K (cp_const p) r.
Proof.
  intros PP HK HL H H' EL A B C.
  destruct (constant_special_soundness gp PP K (proj2 HK) sha sha' p p' m q H H' HL EL A B C)
    as (r & Hr & E & Ep & Ed).
  exists r. split; [exact Hr|]. split; [exact E|]. destruct m as [a b]. unfold spec_enc. cbn [ct_pad ct_data] in *. congruence.
Qed.
(** Two accepting transcripts exist: same randomness, two hash functions. *)
Example C30_case :
  let K := g_pow_p tp 5 in
  let m := {| ct_pad := g_pow_p tp 777; ct_data := mul_mod_p tp (g_pow_p tp 3) (pow_mod_p tp K 777) |} in
  let t := {| tr_exp := 31; tr_g := g_pow_p tp 31; tr_k := pow_mod_p tp K 31 |} in
  exists p p', cproof_make tp (fun _ => 100) (Some t) m 777 K 99 42 3 = Ok p /\
    cproof_make tp (fun _ => 200) (Some t) m 777 K 99 42 3 = Ok p' /\
    cproof_valid tp (fun _ => 100) p m K 42 = Ok true /\ cproof_valid tp (fun _ => 200) p' m K 42 = Ok true /\
    cp_c p <> cp_c p' /\ cp_a p = cp_a p'.
Proof. do 2 eexists. do 2 (split; [vm_compute; reflexivity|]). vm_compute. repeat split. discriminate. Qed.
Example C29_case :
  let K := g_pow_p tp 5 in
  let m := {| ct_pad := g_pow_p tp 777; ct_data := pow_mod_p tp K 777 |} in
  exists p p', make_zero_rand tp (fun _ => 100) m 777 K 42 7 8 9 = Ok p /\
    make_zero_rand tp (fun _ => 200) m 777 K 42 7 8 9 = Ok p' /\
    dproof_valid tp (fun _ => 100) p m K 42 = true /\ dproof_valid tp (fun _ => 200) p' m K 42 = true /\
    dp_c p <> dp_c p' /\ dp_a0 p = dp_a0 p' /\ dp_b1 p = dp_b1 p'.
Proof. do 2 eexists. do 2 (split; [vm_compute; reflexivity|]). vm_compute. repeat split. discriminate. Qed.

(** * C31 *)
Theorem C31_disjunctive_iff gp sha p m K q :
  valid_params gp ->
  dproof_valid gp sha p m K q = true <->
  spec_daccepts gp K m p
    (hash_elems gp sha [HElemQ q; HElemP (ct_pad m); HElemP (ct_data m);
                        HElemP (dp_a0 p); HElemP (dp_b0 p); HElemP (dp_a1 p); HElemP (dp_b1 p)]).
Proof. intros V. exact (dproof_valid_spec gp V sha p m K q). Qed.
Theorem C31_constant_iff gp sha p m K q :
  valid_params gp -> 0 <= cp_const p <= gpQ gp ->
  cproof_valid gp sha p m K q = Ok true <->
  spec_caccepts gp K m p
    (hash_elems gp sha [HElemQ q; HElemP (ct_pad m); HElemP (ct_data m); HElemP (cp_a p); HElemP (cp_b p)]).
Proof. intros V. exact (cproof_valid_spec gp V sha p m K q). Qed.
Theorem C31_constant_out_of_range gp sha p m K q :
  gpQ gp < cp_const p -> cproof_valid gp sha p m K q = Throw OutOfRange.
Proof. exact (cproof_valid_throws gp sha p m K q). Qed.
(** The scalars determine the whole proof: no accepted proof can be altered only in
    its commitments or total challenge. *)
Theorem C31_scalars_determine gp sha p p' m K q :
  prime_params gp -> spec_subgroup gp K ->
  dproof_valid gp sha p m K q = true -> dproof_valid gp sha p' m K q = true ->
  dp_c0 p = dp_c0 p' -> dp_c1 p = dp_c1 p' -> dp_v0 p = dp_v0 p' -> dp_v1 p = dp_v1 p' -> p = p'.
Proof. intros PP HK. exact (dproof_scalars_determine gp PP K (proj2 HK) sha p p' m q). Qed.

(** * C32: false of the code *)
Theorem C32_clone_refuted :
  exists m p p', dproof_make_seed tp toy_sha m 777 (g_pow_p tp 12345) 42 99 1 = Ok p /\
    dproof_valid tp toy_sha p m (g_pow_p tp 12345) 42 = true /\
    dproof_clone tp p = Ok p' /\ p' <> p /\
    dproof_valid tp toy_sha p' m (g_pow_p tp 12345) 42 = false.
Proof.
  exists {| ct_pad := g_pow_p tp 777; ct_data := mul_mod_p tp (gpG tp) (pow_mod_p tp (g_pow_p tp 12345) 777) |}.
  do 2 eexists. split; [vm_compute; reflexivity|]. split; [vm_compute; reflexivity|].
  split; [vm_compute; reflexivity|]. split.
  - intros E. apply (f_equal dp_b1) in E. vm_compute in E. discriminate E.
  - vm_compute. reflexivity.
Qed.
(** What holds: cloning succeeds for every proof isValid accepts, keeps every
    component except the data commitment of the one branch, and is the identity
    exactly when that equals the pad commitment; the copy constructor copies.
    Missing: the fourth component. *)
Theorem C32_clone_partial gp p :
  dp_c0 p <= gpQ gp -> dp_c1 p <= gpQ gp -> dp_c p <= gpQ gp -> dp_v0 p <= gpQ gp -> dp_v1 p <= gpQ gp ->
  dproof_clone gp p =
  Ok {| dp_a0 := dp_a0 p; dp_b0 := dp_b0 p; dp_a1 := dp_a1 p; dp_b1 := dp_a1 p;
        dp_c0 := dp_c0 p; dp_c1 := dp_c1 p; dp_c := dp_c p; dp_v0 := dp_v0 p; dp_v1 := dp_v1 p |}.
Proof.
  intros H0 H1 H2 H3 H4. unfold dproof_clone, clone_p, clone_q, make_p, make_q.
  cbn [Nat.ltb Nat.leb negb andb bind].
  apply Z.ltb_ge in H0, H1, H2, H3, H4. rewrite H0, H1, H2, H3, H4. reflexivity.
Qed.
Theorem C32_clone_elements gp v :
  clone_p gp v = Ok v /\ (v <= gpQ gp -> clone_q gp v = Ok v).
Proof.
  split; [reflexivity|]. intros H. unfold clone_q, make_q. cbn [Nat.ltb Nat.leb negb andb].
  apply Z.ltb_ge in H. rewrite H. reflexivity.
Qed.

(** * C33 *)
Theorem C33_zero_and_one_indistinguishable gp K q r r' c :
  valid_params gp -> spec_subgroup gp K -> 0 <= r < 2 ^ 256 -> 0 <= r' < 2 ^ 256 -> 0 <= c < gpQ gp ->
  (* honest transcripts for an encryption of 0 are distributed as simulated ones *)
  Permutation
    (map (fun '(u, v, w) => dproof_make_rand gp (fun _ => c) (spec_enc gp K 0 r) r K q 0 u v w) (all_triples (gpQ gp)))
    (map (fun x => Ok (simulate gp (spec_enc gp K 0 r) K c x)) (all_triples (gpQ gp))) /\
  (* and so are those for an encryption of 1 *)
  Permutation
    (map (fun '(u, v, w) => dproof_make_rand gp (fun _ => c) (spec_enc gp K 1 r') r' K q 1 u v w) (all_triples (gpQ gp)))
    (map (fun x => Ok (simulate gp (spec_enc gp K 1 r') K c x)) (all_triples (gpQ gp))).
Proof.
  intros V HK Hr Hr' Hc.
  assert (H0 : 0 <= r) by (clear - Hr; lia). assert (H0' : 0 <= r') by (clear - Hr'; lia).
  rewrite (spec_enc_enc gp K 0 r V HK), (spec_enc_enc gp K 1 r' V HK) by (assumption || discriminate).
  split.
  - exact (zero_transcripts_simulated gp V K q r c (proj2 HK) Hr Hc).
  - exact (one_transcripts_simulated gp V K q r' c (proj2 HK) Hr' Hc).
Qed.
(** The simulator uses neither nonce nor plaintext and its transcripts satisfy the
    verification equations. *)
Theorem C33_simulated_accepted gp K m c c1 v0 v1 :
  valid_params gp -> spec_subgroup gp (ct_pad m) -> spec_subgroup gp (ct_data m) ->
  0 <= c1 < gpQ gp -> 0 <= v0 -> 0 <= v1 ->
  spec_dequations gp K m (simulate gp m K c (c1, v0, v1)).
Proof.
  intros V HA HB H1 H2 H3. unfold spec_dequations, simulate. cbn zeta. cbn [dp_a0 dp_b0 dp_a1 dp_b1 dp_c0 dp_c1 dp_v0 dp_v1].
  pose proof (vp_Qlo _ V) as HQ.
  assert (Hc0 : 0 <= (c - c1) mod gpQ gp < gpQ gp) by (apply Z.mod_pos_bound; clear - HQ; lia).
  set (c0 := (c - c1) mod gpQ gp) in *. clearbody c0.
  assert (KEY : forall X x e, spec_subgroup gp x -> 0 <= e < gpQ gp ->
            ((X * x ^ (gpQ gp - e)) mod gpP gp * x ^ e) mod gpP gp = X mod gpP gp).
  { intros X x e [_ Hx] He. rewrite Zmult_mod_idemp_l, <- Z.mul_assoc, <- Z.pow_add_r by (clear - He; lia).
    replace (gpQ gp - e + e) with (gpQ gp) by (clear; lia).
    rewrite <- Zmult_mod_idemp_r, Hx, Z.mul_1_r. reflexivity. }
  rewrite !KEY by assumption. repeat split.
Qed.

Print Assumptions C27_random.
Print Assumptions C27_seeded.
Print Assumptions C27_precomputed.
Print Assumptions C27_make_total.
Print Assumptions C27_unconditional_refuted.
Print Assumptions C28_constant.
Print Assumptions C28_unconditional_refuted.
Print Assumptions C29_special_soundness.
Print Assumptions C30_special_soundness.
Print Assumptions C31_disjunctive_iff.
Print Assumptions C31_constant_iff.
Print Assumptions C31_constant_out_of_range.
Print Assumptions C31_scalars_determine.
Print Assumptions C32_clone_refuted.
Print Assumptions C32_clone_partial.
Print Assumptions C32_clone_elements.
Print Assumptions C33_zero_and_one_indistinguishable.
Print Assumptions C33_simulated_accepted.
