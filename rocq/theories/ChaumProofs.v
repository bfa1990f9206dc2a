(** Completeness and structural facts about the Chaum-Pedersen proofs. *)
From Coq Require Import Znumtheory Zpow_facts Permutation Psatz.
From Coq Require Import ZifyBool ZifyNat.
From Verif Require Import Base GroupModel GroupSpec GroupProofs Algebra CodecModel HashModel
  ElgamalModel ElgamalProofs ChaumModel.
Open Scope Z_scope.
Ltac Zify.zify_post_hook ::= idtac.

Section Proofs.
Context (gp : params) (VP : valid_params gp) (sha : bytes -> Z).
Notation P := (gpP gp).
Notation Q := (gpQ gp).
Notation G := (gpG gp).

Lemma hash_elems_range l : 0 <= hash_elems gp sha l < Q.
Proof. unfold hash_elems, hash_close. apply add_mod_q_range, VP. Qed.

Lemma dchallenge_range q m a0 b0 a1 b1 : 0 <= dchallenge gp sha q m a0 b0 a1 b1 < Q.
Proof. apply hash_elems_range. Qed.
Lemma dnonce_range seed i : 0 <= dnonce gp sha seed i < Q.
Proof. apply hash_elems_range. Qed.

(** All scalars of a proof are non-zero: the side condition isValid imposes on
    honest proofs. *)
Definition dproof_nonzero (p : dproof) : Prop :=
  dp_c0 p <> 0 /\ dp_c1 p <> 0 /\ dp_v0 p <> 0 /\ dp_v1 p <> 0.

Lemma q_modulo_eq a b : (a - b) mod Q = 0 -> a mod Q = b mod Q.
Proof.
  intros H. pose proof (Qpos gp VP).
  apply Z.mod_divide in H; [|lia]. destruct H as [k Hk].
  replace a with (b + k * Q) by lia. apply Z.mod_add. lia.
Qed.

(** Validity of a proof given in terms of exponents. *)
Lemma dproof_valid_intro K q xa ya p m :
  sub gp K -> 
  (* the ciphertext and the commitments as powers of G and K *)
  forall a0x a0y b0x b0y a1x a1y b1x b1y xb yb,
  ct_pad m = ex2 gp K xa ya -> ct_data m = ex2 gp K xb yb ->
  dp_a0 p = ex2 gp K a0x a0y -> dp_b0 p = ex2 gp K b0x b0y ->
  dp_a1 p = ex2 gp K a1x a1y -> dp_b1 p = ex2 gp K b1x b1y ->
  0 < dp_c0 p < Q -> 0 < dp_c1 p < Q -> 0 < dp_v0 p < Q -> 0 < dp_v1 p < Q ->
  (dp_c0 p + dp_c1 p) mod Q = dp_c p ->
  dp_c p = dchallenge gp sha q m (dp_a0 p) (dp_b0 p) (dp_a1 p) (dp_b1 p) ->
  dp_v0 p mod Q = (a0x + xa * dp_c0 p) mod Q -> 0 mod Q = (a0y + ya * dp_c0 p) mod Q ->
  dp_v1 p mod Q = (a1x + xa * dp_c1 p) mod Q -> 0 mod Q = (a1y + ya * dp_c1 p) mod Q ->
  0 mod Q = (b0x + xb * dp_c0 p) mod Q -> dp_v0 p mod Q = (b0y + yb * dp_c0 p) mod Q ->
  dp_c1 p mod Q = (b1x + xb * dp_c1 p) mod Q -> dp_v1 p mod Q = (b1y + yb * dp_c1 p) mod Q ->
  dproof_valid gp sha p m K q = true.
Proof.
  intros HK a0x a0y b0x b0y a1x a1y b1x b1y xb yb Ea Eb Ea0 Eb0 Ea1 Eb1
         Hc0 Hc1 Hv0 Hv1.
  pose proof (vp_Qhi _ VP) as HQ.
  assert (Hc0' : 0 <= dp_c0 p < W256) by lia.
  assert (Hc1' : 0 <= dp_c1 p < W256) by lia.
  assert (Hv0' : 0 <= dp_v0 p < W256) by lia.
  assert (Hv1' : 0 <= dp_v1 p < W256) by lia.
  assert (Oc0 : exp_ok gp (dp_c0 p)) by (unfold exp_ok; lia).
  assert (Oc1 : exp_ok gp (dp_c1 p)) by (unfold exp_ok; lia).
  intros Hc Hch E1 E2 E3 E4 E5 E6 E7 E8.
  unfold dproof_valid, elem_eq.
  rewrite !andb_true_iff. rewrite !Z.eqb_eq. rewrite !in_bounds_q_spec.
  repeat match goal with |- _ /\ _ => split end; try assumption; try tauto.
  - rewrite Ea. apply ex2_valid; assumption.
  - rewrite Eb. apply ex2_valid; assumption.
  - rewrite Ea0. apply ex2_valid; assumption.
  - rewrite Eb0. apply ex2_valid; assumption.
  - rewrite Ea1. apply ex2_valid; assumption.
  - rewrite Eb1. apply ex2_valid; assumption.
  - rewrite add_mod_q_correct by assumption. assumption.
  - rewrite Ea, Ea0. rewrite ex2_pow by assumption.
    rewrite (g_pow_ex2 gp VP K) by assumption. rewrite mul_mod_p_ex2 by assumption.
    apply ex2_congr; assumption.
  - rewrite Ea, Ea1. rewrite ex2_pow by assumption.
    rewrite (g_pow_ex2 gp VP K) by assumption. rewrite mul_mod_p_ex2 by assumption.
    apply ex2_congr; assumption.
  - rewrite Eb, Eb0. rewrite ex2_pow by assumption.
    rewrite (k_pow_ex2 gp VP K HK) by assumption. rewrite mul_mod_p_ex2 by assumption.
    apply ex2_congr; assumption.
  - rewrite Eb, Eb1. rewrite ex2_pow by assumption.
    rewrite (k_pow_ex2 gp VP K HK), (g_pow_ex2 gp VP K) by assumption.
    rewrite !mul_mod_p_ex2 by assumption.
    rewrite Z.add_0_l, Z.add_0_r. apply ex2_congr; assumption.
Qed.

Ltac mq := solve [f_equal; ring | rewrite ?Z.mod_mod by (pose proof (Qpos gp VP); lia); f_equal; ring].

Lemma mod_eq_diff a b : a mod Q = b mod Q -> exists k, a = b + k * Q.
Proof.
  intros H. pose proof (Qpos gp VP).
  exists (a / Q - b / Q). rewrite (Z.div_mod a Q), (Z.div_mod b Q) at 1 by lia.
  rewrite H. ring.
Qed.
Lemma mod_diff a : exists k, a mod Q = a + k * Q.
Proof. pose proof (Qpos gp VP). exists (- (a / Q)). rewrite (Z.div_mod a Q) at 2 by lia. ring. Qed.

(** *** make_zero, random and precomputed *)
Lemma make_zero_rand_valid K q r u v w p m :
  sub gp K -> 0 <= r < W256 -> 0 <= u < Q -> 0 <= v < Q -> 0 <= w < Q ->
  m = enc_exp gp K (0, r) ->
  make_zero_rand gp sha m r K q u v w = Ok p -> dproof_nonzero p ->
  dproof_valid gp sha p m K q = true.
Proof.
  intros HK Hr Hu Hv Hw Em Hmk Hnz. pose proof (vp_Qhi _ VP) as HQ. pose proof (Qpos gp VP).
  unfold make_zero_rand in Hmk.
  rewrite !a_plus_bc_mod_q_correct in Hmk by (assumption || lia).
  cbn [bind] in Hmk. injection Hmk as Hp.
  set (a0 := g_pow_p gp u) in *. set (b0 := pow_mod_p gp K u) in *.
  set (a1 := g_pow_p gp v) in *. set (b1 := mul_mod_p gp (g_pow_p gp w) (pow_mod_p gp K v)) in *.
  pose proof (dchallenge_range q m a0 b0 a1 b1) as Hc.
  set (c := dchallenge gp sha q m a0 b0 a1 b1) in *.
  rewrite sub_mod_q_correct in Hp by (assumption || unfold exp_ok; lia).
  pose proof (Z.mod_pos_bound (c - w) Q ltac:(lia)) as Hb0.
  pose proof (Z.mod_pos_bound (u + (c - w) mod Q * r) Q ltac:(lia)) as Hb1.
  pose proof (Z.mod_pos_bound (v + w * r) Q ltac:(lia)) as Hb2.
  destruct Hnz as (N1 & N2 & N3 & N4). subst p.
  cbn [dp_c0 dp_c1 dp_v0 dp_v1] in *.
  subst m. unfold enc_exp in *. cbn [fst snd] in *.
  apply (dproof_valid_intro K q r 0) with (a0x := u) (a0y := 0) (b0x := 0) (b0y := u)
     (a1x := v) (a1y := 0) (b1x := w) (b1y := v) (xb := 0) (yb := r);
    cbn [dp_a0 dp_b0 dp_a1 dp_b1 dp_c0 dp_c1 dp_c dp_v0 dp_v1 ct_pad ct_data];
    try reflexivity; try assumption; try lia; try mq.
  - apply g_pow_ex2; [assumption|lia].
  - apply k_pow_ex2; try assumption; lia.
  - apply g_pow_ex2; [assumption|lia].
  - unfold b1. rewrite (g_pow_ex2 gp VP K), (k_pow_ex2 gp VP K HK) by lia.
    rewrite mul_mod_p_ex2 by assumption. apply ex2_eq; lia.
  - rewrite Zplus_mod_idemp_l. replace (c - w + w) with c by lia. apply Z.mod_small. lia.
Qed.

(** *** make_one, random *)
Lemma make_one_rand_valid K q r u v w p m :
  sub gp K -> 0 <= r < W256 -> 0 <= u < Q -> 0 <= v < Q -> 0 <= w < Q ->
  m = enc_exp gp K (1, r) ->
  make_one_rand gp sha m r K q u v w = Ok p -> dproof_nonzero p ->
  dproof_valid gp sha p m K q = true.
Proof.
  intros HK Hr Hu Hv Hw Em Hmk Hnz. pose proof (vp_Qhi _ VP) as HQ. pose proof (Qpos gp VP).
  unfold make_one_rand in Hmk.
  rewrite !a_plus_bc_mod_q_correct in Hmk by (assumption || lia).
  cbn [bind] in Hmk. injection Hmk as Hp.
  set (a0 := g_pow_p gp v) in *. set (b1 := pow_mod_p gp K u) in *.
  set (a1 := g_pow_p gp u) in *. set (b0 := mul_mod_p gp (g_pow_p gp w) (pow_mod_p gp K v)) in *.
  pose proof (dchallenge_range q m a0 b0 a1 b1) as Hc.
  set (c := dchallenge gp sha q m a0 b0 a1 b1) in *.
  rewrite sub_mod_q_correct in Hp by (assumption || unfold exp_ok; lia).
  rewrite add_mod_q_correct in Hp by (assumption || unfold exp_ok; lia).
  pose proof (Z.mod_pos_bound (Q - w) Q ltac:(lia)) as Hb0.
  pose proof (Z.mod_pos_bound (c + w) Q ltac:(lia)) as Hb3.
  pose proof (Z.mod_pos_bound (v + (Q - w) mod Q * r) Q ltac:(lia)) as Hb1.
  pose proof (Z.mod_pos_bound (u + (c + w) mod Q * r) Q ltac:(lia)) as Hb2.
  destruct Hnz as (N1 & N2 & N3 & N4). subst p.
  cbn [dp_c0 dp_c1 dp_v0 dp_v1] in *.
  subst m. unfold enc_exp in *. cbn [fst snd] in *.
  apply (dproof_valid_intro K q r 0) with (a0x := v) (a0y := 0) (b0x := w) (b0y := v)
     (a1x := u) (a1y := 0) (b1x := 0) (b1y := u) (xb := 1) (yb := r);
    cbn [dp_a0 dp_b0 dp_a1 dp_b1 dp_c0 dp_c1 dp_c dp_v0 dp_v1 ct_pad ct_data];
    try reflexivity; try assumption; try lia; try mq.
  - apply g_pow_ex2; [assumption|lia].
  - unfold b0. rewrite (g_pow_ex2 gp VP K), (k_pow_ex2 gp VP K HK) by lia.
    rewrite mul_mod_p_ex2 by assumption. apply ex2_eq; lia.
  - apply g_pow_ex2; [assumption|lia].
  - apply k_pow_ex2; try assumption; lia.
  - rewrite <- Zplus_mod. replace (Q - w + (c + w)) with (c + 1 * Q) by lia.
    rewrite Z.mod_add by lia. apply Z.mod_small. lia.
  - rewrite Z.mul_1_l. rewrite Zplus_mod_idemp_r. replace (w + (Q - w)) with (0 + 1 * Q) by lia.
    rewrite Z.mod_add by lia. reflexivity.
Qed.

(** *** Seeded variants *)
Lemma make_zero_seed_valid K q r seed p m :
  sub gp K -> 0 <= r < W256 ->
  m = enc_exp gp K (0, r) ->
  make_zero_seed gp sha m r K q seed = Ok p -> dproof_nonzero p ->
  dproof_valid gp sha p m K q = true.
Proof.
  intros HK Hr Em Hmk Hnz. pose proof (vp_Qhi _ VP) as HQ. pose proof (Qpos gp VP).
  unfold make_zero_seed in Hmk.
  pose proof (dnonce_range seed 0) as H0. pose proof (dnonce_range seed 1) as H1.
  pose proof (dnonce_range seed 2) as H2.
  set (c1 := dnonce gp sha seed 0) in *. set (v1 := dnonce gp sha seed 1) in *.
  set (u0 := dnonce gp sha seed 2) in *.
  rewrite !a_plus_bc_mod_q_correct in Hmk by (assumption || lia).
  cbn [bind] in Hmk. injection Hmk as Hp.
  rewrite sub_from_q_correct in Hp by (assumption || unfold exp_ok; lia).
  set (a0 := g_pow_p gp u0) in *. set (b0 := pow_mod_p gp K u0) in *.
  set (a1 := mul_mod_p gp (g_pow_p gp v1) (pow_mod_p gp (ct_pad m) (Q - c1))) in *.
  set (b1 := mul_mod_p_list gp _) in *.
  assert (Ea1 : a1 = ex2 gp K (v1 + r * (Q - c1)) 0).
  { unfold a1. rewrite Em. unfold enc_exp. cbn [ct_pad fst snd].
    rewrite ex2_pow by (assumption || lia). rewrite (g_pow_ex2 gp VP K) by lia.
    rewrite mul_mod_p_ex2 by assumption. apply ex2_eq; lia. }
  assert (Eb1 : b1 = ex2 gp K c1 (v1 + r * (Q - c1))).
  { unfold b1, mul_mod_p_list. cbn [fold_left].
    rewrite Em. unfold enc_exp. cbn [ct_data fst snd].
    rewrite ex2_pow by (assumption || lia). rewrite (g_pow_ex2 gp VP K) by lia.
    rewrite (k_pow_ex2 gp VP K HK) by lia.
    rewrite (one_ex2 gp VP K). rewrite !mul_mod_p_ex2 by assumption. apply ex2_eq; lia. }
  clearbody a1 b1.
  pose proof (dchallenge_range q m a0 b0 a1 b1) as Hc.
  set (c := dchallenge gp sha q m a0 b0 a1 b1) in *.
  rewrite sub_mod_q_correct in Hp by (assumption || unfold exp_ok; lia).
  pose proof (Z.mod_pos_bound (c - c1) Q ltac:(lia)) as Hb0.
  pose proof (Z.mod_pos_bound (u0 + (c - c1) mod Q * r) Q ltac:(lia)) as Hb1.
  destruct Hnz as (N1 & N2 & N3 & N4). subst p.
  cbn [dp_c0 dp_c1 dp_v0 dp_v1] in *.
  assert (Epad : ct_pad m = ex2 gp K r 0) by (subst m; reflexivity).
  assert (Edata : ct_data m = ex2 gp K 0 r) by (subst m; reflexivity).
  clear Em.
  apply (dproof_valid_intro K q r 0) with (a0x := u0) (a0y := 0) (b0x := 0) (b0y := u0)
     (a1x := v1 + r * (Q - c1)) (a1y := 0) (b1x := c1) (b1y := v1 + r * (Q - c1)) (xb := 0) (yb := r);
    cbn [dp_a0 dp_b0 dp_a1 dp_b1 dp_c0 dp_c1 dp_c dp_v0 dp_v1];
    try reflexivity; try assumption; try lia; try mq.
  - apply g_pow_ex2; [assumption|lia].
  - apply k_pow_ex2; try assumption; lia.
  - rewrite Zplus_mod_idemp_l. replace (c - c1 + c1) with c by lia. apply Z.mod_small. lia.
  - replace (v1 + r * (Q - c1) + r * c1) with (v1 + r * Q) by ring.
    rewrite Z.mod_add by lia. reflexivity.
  - replace (v1 + r * (Q - c1) + r * c1) with (v1 + r * Q) by ring.
    rewrite Z.mod_add by lia. reflexivity.
Qed.

Lemma make_one_seed_valid K q r seed p m :
  sub gp K -> 0 <= r < W256 ->
  m = enc_exp gp K (1, r) ->
  make_one_seed gp sha m r K q seed = Ok p -> dproof_nonzero p ->
  dproof_valid gp sha p m K q = true.
Proof.
  intros HK Hr Em Hmk Hnz. pose proof (vp_Qhi _ VP) as HQ. pose proof (Qpos gp VP).
  unfold make_one_seed in Hmk.
  pose proof (dnonce_range seed 0) as H0. pose proof (dnonce_range seed 1) as H1.
  pose proof (dnonce_range seed 2) as H2.
  set (c0 := dnonce gp sha seed 0) in *. set (v0 := dnonce gp sha seed 1) in *.
  set (u1 := dnonce gp sha seed 2) in *.
  rewrite !a_plus_bc_mod_q_correct in Hmk by (assumption || lia).
  cbn [bind] in Hmk. injection Hmk as Hp.
  rewrite sub_from_q_correct in Hp by (assumption || unfold exp_ok; lia).
  set (a1 := g_pow_p gp u1) in *. set (b1 := pow_mod_p gp K u1) in *.
  set (a0 := mul_mod_p gp (g_pow_p gp v0) (pow_mod_p gp (ct_pad m) (Q - c0))) in *.
  set (b0 := mul_mod_p gp (pow_mod_p gp K v0) (pow_mod_p gp (ct_data m) (Q - c0))) in *.
  assert (Ea0 : a0 = ex2 gp K (v0 + r * (Q - c0)) 0).
  { unfold a0. rewrite Em. unfold enc_exp. cbn [ct_pad fst snd].
    rewrite ex2_pow by (assumption || lia). rewrite (g_pow_ex2 gp VP K) by lia.
    rewrite mul_mod_p_ex2 by assumption. apply ex2_eq; lia. }
  assert (Eb0 : b0 = ex2 gp K (Q - c0) (v0 + r * (Q - c0))).
  { unfold b0. rewrite Em. unfold enc_exp. cbn [ct_data fst snd].
    rewrite ex2_pow by (assumption || lia).
    rewrite (k_pow_ex2 gp VP K HK) by lia.
    rewrite !mul_mod_p_ex2 by assumption. apply ex2_eq; lia. }
  clearbody a0 b0.
  pose proof (dchallenge_range q m a0 b0 a1 b1) as Hc.
  set (c := dchallenge gp sha q m a0 b0 a1 b1) in *.
  rewrite sub_mod_q_correct in Hp by (assumption || unfold exp_ok; lia).
  pose proof (Z.mod_pos_bound (c - c0) Q ltac:(lia)) as Hb0.
  pose proof (Z.mod_pos_bound (u1 + (c - c0) mod Q * r) Q ltac:(lia)) as Hb1.
  destruct Hnz as (N1 & N2 & N3 & N4). subst p.
  cbn [dp_c0 dp_c1 dp_v0 dp_v1] in *.
  assert (Epad : ct_pad m = ex2 gp K r 0) by (subst m; reflexivity).
  assert (Edata : ct_data m = ex2 gp K 1 r) by (subst m; reflexivity).
  clear Em.
  apply (dproof_valid_intro K q r 0) with (a0x := v0 + r * (Q - c0)) (a0y := 0)
     (b0x := Q - c0) (b0y := v0 + r * (Q - c0))
     (a1x := u1) (a1y := 0) (b1x := 0) (b1y := u1) (xb := 1) (yb := r);
    cbn [dp_a0 dp_b0 dp_a1 dp_b1 dp_c0 dp_c1 dp_c dp_v0 dp_v1];
    try reflexivity; try assumption; try lia; try mq.
  - apply g_pow_ex2; [assumption|lia].
  - apply k_pow_ex2; try assumption; lia.
  - rewrite Zplus_mod_idemp_r. replace (c0 + (c - c0)) with c by lia. apply Z.mod_small. lia.
  - replace (v0 + r * (Q - c0) + r * c0) with (v0 + r * Q) by ring.
    rewrite Z.mod_add by lia. reflexivity.
  - replace (Q - c0 + 1 * c0) with (0 + 1 * Q) by ring. rewrite Z.mod_add by lia. reflexivity.
  - replace (v0 + r * (Q - c0) + r * c0) with (v0 + r * Q) by ring.
    rewrite Z.mod_add by lia. reflexivity.
Qed.

(** *** Precomputed variants *)
Definition triple_ok (K : Z) (t : triple) : Prop :=
  0 <= tr_exp t < Q /\ tr_g t = g_pow_p gp (tr_exp t) /\ tr_k t = pow_mod_p gp K (tr_exp t).
Definition quad_ok (K : Z) (t : quadruple) : Prop :=
  0 <= qd_exp1 t < Q /\ 0 <= qd_exp2 t < Q /\
  qd_g1 t = g_pow_p gp (qd_exp1 t) /\
  qd_g2k1 t = mul_mod_p gp (g_pow_p gp (qd_exp2 t)) (pow_mod_p gp K (qd_exp1 t)).
Definition tq_ok (K : Z) (t : two_triples_quad) : Prop :=
  triple_ok K (tq_t1 t) /\ triple_ok K (tq_t2 t) /\ quad_ok K (tq_q t).

Lemma make_zero_precomp_rand K m t q :
  tq_ok K t ->
  make_zero_precomp gp sha m t q =
  make_zero_rand gp sha m (tr_exp (tq_t1 t)) K q (tr_exp (tq_t2 t))
                 (qd_exp1 (tq_q t)) (qd_exp2 (tq_q t)).
Proof.
  intros (H1 & (H2 & H3 & H4) & (H5 & H6 & H7 & H8)).
  unfold make_zero_precomp, make_zero_rand. rewrite H3, H4, H7, H8. reflexivity.
Qed.
Lemma make_one_precomp_rand K m t q :
  tq_ok K t ->
  make_one_precomp gp sha m t q =
  make_one_rand gp sha m (tr_exp (tq_t1 t)) K q (tr_exp (tq_t2 t))
                 (qd_exp1 (tq_q t)) (qd_exp2 (tq_q t)).
Proof.
  intros (H1 & (H2 & H3 & H4) & (H5 & H6 & H7 & H8)).
  unfold make_one_precomp, make_one_rand. rewrite H3, H4, H7, H8. reflexivity.
Qed.

(** *** Constant proofs *)
Definition cproof_nonzero (p : cproof) : Prop := cp_c p <> 0 /\ cp_v p <> 0.

Lemma prod_exponent_small c L :
  0 <= c < Q -> 0 <= L <= Q ->
  mul_mod_p_list gp [c; L] = c * L /\ 0 <= c * L < W512.
Proof.
  intros Hc HL. pose proof (vp_QR _ VP). pose proof (vp_PQR _ VP). pose proof (vp_Qhi _ VP).
  pose proof (Qpos gp VP).
  assert (HcL : 0 <= c * L < P) by nia.
  assert (HW : W512 = W256 * W256) by reflexivity.
  split; [|rewrite HW; nia].
  rewrite mul_mod_p_list_correct by assumption.
  unfold zprod. cbn [fold_right]. rewrite Z.mul_1_r. apply Z.mod_small. assumption.
Qed.

Lemma cproof_make_valid K q r seed L p m pre :
  sub gp K -> 0 <= r < W256 -> 0 <= L <= Q ->
  (forall t, pre = Some t -> triple_ok K t) ->
  m = enc_exp gp K (L, r) ->
  cproof_make gp sha pre m r K seed q L = Ok p -> cproof_nonzero p ->
  cproof_valid gp sha p m K q = Ok true.
Proof.
  intros HK Hr HL Hpre Em Hmk [N1 N2]. pose proof (vp_Qhi _ VP) as HQ. pose proof (Qpos gp VP).
  unfold cproof_make in Hmk.
  set (uab := match pre with Some t => (tr_exp t, tr_g t, tr_k t)
              | None => (cnonce gp sha seed, g_pow_p gp (cnonce gp sha seed),
                         pow_mod_p gp K (cnonce gp sha seed)) end) in *.
  assert (Huab : exists u, 0 <= u < Q /\ uab = (u, g_pow_p gp u, pow_mod_p gp K u)).
  { unfold uab. destruct pre as [t|].
    - destruct (Hpre t eq_refl) as (H1 & H2 & H3). exists (tr_exp t). rewrite H2, H3. auto.
    - exists (cnonce gp sha seed). split; [apply hash_elems_range|reflexivity]. }
  destruct Huab as (u & Hu & Eu). clearbody uab. subst uab. cbn [bind] in Hmk.
  set (c := cchallenge gp sha q m _ _) in *.
  assert (Hc : 0 <= c < Q) by apply hash_elems_range.
  rewrite a_plus_bc_mod_q_correct in Hmk by (assumption || lia). cbn [bind] in Hmk.
  injection Hmk as Hp. subst p. cbn [cp_c cp_v] in *.
  pose proof (Z.mod_pos_bound (u + c * r) Q ltac:(lia)) as Hv.
  assert (Epad : ct_pad m = ex2 gp K r 0) by (subst m; reflexivity).
  assert (Edata : ct_data m = ex2 gp K L r) by (subst m; reflexivity).
  unfold cproof_valid. cbn [cp_a cp_b cp_c cp_v cp_const].
  unfold from_uint64_q, make_q. cbn [Nat.ltb Nat.leb].
  replace (gpQ gp <? L) with false by lia. cbn [negb andb bind]. f_equal.
  unfold elem_eq. rewrite !andb_true_iff, !Z.eqb_eq, !in_bounds_q_spec.
  destruct (prod_exponent_small c L Hc HL) as [Ecl Hcl].
  repeat match goal with |- _ /\ _ => split end; try lia; try reflexivity.
  - rewrite Epad. apply ex2_valid; assumption.
  - rewrite Edata. apply ex2_valid; assumption.
  - rewrite (g_pow_ex2 gp VP K) by lia. apply ex2_valid; assumption.
  - rewrite (k_pow_ex2 gp VP K HK) by lia. apply ex2_valid; assumption.
  - rewrite Epad, ex2_pow by (assumption || lia).
    rewrite !(g_pow_ex2 gp VP K) by lia. rewrite mul_mod_p_ex2 by assumption.
    apply ex2_congr; [|f_equal; lia]. rewrite Z.mod_mod by lia. f_equal. ring.
  - rewrite Ecl. rewrite pow_mod_p_p_correct by assumption.
    rewrite <- ex_nonneg by (try apply sub_G; try assumption; lia).
    rewrite Edata, ex2_pow by (assumption || lia).
    rewrite !(k_pow_ex2 gp VP K HK) by lia.
    replace (ex gp G (c * L)) with (ex2 gp K (c * L) 0).
    2:{ unfold ex2. rewrite ex_0 by assumption. rewrite Z.mul_1_r. apply ex_mod_idem, VP. }
    rewrite !mul_mod_p_ex2 by assumption.
    apply ex2_congr; [f_equal; ring|]. rewrite Z.add_0_l, Z.mod_mod by lia. f_equal. ring.
Qed.

End Proofs.
