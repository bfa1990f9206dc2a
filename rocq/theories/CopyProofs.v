(** Lemmas about copies (CopyModel against CopySpec). *)
From Verif Require Import Base GroupModel GroupSpec GroupProofs ElgamalModel ChaumModel ManifestModel BallotModel
  EncryptModel EncryptProofs HashedProofs SerializeSpec CopyModel CopySpec.
Local Open Scope Z_scope.

Lemma map_same {A} (f : A -> A) l : (forall x, f x = x) -> map f l = l.
Proof. intros H. induction l as [|x l IH]; cbn; [|rewrite H, IH]; reflexivity. Qed.
Lemma mapM_same {A} (f : A -> outcome A) l : (forall x, In x l -> f x = Ok x) -> mapM f l = Ok l.
Proof.
  induction l as [|x l IH]; intros H; cbn; [reflexivity|].
  rewrite (H x) by (left; reflexivity). cbn. rewrite IH; [reflexivity|]. intros y Y. apply H. right. exact Y.
Qed.
Lemma mapM_inv {A} (f : A -> outcome A) (P : A -> bool) l :
  (forall x y, f x = Ok y -> P x = true) -> forall l', mapM f l = Ok l' -> forallb P l = true.
Proof.
  intros H. induction l as [|x l IH]; intros l' E; cbn in E |- *; [reflexivity|].
  apply bind_ok in E. destruct E as (y & E1 & E). apply bind_ok in E. destruct E as (ys & E2 & _).
  rewrite (H _ _ E1), (IH _ E2). reflexivity.
Qed.
Lemma annotated_copy_eq x : annotated_copy x = x. Proof. destruct x; reflexivity. Qed.
Lemma language_copy_eq x : language_copy x = x. Proof. destruct x; reflexivity. Qed.
Lemma text_copy_eq x : text_copy x = x. Proof. apply map_same, language_copy_eq. Qed.
Lemma contact_copy_eq x : contact_copy x = x.
Proof.
  destruct x as [n a e p]. unfold contact_copy. cbn [cx_name cx_address cx_email cx_phone].
  rewrite map_id, !(map_same annotated_copy) by apply annotated_copy_eq. reflexivity.
Qed.
Lemma unit_copy_eq x : unit_copy x = x.
Proof. destruct x as [i n t [c|]]; unfold unit_copy; cbn; [rewrite contact_copy_eq|]; reflexivity. Qed.
Lemma style_copy_eq x : style_copy x = x.
Proof. destruct x. unfold style_copy. cbn. rewrite !map_id. reflexivity. Qed.
Lemma candidate_copy_eq x : candidate_copy x = x.
Proof. destruct x as [i [n|] p im w]; unfold candidate_copy; cbn; [rewrite text_copy_eq|]; reflexivity. Qed.
Lemma selection_copy_eq x : selection_copy x = x. Proof. destruct x; reflexivity. Qed.
Lemma pselection_copy_eq x : pselection_copy x = x. Proof. destruct x; reflexivity. Qed.
Lemma pcontest_copy_eq x : pcontest_copy x = x.
Proof. destruct x. unfold pcontest_copy. cbn. rewrite (map_same pselection_copy) by apply pselection_copy_eq. reflexivity. Qed.
Lemma pballot_copy_eq x : pballot_copy x = x.
Proof. destruct x. unfold pballot_copy. cbn. rewrite (map_same pcontest_copy) by apply pcontest_copy_eq. reflexivity. Qed.
Lemma ciphertext_copy_eq x : ciphertext_copy x = x. Proof. destruct x; reflexivity. Qed.
Lemma hashed_copy_eq x : hashed_copy x = x. Proof. destruct x; reflexivity. Qed.
Lemma cproof_copy_eq x : cproof_copy x = x. Proof. destruct x; reflexivity. Qed.
Lemma party_clone_iff p : party_clone p = p <-> has (pa_name p) = true.
Proof.
  destruct p as [i [n|] a c l]; unfold party_clone; cbn; [tauto|]. split; [|discriminate].
  intros H. injection H as H. discriminate H.
Qed.
Lemma default_usual c : default_allowed (cd_variation c) (cd_elected c) = usual_allowed c.
Proof. unfold usual_allowed, default_allowed. destruct (cd_variation c); reflexivity. Qed.
Lemma contest_clone_iff c : contest_clone c = Ok c <-> plain_contest c = true.
Proof.
  unfold plain_contest. rewrite <- default_usual. destruct c as [i d q v e a n [t|] [u|] l [|p ps]];
    unfold contest_clone; cbn -[default_allowed]; split; intros H; try discriminate H; try reflexivity;
    try (apply Ok_inj in H; injection H; intros; try discriminate; try congruence).
  - apply Z.eqb_eq. congruence.
  - apply Z.eqb_eq in H. rewrite H. reflexivity.
Qed.
Lemma contest_clone_ub c : subtitled c = false <-> contest_clone c = UB.
Proof. destruct c as [i d q v e a n [t|] [u|] l ps]; unfold contest_clone, subtitled; cbn; split; congruence. Qed.
Lemma contest_ph_copy_iff c : contest_ph_copy c = Ok c <-> plain_contest (cw_base c) = true.
Proof.
  rewrite <- contest_clone_iff. destruct c as [b l]. unfold contest_ph_copy. cbn [cw_base cw_placeholders].
  rewrite (map_same selection_copy) by apply selection_copy_eq. split.
  - intros H. apply bind_ok in H. destruct H as (y & E & H). apply Ok_inj in H. injection H as ->. exact E.
  - intros ->. reflexivity.
Qed.
Lemma cselection_copy_iff s : cselection_copy s = Ok s <-> complete_selection true s = true.
Proof.
  unfold cselection_copy, complete_selection. destruct (cs_nonce s), (cs_proof s); cbn; split; congruence.
Qed.
Lemma cselection_copy_any s t : cselection_copy s = Ok t -> t = s /\ complete_selection true s = true.
Proof.
  unfold cselection_copy, complete_selection. destruct (cs_nonce s), (cs_proof s); cbn; intros H; try discriminate H.
  apply Ok_inj in H. auto.
Qed.
Lemma ccontest_copy_any c t : ccontest_copy c = Ok t -> t = c /\ complete_contest true c = true.
Proof.
  unfold ccontest_copy. intros H. apply bind_ok in H. destruct H as (l & E & H).
  assert (C : forallb (complete_selection true) (cc_selections c) = true).
  { eapply mapM_inv; [|exact E]. intros x y X. apply (cselection_copy_any x y X). }
  assert (L : mapM cselection_copy (cc_selections c) = Ok (cc_selections c)).
  { apply mapM_same. intros x X. apply cselection_copy_iff. rewrite forallb_forall in C. apply C, X. }
  rewrite L in E. apply Ok_inj in E. subst l. unfold complete_contest. rewrite C.
  destruct c as [i q d l [n|] a h [p|] [e|]]; cbn in H |- *; try discriminate H. apply Ok_inj in H. auto.
Qed.
Lemma ccontest_copy_iff c : ccontest_copy c = Ok c <-> complete_contest true c = true.
Proof.
  split; [intros H; apply (ccontest_copy_any c c H)|]. unfold complete_contest. intros H.
  rewrite !andb_true_iff in H. destruct H as [[[H P] E] N]. cbn in N.
  unfold ccontest_copy. rewrite mapM_same.
  - cbn. destruct c as [i q d l [n|] a h [p|] [e|]]; cbn in *; try discriminate. reflexivity.
  - intros x X. apply cselection_copy_iff. rewrite forallb_forall in H. apply H, X.
Qed.
Lemma cballot_copy_any b t : cballot_copy b = Ok t -> t = b /\ complete_ballot true b = true.
Proof.
  unfold cballot_copy. intros H. apply bind_ok in H. destruct H as (l & E & H).
  assert (C : forallb (complete_contest true) (cb_contests b) = true).
  { eapply mapM_inv; [|exact E]. intros x y X. apply (ccontest_copy_any x y X). }
  assert (L : mapM ccontest_copy (cb_contests b) = Ok (cb_contests b)).
  { apply mapM_same. intros x X. apply ccontest_copy_iff. rewrite forallb_forall in C. apply C, X. }
  rewrite L in E. apply Ok_inj in E. subst l. unfold complete_ballot. rewrite C.
  destruct b as [i s m sd l k t0 [n|] h]; cbn in H |- *; try discriminate H. apply Ok_inj in H. auto.
Qed.
Lemma cballot_copy_iff b : cballot_copy b = Ok b <-> complete_ballot true b = true.
Proof.
  split; [intros H; apply (cballot_copy_any b b H)|]. unfold complete_ballot. intros H.
  rewrite andb_true_iff in H. destruct H as [H N]. cbn in N. unfold cballot_copy. rewrite mapM_same.
  - cbn. destruct b as [i s m sd l k t0 [n|] h]; cbn in *; try discriminate. reflexivity.
  - intros x X. apply ccontest_copy_iff. rewrite forallb_forall in H. apply H, X.
Qed.
Lemma cballot_copy_ub b : complete_ballot true b = false -> cballot_copy b = UB.
Proof.
  intros H. destruct (cballot_copy b) as [t|e|] eqn:E; [|exfalso|reflexivity].
  - apply cballot_copy_any in E. destruct E as [_ E]. rewrite E in H. discriminate H.
  - assert (S : forall l e, mapM cselection_copy l <> Throw e).
    { induction l as [|x l IH]; intros e0; cbn; [discriminate|]. unfold cselection_copy at 1.
      destruct (cs_nonce x), (cs_proof x); cbn; try discriminate.
      destruct (mapM cselection_copy l) eqn:X; cbn; try discriminate. intros Y. apply (IH e1). reflexivity. }
    assert (C : forall l e, mapM ccontest_copy l <> Throw e).
    { induction l as [|x l IH]; intros e0; cbn; [discriminate|]. unfold ccontest_copy at 1.
      destruct (mapM cselection_copy (cc_selections x)) eqn:X; cbn; try discriminate; [|destruct (S _ _ X)].
      destruct (cc_nonce x), (cc_proof x), (cc_hashed x); cbn; try discriminate.
      destruct (mapM ccontest_copy l) eqn:Y; cbn; try discriminate. intros Z. apply (IH e1). reflexivity. }
    unfold cballot_copy in E. destruct (mapM ccontest_copy (cb_contests b)) eqn:X; cbn in E; try discriminate; [|destruct (C _ _ X)].
    destruct (cb_nonce b); discriminate.
Qed.

Section Proofs.
Context (gp : params).
Lemma clone_q_iff v w : clone_q gp v = Ok w <-> w = v /\ small gp v = true.
Proof.
  unfold clone_q, make_q, small. cbn. destruct (Z.ltb_spec (gpQ gp) v); destruct (Z.leb_spec v (gpQ gp)); try lia;
    split; intros H1; try discriminate H1; try (destruct H1; discriminate); try (apply Ok_inj in H1; subst; auto).
  destruct H1 as [-> _]. reflexivity.
Qed.
Lemma clone_q_small v : small gp v = true -> clone_q gp v = Ok v.
Proof. intros H. apply clone_q_iff. auto. Qed.
Lemma clone_q_big v : small gp v = false -> clone_q gp v = Throw OutOfRange.
Proof.
  unfold clone_q, make_q, small. cbn. intros H. apply Z.leb_gt in H.
  destruct (Z.ltb_spec (gpQ gp) v); [reflexivity|lia].
Qed.
Lemma clone_p_eq v : clone_p gp v = Ok v. Proof. reflexivity. Qed.
Lemma triple_copy_iff t : triple_copy gp t = if small_triple gp t then Ok t else Throw OutOfRange.
Proof.
  unfold triple_copy, small_triple. destruct (small gp (tr_exp t)) eqn:E.
  - rewrite (clone_q_small _ E). destruct t. reflexivity.
  - rewrite (clone_q_big _ E). reflexivity.
Qed.
Lemma quadruple_copy_iff t : quadruple_copy gp t = if small_quad gp t then Ok t else Throw OutOfRange.
Proof.
  unfold quadruple_copy, small_quad. destruct (small gp (qd_exp1 t)) eqn:E; cbn [andb].
  - rewrite (clone_q_small _ E). cbn [bind]. destruct (small gp (qd_exp2 t)) eqn:F.
    + rewrite (clone_q_small _ F). destruct t. reflexivity.
    + rewrite (clone_q_big _ F). reflexivity.
  - rewrite (clone_q_big _ E). reflexivity.
Qed.
Lemma two_copy_iff t : two_copy gp t = if small_two gp t then Ok t else Throw OutOfRange.
Proof.
  unfold two_copy, small_two. rewrite !triple_copy_iff, quadruple_copy_iff.
  destruct (small_triple gp (tq_t1 t)), (small_triple gp (tq_t2 t)), (small_quad gp (tq_q t)); cbn; try reflexivity.
  destruct t. reflexivity.
Qed.
Lemma kept_iff {A} (f : A -> value) (x : A) c : (forall a b, f a = f b -> a = b) ->
  (kept f x c = Ok (f x, f x) <-> c = Ok x).
Proof.
  intros I. unfold kept. destruct c as [y|e|]; cbn; split; intros H; try discriminate H.
  - apply Ok_inj in H. apply (f_equal fst) in H. cbn in H. apply I in H. subst y. reflexivity.
  - apply Ok_inj in H. subst y. reflexivity.
Qed.
Lemma ok_if {A} (b : bool) (x : A) e : (if b then Ok x else Throw e) = Ok x <-> b = true.
Proof. destruct b; split; congruence. Qed.
Lemma ok_eq {A} (x y : A) : Ok x = Ok y <-> x = y.
Proof. split; [apply Ok_inj|intros ->; reflexivity]. Qed.
Lemma copy_iff v : copy gp v = Ok (v, v) <-> copyable gp v = true.
Proof.
  destruct v; cbn [copy copyable];
    try (rewrite kept_iff by congruence;
         rewrite ?annotated_copy_eq, ?language_copy_eq, ?text_copy_eq, ?contact_copy_eq, ?unit_copy_eq, ?style_copy_eq,
           ?candidate_copy_eq, ?selection_copy_eq, ?pselection_copy_eq, ?pcontest_copy_eq, ?pballot_copy_eq,
           ?ciphertext_copy_eq, ?hashed_copy_eq, ?cproof_copy_eq; unfold dproof_copy; try tauto).
  - rewrite ok_eq. apply party_clone_iff.
  - apply contest_clone_iff.
  - apply contest_ph_copy_iff.
  - apply cselection_copy_iff.
  - apply ccontest_copy_iff.
  - apply cballot_copy_iff.
  - destruct x as [[s|] [p|]]; cbn; split; intros H; congruence.
  - rewrite triple_copy_iff. apply ok_if.
  - rewrite quadruple_copy_iff. apply ok_if.
  - rewrite two_copy_iff. apply ok_if.
Qed.
Lemma some_ok {A} (x y : outcome A) : Some x = Some y <-> x = y.
Proof. split; congruence. Qed.
Lemma bind_ok_iff {A B} (f : A -> B) (I : forall a b, f a = f b -> a = b) (c : outcome A) x :
  (do p <- c; Ok (f p)) = Ok (f x) <-> c = Ok x.
Proof.
  destruct c as [y|e|]; cbn; split; intros H; try discriminate H.
  - apply Ok_inj in H. apply I in H. subst. reflexivity.
  - apply Ok_inj in H. subst. reflexivity.
Qed.
Lemma dproof_clone_iff p : dproof_clone gp p = Ok p <-> clonable gp (VDisjunctive p) = true.
Proof.
  cbn [clonable]. unfold dproof_clone. rewrite !clone_p_eq. cbn [bind]. split.
  - intros H. apply bind_ok in H. destruct H as (c0 & E0 & H). apply bind_ok in H. destruct H as (c1 & E1 & H).
    apply bind_ok in H. destruct H as (c & E & H). apply bind_ok in H. destruct H as (v0 & F0 & H).
    apply bind_ok in H. destruct H as (v1 & F1 & H). apply Ok_inj in H.
    apply clone_q_iff in E0, E1, E, F0, F1. destruct E0 as [_ ->], E1 as [_ ->], E as [_ ->], F0 as [_ ->], F1 as [_ ->].
    rewrite !andb_true_r. apply Z.eqb_eq. rewrite <- H. reflexivity.
  - rewrite !andb_true_iff. intros [[[[[B C0] C1] C] V0] V1]. apply Z.eqb_eq in B.
    rewrite !clone_q_small by assumption. cbn [bind]. f_equal. destruct p. cbn in *. subst. reflexivity.
Qed.
Lemma clone_iff v : has_clone v = true -> (clone gp v = Some (Ok v) <-> clonable gp v = true).
Proof.
  destruct v; intros H; try discriminate H; cbn [clone clonable copyable]; rewrite some_ok.
  - rewrite pselection_copy_eq. tauto.
  - destruct x. cbn. tauto.
  - destruct x. cbn. tauto.
  - rewrite bind_ok_iff by congruence. apply dproof_clone_iff.
  - rewrite bind_ok_iff, triple_copy_iff by congruence. apply ok_if.
  - rewrite bind_ok_iff, quadruple_copy_iff by congruence. apply ok_if.
  - rewrite bind_ok_iff, two_copy_iff by congruence. apply ok_if.
Qed.
Lemma clone_none v : has_clone v = false -> clone gp v = None.
Proof. destruct v; intros H; try discriminate H; reflexivity. Qed.

Lemma triple_assign_iff t s : triple_assign gp t s = if small_triple gp s then (s, Ok tt) else (t, Throw OutOfRange).
Proof.
  unfold triple_assign, small_triple. destruct (small gp (tr_exp s)) eqn:E.
  - rewrite (clone_q_small _ E), !clone_p_eq. destruct s. reflexivity.
  - rewrite (clone_q_big _ E). reflexivity.
Qed.
(** With a second exponent above Q the target is left half assigned. *)
Lemma quadruple_assign_iff t s : quadruple_assign gp t s =
  if small_quad gp s then (s, Ok tt)
  else if small gp (qd_exp1 s)
       then ({| qd_exp1 := qd_exp1 s; qd_exp2 := qd_exp2 t; qd_g1 := qd_g1 t; qd_g2k1 := qd_g2k1 t |}, Throw OutOfRange)
       else (t, Throw OutOfRange).
Proof.
  unfold quadruple_assign, small_quad. destruct (small gp (qd_exp1 s)) eqn:E; cbn [andb].
  - rewrite (clone_q_small _ E). destruct (small gp (qd_exp2 s)) eqn:F.
    + rewrite (clone_q_small _ F), !clone_p_eq. destruct s. reflexivity.
    + rewrite (clone_q_big _ F). reflexivity.
  - rewrite (clone_q_big _ E). reflexivity.
Qed.
Lemma two_assign_ended t s : snd (two_assign gp t s) = Ok tt <-> small_two gp s = true.
Proof.
  unfold two_assign, small_two. rewrite !triple_copy_iff, quadruple_copy_iff.
  destruct (small_triple gp (tq_t1 s)), (small_triple gp (tq_t2 s)), (small_quad gp (tq_q s)); cbn; split; congruence.
Qed.
Lemma two_assign_small t s : small_two gp s = true -> two_assign gp t s = (s, Ok tt).
Proof.
  unfold two_assign, small_two. rewrite !triple_copy_iff, quadruple_copy_iff.
  destruct (small_triple gp (tq_t1 s)), (small_triple gp (tq_t2 s)), (small_quad gp (tq_q s)); cbn; try discriminate.
  destruct s. reflexivity.
Qed.
Lemma by_value_iff t s : by_value gp t s = done s s <-> copyable gp s = true.
Proof.
  rewrite <- copy_iff. unfold by_value, done. destruct (copy gp s) as [[c a]|e|]; split; intros H; try discriminate H.
  - injection H as -> ->. reflexivity.
  - apply Ok_inj in H. injection H as -> ->. reflexivity.
Qed.
Lemma done_inj a b c d : done a b = done c d <-> a = c /\ b = d.
Proof. unfold done. split; [intros H; injection H; auto|intros [-> ->]; reflexivity]. Qed.
Lemma assign_iff t s : same_class t s = true -> (assign gp t s = done s s <-> assignable gp t s).
Proof.
  destruct t, s; intros H; try discriminate H; clear H; cbn [assign assignable]; try apply by_value_iff.
  - rewrite annotated_copy_eq, done_inj. cbn. tauto.
  - rewrite language_copy_eq, done_inj. cbn. tauto.
  - rename x into y, x0 into z. unfold contest_ph_copy. rewrite (map_same selection_copy) by apply selection_copy_eq.
    destruct (contest_clone (cw_base z)) as [b|e|] eqn:E; cbn.
    + rewrite done_inj. split.
      * intros [H _]. injection H as H. split; [rewrite <- H; reflexivity|].
        destruct (subtitled (cw_base z)) eqn:S; [reflexivity|]. apply contest_clone_ub in S. congruence.
      * intros [H _]. split; [|reflexivity]. rewrite H. destruct z. reflexivity.
    + exfalso. unfold contest_clone in E. destruct (cd_title (cw_base z)); [destruct (cd_subtitle (cw_base z))|]; discriminate E.
    + apply contest_clone_ub in E. rewrite E. split; [intros H; discriminate H|intros [_ H]; discriminate H].
  - rename x into y, x0 into z. rewrite triple_assign_iff. cbn [copyable]. destruct (small_triple gp z) eqn:E.
    + split; reflexivity.
    + split; intros H; discriminate H.
  - rename x into y, x0 into z. rewrite quadruple_assign_iff. cbn [copyable]. destruct (small_quad gp z) eqn:E.
    + split; reflexivity.
    + split; intros H; [|discriminate H]. destruct (small gp (qd_exp1 z)); discriminate H.
  - rename x into y, x0 into z. cbn [copyable]. split.
    + intros H. apply (two_assign_ended y z). destruct (two_assign gp y z) as [r o]. apply (f_equal as_ended) in H. exact H.
    + intros H. rewrite (two_assign_small y z H). reflexivity.
Qed.

(** ** Programs *)
Lemma vput_same s i v : nth_error s i = Some v -> vput s i v = s.
Proof.
  unfold vput. revert i. induction s as [|x s IH]; intros [|i] H; try discriminate H; cbn in *.
  - injection H as ->. reflexivity.
  - f_equal. apply IH, H.
Qed.
Lemma vput_at s i j (t v : value) : nth_error s i = Some t ->
  nth_error (vput s i v) j = if Nat.eqb i j then Some v else nth_error s j.
Proof.
  unfold vput. revert i j. induction s as [|x s IH]; intros [|i] [|j] H; try discriminate H; cbn in *; try reflexivity.
  apply IH, H.
Qed.
Lemma vput_put s i (t v w : value) : nth_error s i = Some t -> vput (vput s i v) i w = vput s i w.
Proof.
  unfold vput. revert i. induction s as [|x s IH]; intros [|i] H; try discriminate H; cbn in *; [reflexivity|].
  f_equal. apply IH, H.
Qed.
Lemma copy_source v c a : copy gp v = Ok (c, a) -> (exists k, v = VKeyPair k) \/ a = v.
Proof.
  destruct v; cbn [copy]; intros H; try (left; eexists; reflexivity); right; unfold kept in H;
    apply bind_ok in H; destruct H as (y & _ & H); apply pair_ok in H; destruct H as [_ <-]; reflexivity.
Qed.
Lemma assign_self v : as_target (assign gp v v) = v -> as_ended (assign gp v v) = Ok tt ->
  assignable gp v v \/ exists k, v = VKeyPair k.
Proof.
  assert (B : forall u, as_target (by_value gp u u) = u -> as_ended (by_value gp u u) = Ok tt ->
                copyable gp u = true \/ exists k, u = VKeyPair k).
  { intros u. unfold by_value. destruct (copy gp u) as [[c a]|e|] eqn:C; cbn; intros H1 H2; try discriminate H2.
    subst c. destruct (copy_source _ _ _ C) as [K| ->]; [right; exact K|left; apply copy_iff, C]. }
  destruct v; cbn [assign]; try (intros H1 H2; exact (B _ H1 H2)); intros H1 H2; left; cbn [assignable].
  - reflexivity.
  - reflexivity.
  - split; [reflexivity|]. destruct (subtitled (cw_base x)) eqn:S; [reflexivity|]. apply contest_clone_ub in S.
    unfold contest_ph_copy in H2. rewrite S in H2. discriminate H2.
  - revert H2. rewrite triple_assign_iff. cbn [copyable]. destruct (small_triple gp x); [reflexivity|discriminate].
  - revert H2. rewrite quadruple_assign_iff. cbn [copyable]. destruct (small_quad gp x); [reflexivity|].
    destruct (small gp (qd_exp1 x)); discriminate.
  - apply (two_assign_ended x x). destruct (two_assign gp x x) as [r o]. exact H2.
Qed.
Lemma app_last {A} (s t : list A) x y : s ++ [x] = t ++ [y] <-> s = t /\ x = y.
Proof. split; [apply app_inj_tail|intros [-> ->]; reflexivity]. Qed.
Lemma step_iff s op : vstep gp s op = (ideal_step s op, Ok tt) <-> op_calm gp s op.
Proof.
  destruct op as [i|i|i j]; cbn [op_calm vstep ideal_step].
  - destruct (nth_error s i) as [v|] eqn:E; [|tauto]. rewrite <- copy_iff.
    destruct (copy gp v) as [[c a]|e|] eqn:C; split; intros H; try discriminate H.
    + apply (f_equal fst) in H. cbn [fst] in H. apply app_last in H. destruct H as [H ->].
      apply (f_equal (fun l => nth_error l i)) in H. rewrite (vput_at s i i v a E), Nat.eqb_refl, E in H.
      injection H as ->. reflexivity.
    + apply pair_ok in H. destruct H as [-> ->]. rewrite (vput_same s i v E). reflexivity.
  - destruct (nth_error s i) as [v|] eqn:E; [|tauto]. destruct (has_clone v) eqn:K.
    + transitivity (clone gp v = Some (Ok v)); [|rewrite (clone_iff v K); tauto].
      destruct (clone gp v) as [[c|e|]|] eqn:C; split; intros H; try discriminate H.
      * apply (f_equal fst) in H. cbn [fst] in H. apply app_last in H. destruct H as [_ ->]. reflexivity.
      * injection H as ->. reflexivity.
      * apply (f_equal (fun p => List.length (fst p))) in H. cbn [fst] in H. rewrite app_length in H. cbn in H. lia.
    + rewrite (clone_none v K). split; [intros _ H; discriminate H|reflexivity].
  - destruct (nth_error s i) as [t|] eqn:E; [|tauto]. destruct (nth_error s j) as [v|] eqn:F; [|tauto].
    destruct (same_class t v) eqn:C; [|split; [intros _ H; discriminate H|reflexivity]].
    change (firstn i s ++ v :: skipn (S i) s) with (vput s i v). cbv zeta. split.
    + intros H _. assert (H1 := f_equal fst H). assert (H2 := f_equal snd H). cbn [fst snd] in H1, H2.
      set (r := assign gp t v) in *.
      assert (EI : nth_error (vput s j (as_source r)) i = Some (if Nat.eqb j i then as_source r else t)).
      { rewrite (vput_at s j i v _ F). destruct (Nat.eqb j i); [reflexivity|exact E]. }
      assert (T : as_target r = v).
      { apply (f_equal (fun l => nth_error l i)) in H1.
        rewrite (vput_at _ i i _ _ EI), (vput_at s i i t _ E), Nat.eqb_refl in H1. injection H1 as ->. reflexivity. }
      destruct (Nat.eq_dec i j) as [IJ|IJ].
      * subst j. rewrite E in F. injection F as F. subst t. destruct (assign_self v T H2) as [A|A]; auto.
      * left. apply (assign_iff t v C).
        assert (S : as_source r = v).
        { apply (f_equal (fun l => nth_error l j)) in H1. apply Nat.eqb_neq in IJ.
          rewrite (vput_at _ i j _ _ EI), (vput_at s i j t _ E), IJ, (vput_at s j j v _ F), Nat.eqb_refl, F in H1.
          injection H1 as ->. reflexivity. }
        unfold done. fold r. destruct r as [a b c]. cbn [as_target as_source as_ended] in *. congruence.
    + intros H. destruct (H eq_refl) as [A|[<- (k & ->)]].
      * rewrite (proj2 (assign_iff t v C) A). cbn [done as_source as_target as_ended].
        rewrite (vput_same s j v F). reflexivity.
      * rewrite E in F. injection F as ->. cbn [assign by_value copy keypair_copy done as_target as_source as_ended].
        rewrite (vput_put s i _ _ _ E). reflexivity.
Qed.
Lemma step_calm s op : op_calm gp s op -> vstep gp s op = (ideal_step s op, Ok tt).
Proof. apply step_iff. Qed.
Lemma runs_calm ops : forall s, calm gp s ops -> vruns gp s ops = (ideal_runs s ops, map (fun _ => Ok tt) ops).
Proof.
  induction ops as [|op t IH]; intros s; cbn [calm vruns ideal_runs fold_left map]; [reflexivity|].
  intros [H C]. rewrite (step_calm s op H), (IH _ C). reflexivity.
Qed.
End Proofs.

(** ** Encrypted ballots are complete *)
Section Encrypted.
Context (gp : params) (sha : bytes -> Z) (hmac : bytes -> bytes -> Z) (dump : JsonModel.json -> outcome bytes).
Lemma encrypt_selection_complete E s d pk ext seed ph verify st c st' :
  encrypt_selection gp sha E s d pk ext seed ph verify st = Ok (c, st') -> complete_selection true c = true.
Proof.
  unfold encrypt_selection. destruct (negb (pselection_valid s (sd_id d))); [intros H; apply lift_ok in H; destruct H; discriminate|].
  intros H. apply mbind_ok in H. destruct H as (tq & s1 & _ & H). apply mbind_ok in H. destruct H as (c0 & s2 & H1 & H).
  assert (C : complete_selection true c0 = true).
  { destruct tq as [t|].
    - apply mbind_ok in H1. destruct H1 as (p & s3 & _ & H1). apply ret_ok in H1. destruct H1 as [-> _]. reflexivity.
    - apply mbind_ok in H1. destruct H1 as (ct & s3 & _ & H1). apply mbind_ok in H1. destruct H1 as (u & s4 & _ & H1).
      apply mbind_ok in H1. destruct H1 as (v & s5 & _ & H1). apply mbind_ok in H1. destruct H1 as (w & s6 & _ & H1).
      apply mbind_ok in H1. destruct H1 as (p & s7 & _ & H1). apply ret_ok in H1. destruct H1 as [-> _]. reflexivity. }
  destruct (negb verify); [apply ret_ok in H; destruct H as [-> _]; exact C|].
  destruct (cselection_valid gp sha c0 _ pk ext); [apply ret_ok in H; destruct H as [-> _]; exact C|].
  apply lift_ok in H. destruct H. discriminate.
Qed.
Lemma mfold_complete {A C} (f : C -> A -> M (cselection * C)) l :
  (forall c x s y c' s', f c x s = Ok ((y, c'), s') -> complete_selection true y = true) ->
  forall c s ys c' s', mfold f l c s = Ok ((ys, c'), s') -> forallb (complete_selection true) ys = true.
Proof.
  intros F. induction l as [|x l IH]; intros c s ys c' s' H; apply mfold_ok in H.
  - destruct H as (-> & _). reflexivity.
  - destruct H as (y & c1 & s1 & ys' & H1 & H2 & ->). cbn. rewrite (F _ _ _ _ _ _ H1), (IH _ _ _ _ _ H2). reflexivity.
Qed.
Lemma real_complete E ns ov pk ext seed verify : forall c x s y c' s',
  encrypt_real gp sha E ns ov pk ext seed verify c x s = Ok ((y, c'), s') -> complete_selection true y = true.
Proof.
  intros c x s y c' s' X. unfold encrypt_real in X. destruct (find _ _); [|apply lift_ok in X; destruct X; discriminate].
  cbv zeta in X. apply mbind_ok in X. destruct X as (c0 & s0 & X1 & X). apply ret_ok in X. destruct X as [X _].
  injection X as <- _. exact (encrypt_selection_complete _ _ _ _ _ _ _ _ _ _ _ X1).
Qed.
Lemma placeholder_complete E ov el pk ext seed verify : forall c x s y c' s',
  encrypt_placeholder gp sha E ov el pk ext seed verify c x s = Ok ((y, c'), s') -> complete_selection true y = true.
Proof.
  intros c x s y c' s' X. unfold encrypt_placeholder in X. cbv zeta in X.
  apply mbind_ok in X. destruct X as (c0 & s0 & X1 & X). apply ret_ok in X.
  destruct X as [X _]. injection X as <- _. exact (encrypt_selection_complete _ _ _ _ _ _ _ _ _ _ _ X1).
Qed.
Lemma made_complete t id seq dh sels pk ext pn el n h r :
  ccontest_make gp sha t id seq dh sels pk ext pn el (Some n) (Some h) = Ok r ->
  forallb (complete_selection true) sels = true -> complete_contest true r = true.
Proof.
  intros HM S. unfold ccontest_make in HM. repeat (apply bind_ok in HM; destruct HM as (? & _ & HM)).
  apply Ok_inj in HM. subst r. unfold complete_contest. cbn. rewrite S. reflexivity.
Qed.
Lemma encrypt_contest_complete E c m d pk ext seed verify st r st' :
  encrypt_contest gp sha hmac dump E c m d pk ext seed verify st = Ok (r, st') -> complete_contest true r = true.
Proof.
  unfold encrypt_contest. intros H. cbv zeta in H.
  destruct (pcontest_valid _ _ _ _ _ _); try (apply lift_ok in H; destruct H; discriminate).
  all: apply mbind_ok in H; destruct H as (dh & s1 & _ & H).
  all: destruct (HashModel.nonces_get gp sha _ (cd_seq (cw_base d))) as [cn ns1].
  all: apply mbind_ok in H; destruct H as (data & s2 & _ & H).
  all: apply mbind_ok in H; destruct H as ((reals & count) & s3 & HR & H).
  all: apply mbind_ok in H; destruct H as ((phs & count') & s4 & HP & H).
  all: apply mbind_ok in H; destruct H as (n1 & s5 & _ & H); apply mbind_ok in H; destruct H as (t1 & s6 & _ & H).
  all: apply mbind_ok in H; destruct H as (hc & s7 & _ & H); apply mbind_ok in H; destruct H as (n2 & s8 & _ & H).
  all: apply mbind_ok in H; destruct H as (t2 & s9 & _ & H); apply mbind_ok in H; destruct H as (r0 & s10 & HM & H).
  all: apply lift_ok in HM; destruct HM as [HM _].
  all: assert (C : complete_contest true r0 = true) by
    (apply (made_complete _ _ _ _ _ _ _ _ _ _ _ _ HM); rewrite forallb_app;
     rewrite (mfold_complete _ _ (real_complete _ _ _ _ _ _ _) _ _ _ _ _ HR);
     rewrite (mfold_complete _ _ (placeholder_complete _ _ _ _ _ _ _) _ _ _ _ _ HP); reflexivity).
  all: destruct (negb verify); [apply ret_ok in H; destruct H as [-> _]; exact C|].
  all: apply mbind_ok in H; destruct H as (ok & s11 & _ & H); destruct ok;
    [apply ret_ok in H; destruct H as [-> _]; exact C|apply lift_ok in H; destruct H; discriminate].
Qed.
Lemma mmap_complete {A} (f : A -> M ccontest) l :
  (forall x s y s', f x s = Ok (y, s') -> complete_contest true y = true) ->
  forall s ys s', mmap f l s = Ok (ys, s') -> forallb (complete_contest true) ys = true.
Proof.
  intros F. induction l as [|x l IH]; intros s ys s' H; cbn [mmap] in H.
  - apply ret_ok in H. destruct H as [-> _]. reflexivity.
  - apply mbind_ok in H. destruct H as (y & s1 & H1 & H). apply mbind_ok in H. destruct H as (ys' & s2 & H2 & H).
    apply ret_ok in H. destruct H as [-> _]. cbn. rewrite (F _ _ _ _ H1), (IH _ _ _ H2). reflexivity.
Qed.
Lemma encrypt_ballot_complete E b m cx seed nonce ts verify st r st' :
  encrypt_ballot gp sha hmac dump E b m cx seed nonce ts verify st = Ok (r, st') -> complete_ballot true r = true.
Proof.
  unfold encrypt_ballot. destruct (get_style m (pb_style b)); [|intros H; apply lift_ok in H; destruct H; discriminate].
  intros H. apply mbind_ok in H. destruct H as (n & s1 & _ & H). cbv zeta in H.
  apply mbind_ok in H. destruct H as (cs & s2 & HC & H). apply mbind_ok in H. destruct H as (t & s3 & _ & H).
  apply mbind_ok in H. destruct H as (now & s4 & _ & H). apply mbind_ok in H. destruct H as (r0 & s5 & HM & H).
  apply lift_ok in HM. destruct HM as [HM _].
  assert (CS : forallb (complete_contest true) cs = true).
  { unfold encrypt_contests in HC. destruct (get_style m (pb_style b)); [|apply lift_ok in HC; destruct HC; discriminate].
    apply mbind_ok in HC. destruct HC as (nb & s6 & _ & HC). apply mbind_ok in HC. destruct HC as (ds & s7 & _ & HC).
    eapply mmap_complete; [|exact HC]. intros x s y s' X. cbn beta in X.
    destruct (find _ _); [|apply lift_ok in X; destruct X; discriminate].
    exact (encrypt_contest_complete _ _ _ _ _ _ _ _ _ _ _ X). }
  assert (C : complete_ballot true r0 = true).
  { unfold cballot_make in HM. destruct cs as [|c0 cs]; [discriminate HM|].
    apply bind_ok in HM. destruct HM as (h & _ & HM). apply Ok_inj in HM. subst r0.
    unfold complete_ballot. cbn [cb_contests cb_nonce]. rewrite CS. reflexivity. }
  destruct (negb verify); [apply ret_ok in H; destruct H as [-> _]; exact C|].
  apply mbind_ok in H. destruct H as (ok & s8 & _ & H). destruct ok.
  - apply ret_ok in H. destruct H as [-> _]. exact C.
  - apply lift_ok in H. destruct H. discriminate.
Qed.
End Encrypted.
