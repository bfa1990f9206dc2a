(** Honest-verifier zero knowledge of the disjunctive proof. *)
From Coq Require Import Znumtheory Zpow_facts Permutation Psatz.
From Coq Require Import ZifyBool ZifyNat.
From Verif Require Import Base GroupModel GroupSpec GroupProofs Algebra CodecModel HashModel
  ElgamalModel ElgamalProofs ChaumModel ChaumProofs ZkSpec.
Open Scope Z_scope.
Ltac Zify.zify_post_hook ::= idtac.

Lemma in_zrange n x : In x (zrange n) <-> 0 <= x < n.
Proof.
  unfold zrange. rewrite in_map_iff. split.
  - intros (k & <- & Hk). apply in_seq in Hk. lia.
  - intros Hx. exists (Z.to_nat x). split; [lia|]. apply in_seq. lia.
Qed.
Lemma nodup_zrange n : NoDup (zrange n).
Proof. apply FinFun.Injective_map_NoDup; [intros a b; lia|apply seq_NoDup]. Qed.

Lemma nodup_app {A} (l l' : list A) :
  NoDup l -> NoDup l' -> (forall x, In x l -> In x l' -> False) -> NoDup (l ++ l').
Proof.
  intros Hl Hl' Hd. induction Hl as [|x l Hx Hl IH]; cbn [app]; [assumption|].
  constructor.
  - intros H. apply in_app_or in H. destruct H as [H|H]; [contradiction|].
    apply (Hd x); [left; reflexivity|assumption].
  - apply IH. intros y H1 H2. apply (Hd y); [right|]; assumption.
Qed.

Lemma nodup_list_prod {A B} (l : list A) (l' : list B) :
  NoDup l -> NoDup l' -> NoDup (list_prod l l').
Proof.
  intros Hl Hl'. induction Hl as [|x l Hx Hl IH]; cbn [list_prod]; [constructor|].
  apply nodup_app; [|assumption|].
  - apply FinFun.Injective_map_NoDup; [intros a b H; congruence|assumption].
  - intros [a b] H1 H2. apply in_map_iff in H1. destruct H1 as (y & E & _). injection E as <- <-.
    apply in_prod_iff in H2. tauto.
Qed.

Lemma in_triples n x y z : In (x, y, z) (all_triples n) <-> 0 <= x < n /\ 0 <= y < n /\ 0 <= z < n.
Proof. unfold all_triples. rewrite !in_prod_iff, !in_zrange. tauto. Qed.
Lemma nodup_triples n : NoDup (all_triples n).
Proof. repeat apply nodup_list_prod; apply nodup_zrange. Qed.

Lemma permutation_reindex {A B} (l : list A) (f : A -> A) (g h : A -> B) :
  NoDup l -> (forall x, In x l -> In (f x) l) ->
  (forall x y, In x l -> In y l -> f x = f y -> x = y) ->
  (forall x, In x l -> g x = h (f x)) ->
  Permutation (map g l) (map h l).
Proof.
  intros Hl Hin Hinj Hgh.
  assert (E : map g l = map h (map f l)).
  { rewrite map_map. apply map_ext_in. assumption. }
  rewrite E. apply Permutation_map. apply NoDup_Permutation_bis.
  - clear E Hgh. revert Hin Hinj. generalize l at 2 as big.
    induction Hl as [|x l Hx Hl IH]; intros big Hin Hinj; cbn [map]; constructor.
    + intros H. apply in_map_iff in H. destruct H as (y & Ey & Hy).
      assert (y = x) by (apply Hinj; cbn; auto). subst. contradiction.
    + apply (IH big); cbn in *; auto.
  - rewrite map_length. lia.
  - intros y Hy. apply in_map_iff in Hy. destruct Hy as (x & <- & Hx). auto.
Qed.

Section Zk.
Context (gp : params) (VP : valid_params gp).
Notation P := (gpP gp).
Notation Q := (gpQ gp).
Notation G := (gpG gp).

Lemma dchallenge_const c q m a0 b0 a1 b1 : 0 <= c < Q ->
  dchallenge gp (fun _ => c) q m a0 b0 a1 b1 = c.
Proof.
  intros Hc. pose proof (vp_Qhi _ VP). unfold dchallenge, hash_elems, hash_close.
  rewrite (Z.mod_small c W256) by lia.
  rewrite add_mod_q_correct by (assumption || unfold exp_ok; lia).
  rewrite Z.add_0_r. apply Z.mod_small. lia.
Qed.

Lemma add_cancel_mod a b k : 0 <= a < Q -> 0 <= b < Q -> (a + k) mod Q = (b + k) mod Q -> a = b.
Proof.
  intros Ha Hb H. destruct (mod_eq_diff gp VP _ _ H) as [j Hj].
  assert (j = 0) by nia. lia.
Qed.

Lemma sim_ex2 K r i c c1 v0 v1 :
  sub gp K -> 0 <= c1 < Q -> 0 <= v0 < Q -> 0 <= v1 < Q ->
  simulate gp (enc_exp gp K (i, r)) K c (c1, v0, v1) =
  let c0 := (c - c1) mod Q in
  {| dp_a0 := ex2 gp K (v0 - r * c0) 0;
     dp_b0 := ex2 gp K (- (i * c0)) (v0 - r * c0);
     dp_a1 := ex2 gp K (v1 - r * c1) 0;
     dp_b1 := ex2 gp K (c1 - i * c1) (v1 - r * c1);
     dp_c0 := c0; dp_c1 := c1; dp_c := c; dp_v0 := v0; dp_v1 := v1 |}.
Proof.
  intros HK Hc1 Hv0 Hv1. unfold simulate, enc_exp. cbn [ct_pad ct_data fst snd].
  pose proof (Qpos gp VP). pose proof (Z.mod_pos_bound (c - c1) Q ltac:(lia)) as Hc0.
  set (c0 := (c - c1) mod Q) in *. cbv zeta.
  pose proof (sub_G gp VP) as HG.
  assert (Hp : forall x e, sub gp x -> 0 <= e -> x ^ e mod P = ex gp x e).
  { intros x e Hx He. symmetry. apply ex_nonneg; assumption. }
  assert (E1 : forall v, 0 <= v -> G ^ v mod P = ex2 gp K v 0).
  { intros v Hv. rewrite Hp by assumption. unfold ex2.
    rewrite ex_0, Z.mul_1_r, ex_mod_idem by assumption. reflexivity. }
  assert (E2 : forall v, 0 <= v -> K ^ v mod P = ex2 gp K 0 v).
  { intros v Hv. rewrite Hp by assumption. unfold ex2.
    rewrite ex_0, Z.mul_1_l, ex_mod_idem by assumption. reflexivity. }
  assert (E3 : forall a b e, 0 <= e -> ex2 gp K a b ^ e mod P = ex2 gp K (a * e) (b * e)).
  { intros a b e He. rewrite Hp by (try apply sub_ex2; assumption). apply ex2_ex; assumption. }
  assert (Z : forall a k, a mod Q = (a + k * Q) mod Q) by (intros; rewrite Z.mod_add by lia; reflexivity).
  f_equal.
  - rewrite Zmult_mod, E1, E3, ex2_mul by (assumption || lia). apply ex2_congr; [|f_equal; lia].
    rewrite (Z (v0 - r * c0) r). f_equal. ring.
  - rewrite Zmult_mod, E2, E3, ex2_mul by (assumption || lia). apply ex2_congr.
    + rewrite (Z (- (i * c0)) i). f_equal. ring.
    + rewrite (Z (v0 - r * c0) r). f_equal. ring.
  - rewrite Zmult_mod, E1, E3, ex2_mul by (assumption || lia). apply ex2_congr; [|f_equal; lia].
    rewrite (Z (v1 - r * c1) r). f_equal. ring.
  - rewrite Zmult_mod, (Zmult_mod (G ^ c1)), E1, E2, E3, !ex2_mul by (assumption || lia).
    apply ex2_congr.
    + rewrite (Z (c1 - i * c1) i). f_equal. ring.
    + rewrite (Z (v1 - r * c1) r). f_equal. ring.
Qed.

Lemma zero_transcripts_simulated K q r c :
  sub gp K -> 0 <= r < W256 -> 0 <= c < Q ->
  let m := enc_exp gp K (0, r) in
  Permutation
    (map (fun '(u, v, w) => make_zero_rand gp (fun _ => c) m r K q u v w) (all_triples Q))
    (map (fun x => Ok (simulate gp m K c x)) (all_triples Q)).
Proof.
  intros HK Hr Hc m. pose proof (Qpos gp VP) as HQ. pose proof (vp_Qhi _ VP) as HW.
  apply permutation_reindex with
    (f := fun '(u, v, w) => (w, (u + (c - w) mod Q * r) mod Q, (v + w * r) mod Q)).
  - apply nodup_triples.
  - intros [[u v] w] H. apply in_triples in H. apply in_triples.
    split; [tauto|]. split; apply Z.mod_pos_bound; assumption.
  - intros [[u v] w] [[u' v'] w'] H H' E. apply in_triples in H. apply in_triples in H'.
    injection E as Ew Eu Ev. subst w'.
    apply add_cancel_mod in Eu; [|tauto..]. apply add_cancel_mod in Ev; [|tauto..]. congruence.
  - intros [[u v] w] H. apply in_triples in H. destruct H as (Hu & Hv & Hw).
    unfold make_zero_rand. rewrite dchallenge_const by assumption.
    rewrite !a_plus_bc_mod_q_correct by (assumption || lia). cbn [bind].
    f_equal. unfold m. rewrite sim_ex2 by (assumption || apply Z.mod_pos_bound; assumption).
    rewrite sub_mod_q_correct by (assumption || unfold exp_ok; lia).
    rewrite !(k_pow_ex2 gp VP K HK), !(g_pow_ex2 gp VP K), mul_mod_p_ex2 by (assumption || lia).
    cbv zeta. f_equal; apply ex2_congr; try reflexivity;
      first [f_equal; ring | rewrite Zminus_mod_idemp_l; f_equal; ring].
Qed.

Lemma one_transcripts_simulated K q r c :
  sub gp K -> 0 <= r < W256 -> 0 <= c < Q ->
  let m := enc_exp gp K (1, r) in
  Permutation
    (map (fun '(u, v, w) => make_one_rand gp (fun _ => c) m r K q u v w) (all_triples Q))
    (map (fun x => Ok (simulate gp m K c x)) (all_triples Q)).
Proof.
  intros HK Hr Hc m. pose proof (Qpos gp VP) as HQ. pose proof (vp_Qhi _ VP) as HW.
  apply permutation_reindex with
    (f := fun '(u, v, w) => ((c + w) mod Q, (v + (Q - w) mod Q * r) mod Q,
                             (u + (c + w) mod Q * r) mod Q)).
  - apply nodup_triples.
  - intros [[u v] w] H. apply in_triples.
    repeat split; apply Z.mod_pos_bound; assumption.
  - intros [[u v] w] [[u' v'] w'] H H' E. apply in_triples in H. apply in_triples in H'.
    injection E as Ew Ev Eu. rewrite (Z.add_comm c w), (Z.add_comm c w') in Ew.
    apply add_cancel_mod in Ew; [|tauto..]. subst w'.
    apply add_cancel_mod in Eu; [|tauto..]. apply add_cancel_mod in Ev; [|tauto..]. congruence.
  - intros [[u v] w] H. apply in_triples in H. destruct H as (Hu & Hv & Hw).
    unfold make_one_rand. rewrite dchallenge_const by assumption.
    rewrite !a_plus_bc_mod_q_correct by (assumption || lia). cbn [bind].
    f_equal. unfold m. rewrite sim_ex2 by (assumption || apply Z.mod_pos_bound; assumption).
    rewrite sub_mod_q_correct by (assumption || unfold exp_ok; lia).
    rewrite add_mod_q_correct by (assumption || unfold exp_ok; lia).
    rewrite !(k_pow_ex2 gp VP K HK), !(g_pow_ex2 gp VP K), mul_mod_p_ex2 by (assumption || lia).
    cbv zeta.
    assert (E0 : (c - (c + w) mod Q) mod Q = (Q - w) mod Q).
    { rewrite Zminus_mod_idemp_r. replace (Q - w) with (c - (c + w) + 1 * Q) by ring.
      rewrite Z.mod_add by lia. reflexivity. }
    rewrite E0. f_equal; try apply ex2_congr; try reflexivity;
      try (rewrite Zminus_mod_idemp_l; f_equal; ring).
    + rewrite Z.mul_1_l, <- Z.sub_0_l, Zminus_mod_idemp_r.
      replace (w + 0) with (0 - (Q - w) + 1 * Q) by ring. apply Z.mod_add. lia.
    + f_equal. ring.
Qed.
End Zk.
