(** Exponent algebra in the subgroup of exponent Q of (Z/P)*. *)
From Coq Require Import Znumtheory Zpow_facts Setoid Morphisms.
From Coq Require Import ZifyBool.
From Verif Require Import Base GroupModel GroupSpec GroupProofs.
Open Scope Z_scope.

Section Algebra.
Context (gp : params) (VP : valid_params gp).
Notation P := (gpP gp).
Notation Q := (gpQ gp).
Notation G := (gpG gp).

Lemma Ppos : 3 < P. Proof. apply P_pos, VP. Qed.
Lemma Qpos : 0 < Q. Proof. apply Q_pos, VP. Qed.
Lemma one_mod_P : 1 mod P = 1.
Proof. apply Z.mod_small. pose proof Ppos; lia. Qed.

Lemma pow_mod_base x e : 0 <= e -> ((x mod P) ^ e) mod P = (x ^ e) mod P.
Proof.
  intros He. pose proof Ppos. symmetry. apply Zpower_mod. lia.
Qed.

(** Membership in the subgroup. *)
Definition sub (x : Z) : Prop := (x ^ Q) mod P = 1.

Lemma sub_G : sub G. Proof. apply (vp_GQ _ VP). Qed.
Lemma sub_one : sub 1.
Proof. unfold sub. rewrite Z.pow_1_l by (pose proof Qpos; lia). apply one_mod_P. Qed.
Lemma sub_mod x : sub x -> sub (x mod P).
Proof. unfold sub. intros H. rewrite pow_mod_base by (pose proof Qpos; lia). exact H. Qed.
Lemma sub_mul x y : sub x -> sub y -> sub (x * y).
Proof.
  unfold sub. intros Hx Hy. rewrite Z.pow_mul_l, Zmult_mod, Hx, Hy.
  rewrite Z.mul_1_l. apply one_mod_P.
Qed.
Lemma sub_pow x e : sub x -> 0 <= e -> sub (x ^ e).
Proof.
  unfold sub. intros Hx He. rewrite <- Z.pow_mul_r by (pose proof Qpos; lia).
  rewrite Z.mul_comm, Z.pow_mul_r by (pose proof Qpos; lia).
  rewrite <- pow_mod_base by assumption. rewrite Hx, Z.pow_1_l by lia. apply one_mod_P.
Qed.

(** Exponents only matter modulo Q. *)
Lemma sub_pow_mod x e : sub x -> 0 <= e -> (x ^ e) mod P = (x ^ (e mod Q)) mod P.
Proof.
  intros Hx He. pose proof Qpos.
  rewrite (Z.div_mod e Q) at 1 by lia.
  pose proof (Z.mod_pos_bound e Q ltac:(lia)).
  pose proof (Z.div_pos e Q He ltac:(lia)).
  rewrite Z.pow_add_r by (try apply Z.mul_nonneg_nonneg; lia).
  rewrite Z.pow_mul_r by lia.
  rewrite Zmult_mod. rewrite <- (pow_mod_base (x ^ Q)) by lia.
  unfold sub in Hx. rewrite Hx, Z.pow_1_l by lia.
  rewrite one_mod_P, Z.mul_1_l. apply Z.mod_mod. pose proof Ppos; lia.
Qed.

(** Integer exponents (also negative ones) of a subgroup element. *)
Definition ex (x e : Z) : Z := (x ^ (e mod Q)) mod P.

Lemma ex_range x e : 0 <= ex x e < P.
Proof. apply Z.mod_pos_bound. pose proof Ppos; lia. Qed.
Lemma ex_mod_idem x e : ex x e mod P = ex x e.
Proof. apply Z.mod_small, ex_range. Qed.

Lemma modQ_nonneg e : 0 <= e mod Q < Q.
Proof. apply Z.mod_pos_bound, Qpos. Qed.

Lemma ex_nonneg x e : sub x -> 0 <= e -> ex x e = (x ^ e) mod P.
Proof. intros Hx He. unfold ex. symmetry. apply sub_pow_mod; assumption. Qed.

Lemma ex_congr x a b : a mod Q = b mod Q -> ex x a = ex x b.
Proof. intros H. unfold ex. rewrite H. reflexivity. Qed.

Lemma ex_0 x : ex x 0 = 1.
Proof. unfold ex. rewrite Z.mod_0_l by (pose proof Qpos; lia). rewrite Z.pow_0_r. apply one_mod_P. Qed.
Lemma ex_1 x : sub x -> ex x 1 = x mod P.
Proof. intros Hx. rewrite ex_nonneg by (assumption || lia). rewrite Z.pow_1_r. reflexivity. Qed.

Lemma sub_ex x e : sub x -> sub (ex x e).
Proof. intros Hx. unfold ex. apply sub_mod, sub_pow; [assumption|apply modQ_nonneg]. Qed.

Lemma ex_add x a b : sub x -> ex x (a + b) = (ex x a * ex x b) mod P.
Proof.
  intros Hx. pose proof (modQ_nonneg a). pose proof (modQ_nonneg b).
  unfold ex at 2 3. rewrite <- Zmult_mod, <- Z.pow_add_r by lia.
  rewrite <- ex_nonneg by (assumption || lia).
  apply ex_congr. apply Zplus_mod.
Qed.

Lemma ex_mul x a b : sub x -> ex (ex x a) b = ex x (a * b).
Proof.
  intros Hx. pose proof (modQ_nonneg a). pose proof (modQ_nonneg b).
  unfold ex at 1 2. rewrite pow_mod_base by lia. rewrite <- Z.pow_mul_r by lia.
  rewrite <- ex_nonneg by (try assumption; apply Z.mul_nonneg_nonneg; lia).
  apply ex_congr. rewrite <- Zmult_mod. reflexivity.
Qed.

Lemma ex_base_mul x y e : ex ((x * y) mod P) e = (ex x e * ex y e) mod P.
Proof.
  pose proof (modQ_nonneg e). unfold ex. rewrite pow_mod_base by lia.
  rewrite Z.pow_mul_l. apply Zmult_mod.
Qed.

Lemma ex_neg x e : sub x -> (ex x e * ex x (- e)) mod P = 1.
Proof. intros Hx. rewrite <- ex_add by assumption. rewrite Z.add_opp_diag_r. apply ex_0. Qed.

Lemma ex_pos x e : sub x -> 0 < ex x e.
Proof.
  intros Hx. pose proof (ex_range x e). pose proof (ex_neg x e Hx) as H1.
  destruct (Z.eq_dec (ex x e) 0) as [E|E]; [|lia].
  rewrite E, Z.mul_0_l, Z.mod_0_l in H1 by (pose proof Ppos; lia). discriminate.
Qed.

Lemma pow_mod_p_ex x e : sub x -> 0 <= e < W256 -> pow_mod_p gp x e = ex x e.
Proof. intros Hx He. rewrite pow_mod_p_correct by assumption. symmetry. apply ex_nonneg; lia || assumption. Qed.

Lemma sub_valid x : 0 <= x < P -> sub x -> valid_residue gp x = true.
Proof.
  intros Hx Hs. apply valid_residue_spec; [assumption|]. split; [|assumption].
  pose proof (ex_pos x 1 Hs) as H. rewrite ex_1 in H by assumption.
  rewrite Z.mod_small in H by lia. lia.
Qed.
Lemma valid_sub x : valid_residue gp x = true -> sub x /\ 0 < x < P.
Proof. intros H. apply valid_residue_spec in H; [|assumption]. unfold sub. tauto. Qed.

(** ** Two bases: G and a public key K *)
Section TwoBases.
Context (K : Z) (HK : sub K).

Definition ex2 (a b : Z) : Z := (ex G a * ex K b) mod P.

Lemma ex2_range a b : 0 <= ex2 a b < P.
Proof. apply Z.mod_pos_bound. pose proof Ppos; lia. Qed.

Lemma sub_ex2 a b : sub (ex2 a b).
Proof. unfold ex2. apply sub_mod, sub_mul; apply sub_ex; [apply sub_G|exact HK]. Qed.

Lemma ex2_congr a b c d : a mod Q = c mod Q -> b mod Q = d mod Q -> ex2 a b = ex2 c d.
Proof. intros H1 H2. unfold ex2. rewrite (ex_congr _ _ _ H1), (ex_congr _ _ _ H2). reflexivity. Qed.

Lemma ex2_eq a b c d : a = c -> b = d -> ex2 a b = ex2 c d.
Proof. intros -> ->. reflexivity. Qed.

Lemma ex2_mul a b c d : (ex2 a b * ex2 c d) mod P = ex2 (a + c) (b + d).
Proof.
  unfold ex2. rewrite <- Zmult_mod.
  rewrite (ex_add G a c sub_G), (ex_add K b d HK).
  rewrite <- Zmult_mod. f_equal. ring.
Qed.

Lemma ex2_ex a b e : ex (ex2 a b) e = ex2 (a * e) (b * e).
Proof.
  unfold ex2. rewrite ex_base_mul, ex_mul, ex_mul by (exact HK || apply sub_G). reflexivity.
Qed.

Lemma ex2_pow a b e : 0 <= e < W256 -> pow_mod_p gp (ex2 a b) e = ex2 (a * e) (b * e).
Proof. intros He. rewrite pow_mod_p_ex by (apply sub_ex2 || assumption). apply ex2_ex. Qed.

Lemma g_pow_ex2 e : 0 <= e < W256 -> g_pow_p gp e = ex2 e 0.
Proof.
  intros He. unfold g_pow_p. rewrite pow_mod_p_ex by (apply sub_G || assumption).
  unfold ex2. rewrite ex_0, Z.mul_1_r, ex_mod_idem. reflexivity.
Qed.
Lemma k_pow_ex2 e : 0 <= e < W256 -> pow_mod_p gp K e = ex2 0 e.
Proof.
  intros He. rewrite pow_mod_p_ex by assumption.
  unfold ex2. rewrite ex_0, Z.mul_1_l, ex_mod_idem. reflexivity.
Qed.
Lemma G_ex2 : G = ex2 1 0.
Proof.
  unfold ex2. rewrite ex_0, Z.mul_1_r, ex_mod_idem, ex_1 by apply sub_G.
  symmetry. apply Z.mod_small. pose proof (vp_Grng _ VP); lia.
Qed.
Lemma one_ex2 : 1 = ex2 0 0.
Proof. unfold ex2. rewrite !ex_0. symmetry. apply one_mod_P. Qed.
Lemma mul_mod_p_ex2 a b c d : mul_mod_p gp (ex2 a b) (ex2 c d) = ex2 (a + c) (b + d).
Proof. apply ex2_mul. Qed.
Lemma ex2_valid a b : valid_residue gp (ex2 a b) = true.
Proof. apply sub_valid; [apply ex2_range|apply sub_ex2]. Qed.
End TwoBases.

(** ** Cancelling *)
Lemma mul_cancel x y z : sub x -> (x * y) mod P = (x * z) mod P -> y mod P = z mod P.
Proof.
  intros Hx H. pose proof (ex_neg x 1 Hx) as Hi.
  rewrite ex_1 in Hi by assumption. rewrite Zmult_mod_idemp_l in Hi.
  assert (E : forall w, w mod P = (ex x (-1) * ((x * w) mod P)) mod P).
  { intros w. rewrite Zmult_mod_idemp_r.
    replace (ex x (-1) * (x * w)) with ((x * ex x (-1)) * w) by ring.
    rewrite <- Zmult_mod_idemp_l. replace (x * ex x (-(1))) with (x * ex x (-1)) in Hi by reflexivity.
    rewrite Hi, Z.mul_1_l. reflexivity. }
  rewrite (E y), (E z), H. reflexivity.
Qed.

End Algebra.
