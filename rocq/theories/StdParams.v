(** The constants of constants.h are valid parameters. *)
From Coq Require Import Znumtheory Zpow_facts.
From Verif Require Import Base GroupModel GroupSpec GroupProofs TestParams ConstModel Big63 StdCert.
Open Scope Z_scope.
Ltac Zify.zify_post_hook ::= idtac.

Lemma cancel_unit a b c i m : 1 < m -> (c * i) mod m = 1 -> (a * c) mod m = (b * c) mod m ->
  a mod m = b mod m.
Proof.
  intros Hm Hi H.
  assert (E : forall x, x mod m = ((x * c) mod m * i) mod m).
  { intros x. rewrite Zmult_mod_idemp_l, <- Z.mul_assoc, <- Zmult_mod_idemp_r, Hi, Z.mul_1_r. reflexivity. }
  rewrite (E a), (E b), H. reflexivity.
Qed.

Lemma std_P_big : 1 < gpP std_params. Proof. reflexivity. Qed.
Lemma std_G_inv : (gpG std_params * Ginv) mod gpP std_params = 1.
Proof.
  rewrite <- P_digits_val. rewrite (mul_check_ok _ _ _ _ _ _ _ G_inv).
  rewrite P_digits_val. apply Z.mod_small. pose proof std_P_big. lia.
Qed.

Lemma std_exps : 2 ^ 256 = gpQ std_params + 189. Proof. reflexivity. Qed.

Lemma std_GQ : (gpG std_params ^ gpQ std_params) mod gpP std_params = 1.
Proof.
  pose proof std_P_big as HP.
  assert (E1 := pow_check_ok _ _ _ _ _ _ G_2_256).
  assert (E2 := pow_check_ok _ _ _ _ _ _ G_189).
  rewrite <- E2 in E1. clear E2. rewrite P_digits_val in E1.
  change (Zpos (2 ^ 256)) with (2 ^ 256) in E1. rewrite std_exps in E1.
  rewrite Z.pow_add_r in E1; [|discriminate|discriminate].
  pose proof std_G_inv as HI.
  generalize dependent (gpG std_params). generalize dependent (gpP std_params).
  generalize (gpQ std_params).
  intros q p Hp g E1 HI.
  rewrite <- (Z.mul_1_l (g ^ 189)) in E1 at 2.
  apply cancel_unit with (i := Ginv ^ 189) in E1; [|assumption|].
  - rewrite E1. apply Z.mod_small. lia.
  - rewrite <- Z.pow_mul_l. rewrite Zpower_mod by lia. rewrite HI.
    rewrite Z.pow_1_l by lia. apply Z.mod_small. lia.
Qed.

Lemma std_params_valid : valid_params std_params.
Proof.
  constructor.
  - vm_compute. reflexivity.
  - vm_compute. discriminate.
  - vm_compute. discriminate.
  - vm_compute. reflexivity.
  - vm_compute. reflexivity.
  - vm_compute. reflexivity.
  - vm_compute. reflexivity.
  - vm_compute. split; reflexivity.
  - apply std_GQ.
  - vm_compute. reflexivity.
  - vm_compute. reflexivity.
Qed.

Lemma std_Q_val : gpQ std_params = Q_val. Proof. vm_compute. reflexivity. Qed.
Lemma std_params_prime : prime_params std_params.
Proof. constructor; [apply std_params_valid|]. rewrite std_Q_val. apply prime_Q. Qed.

Lemma test_arrays : test_array_params = test_params.
Proof. vm_compute. reflexivity. Qed.

(** The big-endian arrays are the little-endian ones read backwards. *)
Lemma std_arrays_agree :
  std_P_ARRAY = rev std_P_ARRAY_REVERSE /\ std_Q_ARRAY = rev std_Q_ARRAY_REVERSE /\
  std_R_ARRAY = rev std_R_ARRAY_REVERSE /\ std_G_ARRAY = rev std_G_ARRAY_REVERSE.
Proof. repeat split. Qed.
Lemma test_arrays_agree :
  test_P_ARRAY = rev test_P_ARRAY_REVERSE /\ test_Q_ARRAY = rev test_Q_ARRAY_REVERSE /\
  test_R_ARRAY = rev test_R_ARRAY_REVERSE /\ test_G_ARRAY = rev test_G_ARRAY_REVERSE.
Proof. repeat split. Qed.
