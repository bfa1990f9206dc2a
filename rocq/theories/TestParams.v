(** The test configuration (constants.h:215-388) is a valid parameter set whose
    subgroup order is prime. *)
From Coq Require Import Znumtheory Psatz.
From Verif Require Import Base GroupModel GroupSpec GroupProofs.
Open Scope Z_scope.

Lemma prime_trial n :
  1 < n -> (forall d, 2 <= d -> d * d <= n -> n mod d <> 0) -> prime n.
Proof.
  intros Hn H. apply prime_alt. split; [assumption|].
  intros d Hd [k Hk].
  destruct (Z_le_gt_dec (d * d) n) as [L|L].
  - apply (H d); [lia|assumption|]. subst n. apply Z.mod_mul. lia.
  - apply (H k); [nia|nia|]. subst n. rewrite Z.mul_comm. apply Z.mod_mul. nia.
Qed.

Fixpoint trial (fuel : nat) (d n : Z) : bool :=
  match fuel with
  | O => n <? d * d
  | S f => (n <? d * d) || (negb (n mod d =? 0) && trial f (d + 1) n)
  end.
Lemma trial_ok fuel d n : 0 < d -> trial fuel d n = true ->
  forall x, d <= x -> x * x <= n -> n mod x <> 0.
Proof.
  revert d. induction fuel as [|f IH]; intros d Hd H x Hx Hxx; cbn [trial] in H.
  - apply Z.ltb_lt in H. nia.
  - apply orb_true_iff in H. destruct H as [H|H]; [apply Z.ltb_lt in H; nia|].
    apply andb_true_iff in H. destruct H as [H1 H2].
    destruct (Z.eq_dec x d) as [->|N].
    + apply negb_true_iff, Z.eqb_neq in H1. assumption.
    + apply (IH (d + 1)); auto; lia.
Qed.

Lemma prime_65521 : prime 65521.
Proof.
  apply prime_trial; [lia|]. apply (trial_ok 300 2); [lia|]. vm_compute. reflexivity.
Qed.

Lemma test_params_valid : valid_params test_params.
Proof.
  constructor; cbn [gpP gpQ gpR gpG gpPoff gpQoff test_params].
  - reflexivity.
  - vm_compute. discriminate.
  - vm_compute. discriminate.
  - reflexivity.
  - reflexivity.
  - reflexivity.
  - reflexivity.
  - split; reflexivity.
  - rewrite <- powmod_spec by lia. vm_compute. reflexivity.
  - reflexivity.
  - reflexivity.
Qed.

Lemma test_params_prime : prime_params test_params.
Proof. constructor; [apply test_params_valid|apply prime_65521]. Qed.

(** Toy stand-ins for SHA-256 and HMAC, used only in examples. *)
Definition toy_sha (l : bytes) : Z := fold_left (fun a b => (a * 257 + b + 1) mod 2 ^ 256) l 7.
Definition toy_hmac (k m : bytes) : Z := toy_sha (k ++ 255 :: m).
