(** Fermat's little theorem and Pocklington's primality criterion, used for the
    primes of constants.h.  No repository code. *)
From Coq Require Import Znumtheory Zpow_facts Permutation Psatz.
From Verif Require Import Base GroupModel GroupProofs TestParams ZkSpec ZkProofs.
Open Scope Z_scope.
Ltac Zify.zify_post_hook ::= idtac.

Section Fermat.
Context (p : Z) (Hp : prime p).
Lemma p_ge : 2 <= p. Proof. destruct Hp. lia. Qed.

Definition units : list Z := map (fun i => 1 + i) (zrange (p - 1)).
Lemma in_units x : In x units <-> 1 <= x < p.
Proof.
  unfold units. rewrite in_map_iff. split.
  - intros (y & <- & H). apply in_zrange in H. lia.
  - intros H. exists (x - 1). split; [lia|]. apply in_zrange. lia.
Qed.
Lemma nodup_units : NoDup units.
Proof. unfold units. apply FinFun.Injective_map_NoDup; [intros a b; lia|apply nodup_zrange]. Qed.

Lemma prime_cancel a x y : ~ (p | a) -> (a * x) mod p = (a * y) mod p -> x mod p = y mod p.
Proof.
  pose proof p_ge. intros Ha H'. assert (D : (p | a * (x - y))).
  { rewrite Z.mul_sub_distr_l. apply Z.mod_divide; [lia|].
    rewrite Zminus_mod, H', Z.sub_diag. apply Z.mod_0_l. lia. }
  apply prime_mult in D; [|assumption]. destruct D as [D|D]; [contradiction|].
  destruct D as [k Hk]. replace x with (y + k * p) by lia. apply Z.mod_add. lia.
Qed.

Lemma small_not_div x : 1 <= x < p -> ~ (p | x).
Proof. intros H D. apply Z.divide_pos_le in D; lia. Qed.

Lemma zprod_map_mul a l : zprod (map (fun i => (a * i) mod p) l) mod p
  = (a ^ Z.of_nat (length l) * zprod l) mod p.
Proof.
  induction l as [|x l IH]; cbn [map length zprod fold_right].
  - reflexivity.
  - fold (zprod (map (fun i => (a * i) mod p) l)). fold (zprod l).
    rewrite Nat2Z.inj_succ, Z.pow_succ_r by lia.
    rewrite Zmult_mod_idemp_l, <- Zmult_mod_idemp_r, IH, Zmult_mod_idemp_r.
    apply (f_equal (fun z => z mod p)). ring.
Qed.

Lemma zprod_units_ndiv : ~ (p | zprod units).
Proof.
  assert (H : forall l, Forall (fun x => 1 <= x < p) l -> ~ (p | zprod l)).
  { induction 1 as [|x l Hx Hl IH]; cbn [zprod fold_right].
    - intros D. apply Z.divide_pos_le in D; pose proof p_ge; lia.
    - intros D. apply prime_mult in D; [|assumption]. destruct D as [D|D].
      + revert D. apply small_not_div. assumption.
      + contradiction. }
  apply H. apply Forall_forall. intros x. apply in_units.
Qed.

Lemma fermat a : ~ (p | a) -> (a ^ (p - 1)) mod p = 1.
Proof.
  intros Ha. pose proof p_ge.
  assert (PM : Permutation (map (fun i => (a * i) mod p) units) (map (fun i => i) units)).
  { apply permutation_reindex with (f := fun i => (a * i) mod p).
    - apply nodup_units.
    - intros x Hx. apply in_units in Hx. apply in_units.
      pose proof (Z.mod_pos_bound (a * x) p ltac:(lia)).
      assert ((a * x) mod p <> 0); [|lia].
      intros E. apply Z.mod_divide in E; [|lia]. apply prime_mult in E; [|assumption].
      destruct E as [E|E]; [contradiction|]. revert E. apply small_not_div. assumption.
    - intros x y Hx Hy E. apply in_units in Hx, Hy. apply prime_cancel in E; [|assumption].
      rewrite !Z.mod_small in E by lia. assumption.
    - reflexivity. }
  rewrite map_id in PM. apply zprod_perm in PM.
  pose proof (zprod_map_mul a units) as E. rewrite PM in E.
  assert (L : Z.of_nat (length units) = p - 1).
  { unfold units, zrange. rewrite !map_length, seq_length. apply Z2Nat.id. lia. }
  rewrite L in E. rewrite <- (Z.mul_1_r (zprod units)) in E at 1.
  rewrite (Z.mul_comm (a ^ _)) in E. apply prime_cancel in E; [|apply zprod_units_ndiv].
  rewrite <- E. apply Z.mod_small. lia.
Qed.
End Fermat.

Lemma prime_divisor n : 2 <= n -> exists r, prime r /\ (r | n).
Proof.
  intros Hn. assert (H0 : 0 <= n) by lia. revert Hn. pattern n. apply Z_lt_induction; [|assumption].
  clear n H0. intros n IH Hn. destruct (prime_dec n) as [H|H].
  - exists n. split; [assumption|apply Z.divide_refl].
  - apply not_prime_divide in H; [|lia]. destruct H as (d & Hd & D).
    destruct (IH d) as (r & Pr & Dr); [lia|lia|]. exists r. split; [assumption|].
    eapply Z.divide_trans; eassumption.
Qed.

Lemma pow_pos_bezout b r u v m :
  2 <= r -> 0 <= u -> 0 <= v -> (b ^ u) mod r = 1 -> (b ^ v) mod r = 1 -> 0 <= m ->
  (exists x y, x * u - y * v = m /\ 0 <= x /\ 0 <= y) -> (b ^ m) mod r = 1.
Proof.
  intros Hr Hu Hv E1 E2 Hm (x & y & E & Hx & Hy).
  assert (A : forall w k, 0 <= w -> 0 <= k -> (b ^ w) mod r = 1 -> (b ^ (k * w)) mod r = 1).
  { intros w k Hw Hk Ew. rewrite Z.mul_comm, Z.pow_mul_r by assumption.
    rewrite Zpower_mod by lia. rewrite Ew, Z.pow_1_l by assumption. apply Z.mod_small. lia. }
  assert (Eu := A u x Hu Hx E1). assert (Ev := A v y Hv Hy E2).
  replace (x * u) with (m + y * v) in Eu by (clear - E; lia).
  rewrite Z.pow_add_r in Eu by (try apply Z.mul_nonneg_nonneg; assumption).
  rewrite <- Zmult_mod_idemp_r, Ev, Z.mul_1_r in Eu. exact Eu.
Qed.

Lemma coprime_bezout_pos u v : 0 < u -> 0 < v -> rel_prime u v ->
  exists x y, x * u - y * v = 1 /\ 0 <= x /\ 0 <= y.
Proof.
  intros Hu Hv H. apply rel_prime_bezout in H. destruct H as [x y E].
  set (k := Z.abs x + Z.abs y).
  exists (x + k * v), (k * u - y). split; [rewrite <- E; ring|].
  assert (Hk : 0 <= k) by (unfold k; lia).
  assert (K : forall w, 0 < w -> k * 1 <= k * w) by (intros w Hw; apply Z.mul_le_mono_nonneg_l; lia).
  pose proof (K v Hv) as K1. pose proof (K u Hu) as K2.
  assert (k >= Z.abs x /\ k >= Z.abs y) as [X Y] by (unfold k; lia).
  clearbody k. clear - K1 K2 X Y. split; lia.
Qed.

(** A prime factor of N is 1 modulo q. *)
Lemma pock_factor N q a u r :
  2 <= N -> prime q -> (q | N - 1) -> (a ^ (N - 1)) mod N = 1 ->
  ((a ^ ((N - 1) / q) - 1) * u) mod N = 1 ->
  prime r -> (r | N) -> (q | r - 1).
Proof.
  intros HN Hq Dq E1 E2 Hr Dr.
  assert (Hr2 := p_ge r Hr). assert (Hq2 := p_ge q Hq).
  assert (R1 : forall x, x mod N = 1 -> x mod r = 1).
  { intros x Hx. rewrite (Zmod_div_mod r N x) by (assumption || lia). rewrite Hx. apply Z.mod_small. lia. }
  apply R1 in E1. apply R1 in E2.
  set (t := (N - 1) / q) in *. assert (Et : N - 1 = t * q).
  { destruct Dq as [k Hk]. unfold t. rewrite Hk, Z.div_mul by lia. reflexivity. }
  assert (Ht : 0 < t).
  { apply (Z.mul_pos_cancel_r t q); clear - Et HN Hq2; lia. }
  set (b := a ^ t) in *.
  assert (Eb : (b ^ q) mod r = 1).
  { unfold b. rewrite <- Z.pow_mul_r by (clear - Ht Hq2; lia). rewrite <- Et. assumption. }
  assert (Nb : ~ (r | b)).
  { intros D. assert (D' : (r | b ^ q)).
    { replace q with (1 + (q - 1)) by (clear; lia). rewrite Z.pow_add_r, Z.pow_1_r by (clear - Hq2; lia).
      apply Z.divide_mul_l. assumption. }
    apply Z.mod_divide in D'; [|clear - Hr2; lia]. rewrite Eb in D'. discriminate. }
  pose proof (fermat r Hr b Nb) as Ef.
  destruct (Zdivide_dec q (r - 1)) as [D|D]; [assumption|exfalso].
  assert (rel_prime q (r - 1)) as RP by (apply prime_rel_prime; assumption).
    destruct (coprime_bezout_pos q (r - 1)) as (x & y & E & Hx & Hy);
    [clear - Hq2; lia|clear - Hr2; lia|assumption|].
  assert (Eb1 : (b ^ 1) mod r = 1).
  { apply (pow_pos_bezout b r q (r - 1) 1); try assumption; try (clear - Hr2 Hq2; lia). exists x, y. auto. }
  rewrite Z.pow_1_r in Eb1.
  assert (Eb0 : (b - 1) mod r = 0).
  { rewrite Zminus_mod, Eb1, (Z.mod_small 1) by (clear - Hr2; lia). reflexivity. }
  rewrite <- Zmult_mod_idemp_l, Eb0 in E2. discriminate.
Qed.

Lemma pocklington N F :
  2 <= N -> N < (F + 1) * (F + 1) -> 0 <= F ->
  (forall r, prime r -> (r | N) -> (F | r - 1)) -> prime N.
Proof.
  intros HN HF HF0 H. apply prime_trial; [lia|]. intros d Hd Hdd E.
  apply Z.mod_divide in E; [|lia].
  destruct (prime_divisor d Hd) as (r & Pr & Dr).
  assert (D : (r | N)) by (eapply Z.divide_trans; eassumption).
  specialize (H r Pr D). assert (Hr2 := p_ge r Pr).
  apply Z.divide_pos_le in Dr; [|lia]. apply Z.divide_pos_le in H; [|lia].
  assert (N < d * d); [|lia]. eapply Z.lt_le_trans; [eassumption|].
  apply Z.mul_le_mono_nonneg; lia.
Qed.

Lemma pocklington1 N q a u :
  2 <= N -> N < (q + 1) * (q + 1) -> prime q -> (N - 1) mod q = 0 -> (a ^ (N - 1)) mod N = 1 ->
  ((a ^ ((N - 1) / q) - 1) * u) mod N = 1 -> prime N.
Proof.
  intros HN HF Hq Dq E1 E2. pose proof (p_ge q Hq). apply (pocklington N q); try lia.
  intros r Pr Dr. apply (pock_factor N q a u r); try assumption. apply Z.mod_divide; [lia|assumption].
Qed.

(** The factored part given as a list of distinct primes with their witnesses. *)
Definition pock_ok (N : Z) (w : Z * Z * Z) : Prop :=
  let '(q, a, u) := w in
  prime q /\ (N - 1) mod q = 0 /\ (a ^ (N - 1)) mod N = 1 /\
  ((a ^ ((N - 1) / q) - 1) * u) mod N = 1.

Lemma pocklington_list N (l : list (Z * Z * Z)) :
  let F := zprod (map (fun w => fst (fst w)) l) in
  2 <= N -> N < (F + 1) * (F + 1) -> NoDup (map (fun w => fst (fst w)) l) ->
  Forall (pock_ok N) l -> prime N.
Proof.
  intros F HN HF ND H. 
  assert (HF0 : 0 <= F).
  { unfold F. clear - H. induction H as [|[[q a] u] l Hx Hl IH]; cbn [map zprod fold_right fst]; [lia|].
    destruct Hx as (Hq & _). pose proof (p_ge q Hq). apply Z.mul_nonneg_nonneg; [lia|exact IH]. }
  apply (pocklington N F); try assumption. intros r Pr Dr. unfold F. clear HF HF0 F.
  induction H as [|[[q a] u] l Hx Hl IH]; cbn [map zprod fold_right fst].
  - apply Z.divide_1_l.
  - cbn [map fst] in ND. inversion ND as [|? ? Nin ND']; subst.
    destruct Hx as (Hq & Dq & E1 & E2). pose proof (p_ge q Hq).
    assert (D1 : (q | r - 1)).
    { apply (pock_factor N q a u r); try assumption. apply Z.mod_divide; [lia|assumption]. }
    specialize (IH ND').
    assert (RP : rel_prime q (zprod (map (fun w => fst (fst w)) l))).
    { apply prime_rel_prime; [assumption|]. clear IH. intros D.
      clear ND ND' D1. induction Hl as [|[[q' a'] u'] l Hx' Hl IH]; cbn [map zprod fold_right fst] in D.
      - apply Z.divide_pos_le in D; lia.
      - apply prime_mult in D; [|assumption]. destruct D as [D|D].
        + destruct Hx' as (Hq' & _). apply prime_div_prime in D; try assumption.
          apply Nin. left. cbn. congruence.
        + apply IH; [|assumption]. intros I. apply Nin. right. assumption. }
    destruct D1 as [k Hk]. rewrite Hk in IH. rewrite Hk.
    rewrite (Z.mul_comm k). rewrite Z.mul_comm in IH.
    apply Gauss in IH; [|apply rel_prime_sym; assumption].
    apply Z.mul_divide_mono_l. assumption.
Qed.

(** Boolean check of one witness for numbers small enough for Z arithmetic. *)
Definition pock_check (N q a u : Z) : bool :=
  ((N - 1) mod q =? 0) && (powmod a (N - 1) N =? 1)
  && (((powmod a ((N - 1) / q) N - 1) * u) mod N =? 1).
Lemma pock_check_ok N q a u : 2 <= N -> prime q -> pock_check N q a u = true -> pock_ok N (q, a, u).
Proof.
  intros HN Hq H. pose proof (p_ge q Hq). unfold pock_check in H. rewrite !andb_true_iff, !Z.eqb_eq in H.
  destruct H as [[H1 H2] H3]. rewrite powmod_spec in H2 by lia.
  rewrite powmod_spec in H3; [|lia|apply Z.div_pos; lia].
  rewrite <- Zmult_mod_idemp_l, Zminus_mod_idemp_l, Zmult_mod_idemp_l in H3.
  unfold pock_ok. tauto.
Qed.
