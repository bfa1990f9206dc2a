(** Invariants of the precompute buffers under every interleaving. *)
From Coq Require Import Permutation.
From Verif Require Import Base GroupModel CodecModel HashModel ElgamalModel ChaumModel ThreadModel FifoSpec PrecomputeModel.
Open Scope Z_scope.

Section Pre.
Context (gp : params) (rnd : nat -> Z).
Notation step := (tstep gp rnd).
Notation thread := (pc * list op)%type.

(** Case analysis on a step: one goal per kind of step. *)
Ltac cases H :=
  match type of H with tstep _ _ _ ?s ?t = Some _ => destruct t as [[] ops]; cbn in H end;
  repeat match type of H with
  | match ?x with _ => _ end = Some _ => destruct x eqn:?; try discriminate H; cbn in H
  end;
  try discriminate H; apply (f_equal (fun o => match o with Some x => x | None => (PS None false 0 [] [] 0 [] [] [] 0, (Idle, [])) end)) in H;
  cbv beta iota in H; injection H as <- <-.

(** ** The histories are those of first-in first-out buffers *)
Definition fifos (s : pstate) : Prop := fifo (p_htq s) (p_tq s) /\ fifo (p_htr s) (p_tr s).
Lemma fifos_step me s t s' t' : step me s t = Some (s', t') -> fifos s -> fifos s'.
Proof.
  intros H (F & G). cases H; unfold fifos; cbn; try (split; assumption);
  repeat match goal with E : p_tq s = _ |- _ => rewrite E in *; clear E | E : p_tr s = _ |- _ => rewrite E in *; clear E end;
  split; try assumption; constructor; assumption.
Qed.
Lemma fifos_exec progs sched : fifos (shared (exec gp rnd progs sched)).
Proof.
  unfold exec. apply (run_inv (step) (fun w => fifos (shared w))); [split; constructor|].
  intros l t r s s' t' F H. cbn in *. eapply fifos_step; eassumption.
Qed.

(** ** Every draw of the random source is used once *)
Definition rands (l : list (nat * note)) : list nat :=
  flat_map (fun e => match snd e with NRand d => [d] | _ => [] end) l.
Definition inflight (t : thread) : list nat :=
  match fst t with Pop2 _ _ ds => ds | Pop4 _ _ _ d => [d] | _ => [] end.
Definition spent (s : pstate) : list nat :=
  flat_map it_draws (puts (p_htq s)) ++ flat_map it_draws (puts (p_htr s)) ++ rands (p_notes s).
Definition used (w : @sys pstate thread) : list nat := spent (shared w) ++ flat_map inflight (threads w).

Ltac perm :=
  apply (Permutation_count_occ Nat.eq_dec); intros x; cbn [app]; rewrite ?app_nil_r, ?count_occ_app; cbn [count_occ];
  rewrite ?count_occ_app; cbn [count_occ]; repeat destruct Nat.eq_dec; lia.
Lemma used_step me s t s' t' : step me s t = Some (s', t') ->
  (p_draws s' = p_draws s /\ Permutation (spent s' ++ inflight t') (spent s ++ inflight t)) \/
  (p_draws s' = S (p_draws s) /\ Permutation (spent s' ++ inflight t') (p_draws s :: spent s ++ inflight t)).
Proof.
  intros H. cases H; unfold spent, inflight, rands; cbn [fst snd p_draws p_htq p_htr p_notes called draw note_of set_lock set_ok set_max set_tq set_tr start];
  try (left; split; [reflexivity|apply Permutation_refl]);
  repeat match goal with |- context [if ?b then _ else _] => destruct b end;
  rewrite ?puts_app, ?flat_map_app; cbn [puts flat_map it_draws snd app];
  first [left; split; [reflexivity|]; perm|right; split; [reflexivity|]; perm].
Qed.
(** Draw by draw: each result of rand_q is in one precomputed value, or with one
    caller of rand_q, or with a thread that is about to push it; none is in two. *)
Lemma used_exec progs sched :
  let w := exec gp rnd progs sched in Permutation (used w) (seq 0 (p_draws (shared w))).
Proof.
  cbv zeta. unfold exec. apply (run_inv step (fun w => Permutation (used w) (seq 0 (p_draws (shared w))))).
  - unfold used. cbn. induction progs; cbn; [apply Permutation_refl|assumption].
  - intros l t r s s' t' P H. unfold used in *. cbn [shared threads] in *.
    rewrite !flat_map_app in *. cbn [flat_map] in *.
    assert (R : forall a b c d : list nat, Permutation (a ++ b ++ c ++ d) ((a ++ c) ++ b ++ d)).
    { intros a b c d. perm. }
    destruct (used_step _ _ _ _ _ H) as [(-> & Q)|(-> & Q)].
    + etransitivity; [apply R|]. etransitivity; [apply Permutation_app_tail, Q|].
      etransitivity; [symmetry; apply R|exact P].
    + etransitivity; [apply R|]. etransitivity; [apply Permutation_app_tail, Q|].
      rewrite seq_S. cbn [plus]. etransitivity; [|apply Permutation_app_tail, P].
      rewrite R. cbn [app]. perm.
Qed.

(** ** Mutual exclusion *)
Definition in_cs (p : pc) : bool :=
  match p with
  | Init1 _ | Init2 _ | Pop1 _ _ | Pop2 _ _ _ | Pop3 _ _ _ | Pop4 _ _ _ _ | Pop5 _ _
  | Take1 | Triple1 | Empty1 | Empty2 _ | Empty3 | Empty4 _ | Unlock => true
  | _ => false
  end.
Definition mutex (w : @sys pstate thread) : Prop :=
  forall i t, nth_error (threads w) i = Some t -> (in_cs (fst t) = true <-> p_lock (shared w) = Some i).
Lemma nth_mid {A} (l r : list A) t i x : nth_error (l ++ t :: r) i = Some x ->
  (i = length l /\ x = t) \/ (i <> length l /\ forall u, nth_error (l ++ u :: r) i = Some x).
Proof.
  intros H. destruct (Nat.eq_dec i (length l)) as [->|N].
  - left. rewrite nth_error_app2, Nat.sub_diag in H by lia. cbn in H. split; congruence.
  - right. split; [exact N|]. intros u. destruct (Nat.lt_ge_cases i (length l)) as [L|L].
    + rewrite nth_error_app1 in * by lia. exact H.
    + rewrite nth_error_app2 in * by lia. destruct (i - length l)%nat as [|k] eqn:E; [lia|]. exact H.
Qed.
Lemma nth_here {A} (l r : list A) t : nth_error (l ++ t :: r) (length l) = Some t.
Proof. rewrite nth_error_app2, Nat.sub_diag by lia. reflexivity. Qed.
(** How a step changes the lock. *)
Lemma lock_step me s t s' t' : step me s t = Some (s', t') ->
  (p_lock s' = p_lock s /\ in_cs (fst t') = in_cs (fst t)) \/
  (p_lock s = None /\ p_lock s' = Some me /\ in_cs (fst t) = false /\ in_cs (fst t') = true) \/
  (p_lock s' = None /\ in_cs (fst t) = true /\ in_cs (fst t') = false).
Proof.
  intros H. cases H; cbn; auto 10;
  repeat match goal with |- context [if ?b then _ else _] => destruct b end; cbn; auto 10.
Qed.
Lemma mutex_step l t r s s' t' :
  mutex (Sys s (l ++ t :: r)) -> step (length l) s t = Some (s', t') -> mutex (Sys s' (l ++ t' :: r)).
Proof.
  intros M H i u N. cbn in N.
  pose proof (M (length l) t (nth_here l r t)) as ME. cbn in ME.
  destruct (nth_mid _ _ _ _ _ N) as [(-> & ->)|(NE & Q)]; cbn [shared] in *.
  - destruct (lock_step _ _ _ _ _ H) as [(E1 & E2)|[(E1 & E2 & E3 & E4)|(E1 & E2 & E3)]].
    + rewrite E1, E2. exact ME.
    + rewrite E2, E4. tauto.
    + rewrite E1, E3. split; discriminate.
  - pose proof (M i u (Q t)) as MO. cbn in MO.
    destruct (lock_step _ _ _ _ _ H) as [(E1 & E2)|[(E1 & E2 & E3 & E4)|(E1 & E2 & E3)]].
    + rewrite E1. exact MO.
    + rewrite E2. rewrite E1 in MO. split; intros X; [apply MO in X; discriminate|congruence].
    + rewrite E1. apply ME in E2. rewrite E2 in MO. split; [|discriminate].
      intros X. apply MO in X. congruence.
Qed.
Lemma mutex_exec progs sched : mutex (exec gp rnd progs sched).
Proof.
  unfold exec. apply (run_inv step mutex); [|apply mutex_step].
  intros i t H. cbn in H. apply nth_error_In, in_map_iff in H as (p & <- & _). cbn. split; discriminate.
Qed.

(** ** What empties the queues never pops an empty one *)
Definition counted (w : @sys pstate thread) : Prop :=
  forall i t, nth_error (threads w) i = Some t ->
    match fst t with
    | Empty2 n => n <= Z.of_nat (length (p_tr (shared w)))
    | Empty4 n => n <= Z.of_nat (length (p_tq (shared w)))
    | _ => True
    end.
Lemma int_of_size_le n : int_of_size n <= Z.of_nat n.
Proof.
  unfold int_of_size. pose proof (Z.mod_le (Z.of_nat n) (2 ^ 32)).
  destruct (_ <? _); lia.
Qed.
(** Outside its critical section a thread leaves the queues alone. *)
Lemma queues_step me s t s' t' : step me s t = Some (s', t') -> in_cs (fst t) = false ->
  p_tq s' = p_tq s /\ p_tr s' = p_tr s.
Proof. intros H C. cases H; try discriminate C; split; reflexivity. Qed.
Lemma counted_step l t r s s' t' :
  mutex (Sys s (l ++ t :: r)) -> counted (Sys s (l ++ t :: r)) ->
  step (length l) s t = Some (s', t') -> counted (Sys s' (l ++ t' :: r)).
Proof.
  intros M C H i u N. cbn in N. pose proof (C (length l) t (nth_here l r t)) as CE. cbn [shared] in *.
  destruct (nth_mid _ _ _ _ _ N) as [(-> & ->)|(NE & Q)].
  - clear M C N. cases H; cbn in *; try exact I; rewrite ?app_length; try apply int_of_size_le;
    repeat match goal with |- context [if ?b then _ else _] => destruct b end; cbn in *; try exact I;
    repeat match goal with E : p_tq s = _ |- _ => rewrite E in *; clear E | E : p_tr s = _ |- _ => rewrite E in *; clear E end;
    cbn in *; lia.
  - pose proof (C i u (Q t)) as CU. cbn in CU. pose proof (M i u (Q t)) as MU. pose proof (M _ t (nth_here l r t)) as MT.
    cbn in MU, MT.
    destruct (fst u) eqn:EU; try exact I.
    + cbn in MU. assert (in_cs (fst t) = false).
      { destruct (in_cs (fst t)); [|reflexivity]. destruct MU as [MU _], MT as [MT _]. rewrite MU in MT by reflexivity.
        specialize (MT eq_refl). congruence. }
      apply queues_step in H as (H1 & H2); [|assumption]. rewrite ?H1, ?H2. exact CU.
    + cbn in MU. assert (in_cs (fst t) = false).
      { destruct (in_cs (fst t)); [|reflexivity]. destruct MU as [MU _], MT as [MT _]. rewrite MU in MT by reflexivity.
        specialize (MT eq_refl). congruence. }
      apply queues_step in H as (H1 & H2); [|assumption]. rewrite ?H1, ?H2. exact CU.
Qed.
Lemma counted_exec progs sched : counted (exec gp rnd progs sched).
Proof.
  unfold exec.
  enough (X : mutex (run step (begin progs) sched) /\ counted (run step (begin progs) sched)) by apply X.
  apply (run_inv step (fun w => mutex w /\ counted w)).
  - split; intros i t H; cbn in H; apply nth_error_In, in_map_iff in H as (p & <- & _); cbn; [split; discriminate|exact I].
  - intros l t r s s' t' (M & C) H. split; [eapply mutex_step|eapply counted_step]; eassumption.
Qed.
(** ** No deadlock: while some thread has something to do, some thread can act *)
Lemma cs_progress me s t : in_cs (fst t) = true ->
  match fst t with Empty2 n => n <= Z.of_nat (length (p_tr s)) | Empty4 n => n <= Z.of_nat (length (p_tq s)) | _ => True end ->
  exists s' t', step me s t = Some (s', t').
Proof.
  intros C E. destruct t as [p ops].
  destruct p; try discriminate C; cbn in *; try (eexists; eexists; reflexivity).
  - destruct ds as [|d1 [|d2 [|d3 [|d4 [|]]]]]; eexists; eexists; reflexivity.
  - destruct (p_tq s); eexists; eexists; reflexivity.
  - destruct (p_tr s); eexists; eexists; reflexivity.
  - destruct (0 <? n) eqn:L; [|eexists; eexists; reflexivity]. destruct (p_tr s); [cbn in E; lia|eexists; eexists; reflexivity].
  - destruct (0 <? n) eqn:L; [|eexists; eexists; reflexivity]. destruct (p_tq s); [cbn in E; lia|eexists; eexists; reflexivity].
Qed.
Lemma no_deadlock progs sched i t :
  let w := exec gp rnd progs sched in
  nth_error (threads w) i = Some t -> t <> (Idle, []) ->
  exists j u s' u', nth_error (threads w) j = Some u /\ step j (shared w) u = Some (s', u').
Proof.
  cbv zeta. set (w := exec gp rnd progs sched). intros N NE.
  pose proof (mutex_exec progs sched : mutex w) as M. pose proof (counted_exec progs sched : counted w) as C.
  assert (LK : forall k, p_lock (shared w) = Some k -> nth_error (threads w) k <> None) .
  { intros k. unfold w, exec. generalize k. clear. intros k.
    enough (X : p_lock (shared (run step (begin progs) sched)) = Some k -> (k < length (threads (run step (begin progs) sched)))%nat)
      by (intros Y; apply nth_error_Some, X, Y).
    apply (run_inv step (fun w => p_lock (shared w) = Some k -> (k < length (threads w))%nat)); [discriminate|].
    intros l t r s s' t' IH H. cbn. rewrite !app_length in *. cbn in *. rewrite app_length in IH. cbn in IH.
    destruct (lock_step _ _ _ _ _ H) as [(E1 & E2)|[(E1 & E2 & E3 & E4)|(E1 & E2 & E3)]].
    - now rewrite E1.
    - rewrite E2. intros X. assert (k = length l) by congruence. lia.
    - rewrite E1. discriminate. }
  destruct (p_lock (shared w)) as [k|] eqn:L.
  - destruct (nth_error (threads w) k) as [u|] eqn:U; [|destruct (LK k eq_refl U)].
    destruct (cs_progress k (shared w) u) as (s' & u' & E).
    + apply (M k u U). exact L.
    + exact (C k u U).
    + exists k, u, s', u'. split; assumption.
  - assert (I : in_cs (fst t) = false).
    { destruct (in_cs (fst t)) eqn:X; [|reflexivity]. apply (M i t N) in X. congruence. }
    destruct t as [p ops]. cbn in I.
    assert (X : exists s' t', step i (shared w) (p, ops) = Some (s', t')).
    { destruct p; try discriminate I; cbn; rewrite ?L; try (eexists; eexists; reflexivity).
      destruct ops as [|[] ops]; [congruence|..]; eexists; eexists; reflexivity. }
    destruct X as (s' & t' & X). exists i, (p, ops), s', t'. split; assumption.
Qed.

(** ** Every precomputed value has the documented form *)
Definition tq_from (K : Z) (x : item two_triples_quad) : Prop :=
  exists d1 d2 d3 d4, it_draws x = [d1; d2; d3; d4] /\
    it_val x = {| tq_t1 := make_triple gp rnd K d1; tq_t2 := make_triple gp rnd K d2; tq_q := make_quad gp rnd K d3 d4 |}.
Definition tr_from (K : Z) (x : item triple) : Prop :=
  exists d, it_draws x = [d] /\ it_val x = make_triple gp rnd K d.
Definition key_of (p : pc) : option Z :=
  match p with
  | Pop0 K _ | Pop1 K _ | Pop2 K _ _ | Pop3 K _ _ | Pop4 K _ _ _ | Pop5 K _ | Pop6 K _ | Pop7 K _ _ => Some K
  | _ => None
  end.
Definition keyed (P : Z -> Prop) (w : @sys pstate thread) : Prop :=
  Forall (fun x => exists K, P K /\ tq_from K x) (puts (p_htq (shared w))) /\
  Forall (fun x => exists K, P K /\ tr_from K x) (puts (p_htr (shared w))) /\
  Forall (fun t => (forall K, key_of (fst t) = Some K -> P K) /\ (forall K, In (OPopulate K) (snd t) -> P K)) (threads w).
Lemma keyed_step P l t r s s' t' :
  keyed P (Sys s (l ++ t :: r)) -> step (length l) s t = Some (s', t') -> keyed P (Sys s' (l ++ t' :: r)).
Proof.
  intros (A & B & C) H. unfold keyed. cbn [shared threads] in *.
  rewrite Forall_app in C. destruct C as (C1 & C2). inversion C2 as [|? ? (C3 & C4) C5]; subst.
  assert (X : Forall (fun x => exists K, P K /\ tq_from K x) (puts (p_htq s')) /\
    Forall (fun x => exists K, P K /\ tr_from K x) (puts (p_htr s')) /\
    (forall K, key_of (fst t') = Some K -> P K) /\ (forall K, In (OPopulate K) (snd t') -> P K)).
  { clear C1 C5 C2. cases H; cbn in *; rewrite ?puts_app, ?Forall_app; cbn;
    repeat match goal with |- context [if ?b then _ else _] => destruct b end; cbn;
    repeat split; try assumption; try discriminate; auto;
    try (intros ? [= <-]; apply C4; left; reflexivity);
    try (apply Forall_cons; [|apply Forall_nil]; eexists; split; [apply C3; reflexivity|];
         unfold tq_from, tr_from; cbn; repeat eexists). }
  destruct X as (X1 & X2 & X3 & X4). split; [exact X1|]. split; [exact X2|].
  apply Forall_app. split; [assumption|]. constructor; [split; assumption|assumption].
Qed.
Lemma keyed_exec (P : Z -> Prop) progs sched :
  Forall (Forall (fun o => match o with OPopulate K => P K | _ => True end)) progs ->
  keyed P (exec gp rnd progs sched).
Proof.
  intros F. unfold exec. apply (run_inv step (keyed P)); [|apply keyed_step].
  repeat split; cbn; try apply Forall_nil. apply Forall_map. eapply Forall_impl; [|exact F].
  intros ops G. cbn. split; [discriminate|]. intros K I. rewrite Forall_forall in G. apply (G _ I).
Qed.

(** ** How many entries there can be *)
(** Threads that may push an entry without looking at the size again. *)
Definition cleared (M : Z) (t : thread) : Z :=
  match fst t with
  | Pop0 _ _ | Pop1 _ _ | Pop2 _ _ _ => 1
  | Pop7 _ _ n => if n <? M then 1 else 0
  | _ => 0
  end.
Definition active (t : thread) : Z := match key_of (fst t) with Some _ => 1 | None => 0 end.
Definition small (M : Z) (t : thread) : Prop :=
  match fst t with Init0 n | Init1 n | Init2 n => (if n =? 0 then default_size else n) <= M | _ => True end /\
  forall n, In (OInit n) (snd t) -> (if n =? 0 then default_size else n) <= M.
Definition total (f : thread -> Z) (l : list thread) : Z := zsum (map f l).
Lemma total_mid f l t r : total f (l ++ t :: r) = total f l + f t + total f r.
Proof.
  unfold total, zsum. induction l as [|a l IH]; cbn in *; lia.
Qed.
Definition bounded (M : Z) (w : @sys pstate thread) : Prop :=
  Z.of_nat (length (p_tq (shared w))) + total (cleared M) (threads w) <= M - 1 + Z.of_nat (p_calls (shared w)) /\
  total active (threads w) <= Z.of_nat (p_calls (shared w)) /\
  p_max (shared w) <= M /\ Forall (small M) (threads w).
Lemma cleared_active M t : 0 <= cleared M t <= active t.
Proof. unfold cleared, active. destruct t as [[] ops]; cbn; try lia; try (destruct (_ <? _); lia). Qed.
Lemma totals M l : 0 <= total (cleared M) l <= total active l.
Proof.
  induction l as [|t l IH]; [unfold total; cbn; lia|]. pose proof (cleared_active M t) as X.
  change (total (cleared M) (t :: l)) with (cleared M t + total (cleared M) l).
  change (total active (t :: l)) with (active t + total active l). lia.
Qed.
Lemma bounded_step M l t r s s' t' :
  bounded M (Sys s (l ++ t :: r)) -> step (length l) s t = Some (s', t') -> bounded M (Sys s' (l ++ t' :: r)).
Proof.
  intros (A & B & C & D) H. unfold bounded. cbn [shared threads] in *. rewrite !total_mid in *.
  rewrite Forall_app in D. destruct D as (D1 & D2). inversion D2 as [|? ? D3 D4]; subst.
  pose proof (totals M l) as TL. pose proof (totals M r) as TR.
  assert (X : Z.of_nat (length (p_tq s')) + (total (cleared M) l + cleared M t' + total (cleared M) r) <= M - 1 + Z.of_nat (p_calls s') /\
     total active l + active t' + total active r <= Z.of_nat (p_calls s') /\ p_max s' <= M /\ small M t').
  { destruct D3 as (D3 & D5). clear D1 D2 D4. revert A B TL TR.
    generalize (total (cleared M) l) (total (cleared M) r) (total active l) (total active r). intros cl cr al ar A B TL TR.
    cases H; unfold cleared, active, small in *; cbn [fst snd key_of p_tq p_calls p_max called draw note_of set_lock set_ok set_max set_tq set_tr start] in *;
    repeat match goal with E : p_tq s = _ |- _ => rewrite E in *; clear E | E : p_tr s = _ |- _ => rewrite E in *; clear E end;
    rewrite ?app_length; cbn [length] in *;
    repeat match goal with |- context [if p_ok s then _ else _] => destruct (p_ok s)
      | |- context [if (?a <? ?b) then _ else _] => destruct (a <? b) eqn:? 
      | |- context [if (?a =? ?b)%nat then _ else _] => destruct (a =? b)%nat end; cbn [fst snd length key_of] in *; auto;
    repeat match goal with H : context [if (?a <? ?b) then _ else _] |- _ => destruct (a <? b) eqn:? end;
    repeat split; auto using in_eq, in_cons; try lia. }
  destruct X as (X1 & X2 & X3 & X4). repeat split; try assumption.
  apply Forall_app. split; [assumption|]. constructor; assumption.
Qed.
Lemma bounded_exec M progs sched :
  default_size <= M ->
  Forall (Forall (fun o => match o with OInit n => n <= M | _ => True end)) progs ->
  bounded M (exec gp rnd progs sched).
Proof.
  intros HM F. unfold exec. apply (run_inv step (bounded M)); [|apply bounded_step].
  unfold bounded. cbn [shared threads begin]. cbn [p_tq p_calls pstate0 p_max length].
  assert (Z0 : forall f, (forall ops, f (Idle, ops) = 0) -> total f (map (pair Idle) progs) = 0).
  { intros f Hf. clear F. induction progs as [|p progs IH]; [reflexivity|].
    change (f (Idle, p) + total f (map (pair Idle) progs) = 0). rewrite Hf, IH. reflexivity. }
  rewrite !Z0 by reflexivity. unfold default_size in *. repeat split; try (cbn; lia).
  apply Forall_map. eapply Forall_impl; [|exact F]. intros ops G. split; [exact I|]. cbn. intros n IN.
  rewrite Forall_forall in G. specialize (G _ IN). cbn in G. unfold default_size. destruct (n =? 0); lia.
Qed.

(** ** After a stop *)
(** A thread past the test of 215 and before its push. *)
Definition pushing (t : thread) : Z := match fst t with Pop2 _ _ _ => 1 | _ => 0 end.
Definition no_init (t : thread) : Prop :=
  match fst t with Init0 _ | Init1 _ => False | _ => True end /\ forall n, ~ In (OInit n) (snd t).
Definition stopped (n : nat) (w : @sys pstate thread) : Prop :=
  p_ok (shared w) = false /\ Forall no_init (threads w) /\
  Z.of_nat (length (puts (p_htq (shared w)))) + total pushing (threads w) <= Z.of_nat n.
Lemma stopped_step n l t r s s' t' :
  stopped n (Sys s (l ++ t :: r)) -> step (length l) s t = Some (s', t') -> stopped n (Sys s' (l ++ t' :: r)).
Proof.
  intros (A & B & C) H. unfold stopped in *. cbn [shared threads] in *. rewrite total_mid in *.
  rewrite Forall_app in B. destruct B as (D1 & D2). inversion D2 as [|? ? D3 D4]; subst.
  assert (X : p_ok s' = false /\ no_init t' /\ Z.of_nat (length (puts (p_htq s'))) + (total pushing l + pushing t' + total pushing r) <= Z.of_nat n).
  { destruct D3 as (D3 & D5). clear D1 D2 D4. revert C.
    generalize (total pushing l) (total pushing r). intros cl cr C.
    cases H; unfold pushing, no_init in *; cbn [fst snd p_ok p_htq called draw note_of set_lock set_ok set_max set_tq set_tr start] in *;
    rewrite ?puts_app, ?app_length; cbn [length puts] in *;
    repeat match goal with |- context [if p_ok s then _ else _] => rewrite A
      | |- context [if (?a <? ?b) then _ else _] => destruct (a <? b) eqn:? 
      | |- context [if (?a =? ?b)%nat then _ else _] => destruct (a =? b)%nat end; cbn [fst snd length] in *;
    repeat split; auto; try contradiction; try lia; try (intros ? Q; apply (D5 n0); left; reflexivity);
    try (eapply D5; left; reflexivity); try (intros ? Q; eapply D5; right; eassumption). }
  destruct X as (X1 & X2 & X3). repeat split; try assumption.
  apply Forall_app. split; [assumption|]. constructor; assumption.
Qed.
(** At most one thread is pushing. *)
Lemma pushing_le w : mutex w -> 0 <= total pushing (threads w) <= 1.
Proof.
  destruct w as [s ts]. intros M. unfold mutex in M. cbn [threads shared] in *. revert M.
  assert (Z0 : forall l, (forall t, In t l -> pushing t = 0) -> total pushing l = 0).
  { induction l as [|t l IH]; intros H; [reflexivity|]. change (pushing t + total pushing l = 0).
    rewrite H, IH by (auto using in_eq, in_cons). reflexivity. }
  intros M. destruct (p_lock s) as [k|] eqn:L.
  - destruct (nth_error ts k) as [t|] eqn:N.
    + destruct (nth_error_split _ _ N) as (l & r & -> & <-). rewrite total_mid.
      rewrite (Z0 l), (Z0 r).
      * unfold pushing. destruct (fst t); lia.
      * intros u U. apply In_nth_error in U as (i & U).
        specialize (M (length l + S i)%nat u). rewrite nth_error_app2 in M by lia.
        replace (length l + S i - length l)%nat with (S i) in M by lia. specialize (M U).
        unfold pushing. destruct (fst u) eqn:E; try reflexivity. cbn in M. destruct M as [M _]. specialize (M eq_refl). injection M. lia.
      * intros u U. apply In_nth_error in U as (i & U).
        assert (LT : (i < length l)%nat) by (apply nth_error_Some; congruence).
        specialize (M i u). rewrite nth_error_app1 in M by assumption. specialize (M U).
        unfold pushing. destruct (fst u) eqn:E; try reflexivity. cbn in M. destruct M as [M _]. specialize (M eq_refl). injection M. lia.
    + rewrite Z0; [lia|]. intros u U. apply In_nth_error in U as (i & U). specialize (M i u U).
      unfold pushing. destruct (fst u) eqn:E; try reflexivity. cbn in M. destruct M as [M _]. specialize (M eq_refl).
      injection M as ->. congruence.
  - rewrite Z0; [lia|]. intros u U. apply In_nth_error in U as (i & U). specialize (M i u U).
    unfold pushing. destruct (fst u) eqn:E; try reflexivity. cbn in M. destruct M as [M _]. discriminate (M eq_refl).
Qed.
Lemma after_stop progs sched later :
  let w := exec gp rnd progs sched in
  p_ok (shared w) = false -> Forall no_init (threads w) ->
  (length (puts (p_htq (shared (run step w later)))) <= S (length (puts (p_htq (shared w)))))%nat.
Proof.
  cbv zeta. set (w := exec gp rnd progs sched). intros HS HN.
  assert (X : stopped (S (length (puts (p_htq (shared w))))) (run step w later)).
  { apply (run_inv step (stopped _)); [|apply stopped_step]. split; [exact HS|]. split; [exact HN|].
    pose proof (pushing_le w (mutex_exec progs sched)). lia. }
  destruct X as (_ & _ & X).
  assert (0 <= total pushing (threads (run step w later))).
  { unfold total. clear. induction (threads (run step w later)) as [|[p o] l IH]; [reflexivity|]. cbn. unfold zsum in *. cbn.
    unfold pushing at 1. cbn. destruct p; lia. }
  lia.
Qed.
(** While stopped, a thread inside populate makes at most fifteen more steps of its
    own before it is out. *)
Definition left_to_do (p : pc) : nat :=
  match p with
  | Pop0 _ _ => 3 | Pop1 _ _ => 2
  | Pop2 _ _ ds => 15 - List.length ds
  | Pop3 _ _ 0 => 10 | Pop4 _ _ 0 _ => 9 | Pop3 _ _ _ => 8 | Pop4 _ _ _ _ => 7
  | Pop5 _ _ => 6 | Pop6 _ _ => 5 | Pop7 _ _ _ => 4
  | _ => 0
  end.
Lemma stop_leaves me s t s' t' :
  p_ok s = false -> key_of (fst t) <> None -> (match fst t with Pop2 _ _ ds => length ds <= 4 | _ => True end)%nat ->
  step me s t = Some (s', t') -> (left_to_do (fst t') < left_to_do (fst t))%nat.
Proof.
  intros A K L H. cases H; cbn in K; try congruence; cbn [fst left_to_do] in *; rewrite ?A; cbn [left_to_do];
  repeat match goal with |- context [if ?b then _ else _] => destruct b eqn:? end; cbn [left_to_do] in *;
  rewrite ?app_length; cbn [length]; try lia.
  exfalso. cbn in L. lia.
Qed.
Lemma pop2_short progs sched i t :
  nth_error (threads (exec gp rnd progs sched)) i = Some t ->
  match fst t with Pop2 _ _ ds => length ds <= 4 | _ => True end%nat.
Proof.
  unfold exec. revert i t.
  apply (run_inv step (fun w => forall i t, nth_error (threads w) i = Some t -> match fst t with Pop2 _ _ ds => length ds <= 4 | _ => True end%nat)).
  - intros i t H. cbn in H. apply nth_error_In, in_map_iff in H as (p & <- & _). exact I.
  - intros l t r s s' t' IH H i u N. cbn in N. pose proof (IH _ t (nth_here l r t)) as CE.
    destruct (nth_mid _ _ _ _ _ N) as [(-> & ->)|(NE & Q)]; [|exact (IH i u (Q t))].
    clear IH N. cases H; cbn in *; try exact I; repeat match goal with |- context [if ?b then _ else _] => destruct b end; cbn in *; try exact I; lia.
Qed.

(** ** Race freedom of the calls that only use the lock *)
Definition locked_op (o : op) : Prop :=
  match o with OInit _ | OTake | OTriple | OEmpty | ORand => True | _ => False end.
Definition tame (t : thread) : Prop :=
  Forall locked_op (snd t) /\
  match fst t with
  | Pop0 _ _ | Pop1 _ _ | Pop2 _ _ _ | Pop3 _ _ _ | Pop4 _ _ _ _ | Pop5 _ _ | Pop6 _ _ | Pop7 _ _ _ | Stop0 | Max0 | Size0 => False
  | _ => True
  end.
Lemma tame_step me s t s' t' : step me s t = Some (s', t') -> tame t -> tame t'.
Proof.
  intros H (A & B). cases H; cbn in *; try contradiction; split; cbn; auto;
  repeat match goal with H : Forall _ (_ :: _) |- _ => inversion H; subst; clear H end; cbn in *; auto; try contradiction.
Qed.
Lemma tame_exec progs sched : Forall (Forall locked_op) progs -> Forall tame (threads (exec gp rnd progs sched)).
Proof.
  intros F. unfold exec. apply (run_inv step (fun w => Forall tame (threads w))).
  - cbn. apply Forall_map. eapply Forall_impl; [|exact F]. intros ops G. split; [exact G|exact I].
  - intros l t r s s' t' A H. cbn in *. rewrite Forall_app in *. destruct A as (A & B). inversion B; subst.
    split; [assumption|]. constructor; [|assumption]. eapply tame_step; eassumption.
Qed.
Lemma locked_no_race progs sched : Forall (Forall locked_op) progs -> ~ race (exec gp rnd progs sched).
Proof.
  intros F (i & j & t & u & v & b & c & N & NI & NJ & AI & AJ & _).
  pose proof (tame_exec progs sched F) as T. rewrite Forall_forall in T.
  pose proof (T t (nth_error_In _ _ NI)) as (_ & TT). pose proof (T u (nth_error_In _ _ NJ)) as (_ & TU).
  assert (CT : in_cs (fst t) = true) by (unfold access in AI; destruct (fst t); try discriminate AI; try contradiction; reflexivity).
  assert (CU : in_cs (fst u) = true) by (unfold access in AJ; destruct (fst u); try discriminate AJ; try contradiction; reflexivity).
  apply (mutex_exec progs sched) in NI. apply (mutex_exec progs sched) in NJ. apply NI in CT. apply NJ in CU. congruence.
Qed.
(** The calls with unlocked accesses never race with each other on the queues' contents:
    every write to a queue happens under the lock. *)
Lemma queue_writes_locked progs sched i j t u v :
  let w := exec gp rnd progs sched in
  i <> j -> nth_error (threads w) i = Some t -> nth_error (threads w) j = Some u ->
  v = VTq \/ v = VTr \/ v = VMax -> access t = Some (v, true) -> access u <> Some (v, true).
Proof.
  cbv zeta. intros N NI NJ V AI AJ.
  assert (CT : in_cs (fst t) = true).
  { unfold access in AI. destruct (fst t); try discriminate AI; try reflexivity.
    destruct V as [-> | [-> | ->]]; discriminate AI. }
  assert (CU : in_cs (fst u) = true).
  { unfold access in AJ. destruct (fst u); try discriminate AJ; try reflexivity.
    destruct V as [-> | [-> | ->]]; discriminate AJ. }
  apply (mutex_exec progs sched) in NI. apply (mutex_exec progs sched) in NJ. apply NI in CT. apply NJ in CU. congruence.
Qed.

(** ** One thread on its own: populate fills the buffer exactly *)
Inductive solo : nat -> pstate -> thread -> pstate -> thread -> Prop :=
| solo_refl s t : solo 0 s t s t
| solo_step k s t s1 t1 s2 t2 : step 0 s t = Some (s1, t1) -> solo k s1 t1 s2 t2 -> solo (S k) s t s2 t2.
Lemma solo_trans k1 k2 s t s1 t1 s2 t2 : solo k1 s t s1 t1 -> solo k2 s1 t1 s2 t2 -> solo (k1 + k2) s t s2 t2.
Proof. induction 1; cbn; intros; [assumption|]. econstructor; eauto. Qed.
Lemma solo_run k s t s' t' : solo k s t s' t' -> run step (Sys s [t]) (repeat 0%nat k) = Sys s' [t'].
Proof.
  induction 1 as [|k s t s1 t1 s2 t2 H HS IH]; [reflexivity|]. cbn [repeat run fold_left].
  change (run step (sys_step step (Sys s [t]) 0) (repeat 0%nat k) = Sys s2 [t2]).
  pose proof (step_some step [] t [] s s1 t1 H) as E. cbn [app length] in E. rewrite E. exact IH.
Qed.
(** Extra triples of an iteration. *)
Definition extra (i : nat) : nat := if (i mod 3 =? 0)%nat then 2 else 0.
Lemma push_step s K i a b c d ops : exists x,
  step 0 s (Pop2 K i [a; b; c; d], ops) =
  Some (set_tq s (p_tq s ++ [x]) (Put x), ((if (i mod 3 =? 0)%nat then Pop3 K i 0 else Pop5 K (S i)), ops)).
Proof. eexists. reflexivity. Qed.
(** One iteration, from the lock of 214 to the comparison of 247. *)
Lemma iteration s K i ops : p_lock s = None -> p_ok s = true ->
  exists k s' , solo k s (Pop0 K i, ops) s' ((if Z.of_nat (length (p_tq s) + 1) <? p_max s then Pop0 K (S i) else Idle), ops) /\
    p_lock s' = None /\ p_ok s' = true /\ p_max s' = p_max s /\
    length (p_tq s') = (length (p_tq s) + 1)%nat /\ length (p_tr s') = (length (p_tr s) + extra i)%nat.
Proof.
  intros L O. unfold extra.
  destruct (push_step (draw (draw (draw (draw (set_lock s (Some 0%nat)))))) K i (p_draws s) (S (p_draws s)) (S (S (p_draws s))) (S (S (S (p_draws s)))) ops) as (x & PX).
  assert (AL : (length (p_tq s) + 1 = length (p_tq s ++ [x]))%nat) by (rewrite app_length; reflexivity).
  rewrite AL.
  assert (S1 : solo 7 s (Pop0 K i, ops) (set_tq (draw (draw (draw (draw (set_lock s (Some 0%nat)))))) (p_tq s ++ [x]) (Put x))
    ((if (i mod 3 =? 0)%nat then Pop3 K i 0 else Pop5 K (S i)), ops)).
  { econstructor; [cbn; rewrite L; reflexivity|]. econstructor; [cbn; rewrite O; reflexivity|].
    do 4 (econstructor; [reflexivity|]). econstructor; [exact PX|]. constructor. }
  destruct (i mod 3 =? 0)%nat eqn:E.
  - exists (7 + (4 + 3))%nat. eexists. split.
    + eapply solo_trans; [exact S1|]. eapply solo_trans.
      * do 4 (econstructor; [reflexivity|]). constructor.
      * do 3 (econstructor; [reflexivity|]). constructor.
    + cbn. rewrite ?app_length. cbn. repeat split; try assumption; lia.
  - exists (7 + 3)%nat. eexists. split.
    + eapply solo_trans; [exact S1|]. do 3 (econstructor; [reflexivity|]). constructor.
    + cbn. rewrite ?app_length. cbn. repeat split; try assumption; lia.
Qed.
Fixpoint extras (i n : nat) : nat := match n with O => 0 | S n => extra i + extras (S i) n end.
(** [S d] iterations fill the buffer up to its configured size. *)
Lemma fills d : forall s K i ops, p_lock s = None -> p_ok s = true -> p_max s <= Z.of_nat (length (p_tq s) + S d) ->
  (d = 0%nat \/ p_max s = Z.of_nat (length (p_tq s) + S d)) ->
  exists k s', solo k s (Pop0 K i, ops) s' (Idle, ops) /\ p_lock s' = None /\ p_ok s' = true /\ p_max s' = p_max s /\
    length (p_tq s') = (length (p_tq s) + S d)%nat /\ length (p_tr s') = (length (p_tr s) + extras i (S d))%nat.
Proof.
  induction d as [|d IH]; intros s K i ops L O M1 M2.
  - destruct (iteration s K i ops L O) as (k & s' & S1 & L' & O' & M' & Q & R).
    destruct (_ <? _) eqn:C; [apply Z.ltb_lt in C; lia|].
    exists k, s'. cbn [extras]. rewrite Nat.add_0_r. repeat split; assumption.
  - destruct (iteration s K i ops L O) as (k & s' & S1 & L' & O' & M' & Q & R).
    destruct M2 as [M2|M2]; [discriminate|].
    destruct (_ <? _) eqn:C; [|apply Z.ltb_ge in C; lia].
    destruct (IH s' K (S i) ops L' O') as (k2 & s2 & S2 & L2 & O2 & M3 & Q2 & R2); [rewrite M'; lia|rewrite M'; lia|].
    exists (k + k2)%nat, s2. split; [eapply solo_trans; eassumption|]. cbn [extras] in *.
    repeat split; try assumption; try congruence; lia.
Qed.
Lemma extras_3 n : forall i, (i mod 3 = 0)%nat -> extras i n = (2 * ((n + 2) / 3))%nat.
Proof.
  induction n as [n IH] using lt_wf_ind. intros i H.
  assert (E1 : ((S i) mod 3 = 1)%nat).
  { pose proof (Nat.div_mod i 3). replace (S i) with (1 + (i / 3) * 3)%nat by lia. rewrite Nat.mod_add by lia. reflexivity. }
  assert (E2 : ((S (S i)) mod 3 = 2)%nat).
  { pose proof (Nat.div_mod i 3). replace (S (S i)) with (2 + (i / 3) * 3)%nat by lia. rewrite Nat.mod_add by lia. reflexivity. }
  assert (E3 : ((S (S (S i))) mod 3 = 0)%nat).
  { pose proof (Nat.div_mod i 3). replace (S (S (S i))) with (0 + (S (i / 3)) * 3)%nat by lia. rewrite Nat.mod_add by lia. reflexivity. }
  destruct n as [|[|[|n]]]; cbn [extras]; unfold extra; rewrite ?H, ?E1, ?E2; cbn [Nat.eqb]; try reflexivity.
  rewrite IH by (lia || exact E3). replace (S (S (S n)) + 2)%nat with (n + 2 + 1 * 3)%nat by lia.
  rewrite Nat.div_add by lia. lia.
Qed.
End Pre.
