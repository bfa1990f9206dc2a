(** Semaphore, futures, thread pool and table cache under every interleaving. *)
From Coq Require Import Permutation.
From Verif Require Import Base ThreadModel GroupModel GroupSpec GroupProofs CodecModel CodecProofs HashedProofs LookupModel LookupProofs QueueProofs AsyncModel.
Open Scope nat_scope.

(** Number of threads in a given place. *)
Fixpoint count {T} (f : T -> bool) (l : list T) : nat :=
  match l with [] => 0 | x :: r => (if f x then 1 else 0) + count f r end.
Lemma count_app {T} (f : T -> bool) l r : count f (l ++ r) = count f l + count f r.
Proof. induction l as [|x l IH]; cbn; [reflexivity|]. rewrite IH. lia. Qed.
Lemma count_pos {T} (f : T -> bool) l : 0 < count f l -> exists i t, nth_error l i = Some t /\ f t = true.
Proof.
  induction l as [|x l IH]; cbn; [lia|]. destruct (f x) eqn:E.
  - intros _. exists 0, x. auto.
  - intros H. destruct (IH H) as (i & t & A & B). exists (S i), t. auto.
Qed.
Lemma count_zero {T} (f : T -> bool) l : (forall i t, nth_error l i = Some t -> f t = false) -> count f l = 0.
Proof.
  intros H. destruct (Nat.eq_dec (count f l) 0) as [E|E]; [exact E|]. exfalso.
  destruct (count_pos f l) as (i & t & A & B); [lia|]. rewrite (H i t A) in B. discriminate.
Qed.
Lemma count_has {T} (f : T -> bool) l i t : nth_error l i = Some t -> f t = true -> 0 < count f l.
Proof.
  revert i. induction l as [|x l IH]; intros [|i] H E; cbn in *; try discriminate.
  - injection H as ->. rewrite E. lia.
  - specialize (IH i H E). lia.
Qed.

(** ** Semaphore *)
Section Semaphore.
Context (n : nat).
Notation thread := (spc * nat)%type.
Definition holds (t : thread) : bool :=
  match fst t with SLeave | SHold | SUnlock0 | SGive => true | _ => false end.
Definition asleep (t : thread) : bool := match fst t with SSleep => true | _ => false end.
Definition rechecks (t : thread) : bool := match fst t with SWoken | SCheck => true | _ => false end.
Definition in_mutex (t : thread) : bool := match fst t with SCheck | SLeave | SGive | SDone => true | _ => false end.

Definition sem_inv (w : @sys sstate thread) : Prop :=
  s_count (shared w) + count holds (threads w) = n /\
  s_asleep (shared w) = count asleep (threads w) /\
  s_wake (shared w) <= s_asleep (shared w) /\
  (s_wake (shared w) = s_asleep (shared w) \/
   s_count (shared w) <= s_wake (shared w) + count rechecks (threads w)) /\
  count in_mutex (threads w) = match s_mutex (shared w) with None => 0 | Some _ => 1 end.

Lemma sem_inv_exec uses sched : sem_inv (sexec n uses sched).
Proof.
  apply (run_inv sstep sem_inv).
  - assert (Z : forall f : thread -> bool, (forall k, f (SIdle, k) = false) -> count f (map (pair SIdle) uses) = 0).
    { intros f F. apply count_zero. intros i t H. apply nth_error_In, in_map_iff in H as (k & <- & _). apply F. }
    unfold sem_inv. cbn. rewrite !Z by reflexivity. lia.
  - intros l t r s s' t' I H. unfold sem_inv in *. cbn [shared threads] in *. rewrite !count_app in *. cbn [count] in *.
    destruct t as [p k]. destruct p; unfold sstep in H; cbv beta iota zeta in H; unfold holds, asleep, rechecks, in_mutex in *;
    repeat match type of H with
    | match ?x with _ => _ end = Some _ => destruct x eqn:?; try discriminate H
    end; injection H as <- <-; cbn [fst shared threads s_count s_asleep s_wake s_mutex] in *; try lia.
    all: repeat match goal with |- context [if ?a <? ?b then _ else _] => destruct (Nat.ltb_spec a b) end; try lia.
    all: destruct (s_mutex s); lia.
Qed.
Lemma sem_deadlock uses sched i t :
  let w := sexec n uses sched in
  0 < n -> nth_error (threads w) i = Some t -> t <> (SIdle, 0) ->
  exists j u s' u', nth_error (threads w) j = Some u /\ sstep j (shared w) u = Some (s', u').
Proof.
  cbv zeta. intros NP N NE. pose proof (sem_inv_exec uses sched) as I. set (w := sexec n uses sched) in *.
  destruct I as (I1 & I2 & I3 & I4 & I5).
  assert (GO : forall j u, nth_error (threads w) j = Some u -> (exists s' u', sstep j (shared w) u = Some (s', u')) ->
     exists j u s' u', nth_error (threads w) j = Some u /\ sstep j (shared w) u = Some (s', u')).
  { intros j u A (s' & u' & B). exists j, u, s', u'. auto. }
  destruct (s_mutex (shared w)) as [k|] eqn:M.
  - destruct (count_pos in_mutex (threads w)) as (j & u & U & V); [lia|]. apply (GO j u U).
    destruct u as [[] k']; try discriminate V; cbn; try (eexists; eexists; reflexivity).
    destruct (s_count (shared w)); eexists; eexists; reflexivity.
  - destruct (Nat.eq_dec (count rechecks (threads w)) 0) as [R|R].
    2:{ destruct (count_pos rechecks (threads w)) as (j & u & U & V); [lia|]. apply (GO j u U).
        destruct u as [[] k']; try discriminate V; cbn; rewrite ?M; try (eexists; eexists; reflexivity).
        destruct (s_count (shared w)); eexists; eexists; reflexivity. }
    destruct (Nat.eq_dec (count holds (threads w)) 0) as [Z|Z].
    2:{ destruct (count_pos holds (threads w)) as (j & u & U & V); [lia|]. apply (GO j u U).
        destruct u as [[] k']; try discriminate V; cbn; rewrite ?M; eexists; eexists; reflexivity. }
    destruct (asleep t) eqn:A.
    + pose proof (count_has asleep _ _ _ N A). assert (WK : 0 < s_wake (shared w)) by lia.
      apply (GO i t N). destruct t as [[] k']; try discriminate A. cbn. destruct (s_wake (shared w)); [lia|].
      eexists; eexists; reflexivity.
    + apply (GO i t N). destruct t as [[] k']; try discriminate A; cbn; rewrite ?M; try (eexists; eexists; reflexivity).
      * destruct k'; [congruence|]. eexists; eexists; reflexivity.
      * destruct (s_count (shared w)); eexists; eexists; reflexivity.
Qed.
End Semaphore.
(** A semaphore of count 0 is never passed. *)
Lemma sem_zero uses sched : count holds (threads (sexec 0 uses sched)) = 0.
Proof. destruct (sem_inv_exec 0 uses sched) as (I & _). lia. Qed.

(** ** Waiting for futures *)
Section WaitAll.
Context {A : Type}.
Notation fut := (@future A).
(** Values that are still to come. *)
Definition to_come (ts : list fut) : list (outcome A) :=
  flat_map (fun f => match f with Fut o => [o] | Invalid => [] end) ts.
Lemma pass_ok ready i (ts : list fut) rs ts' rs' :
  wait_pass ready i ts rs = Ok (ts', rs') ->
  length ts' = length ts /\
  exists new, rs' = rs ++ new /\ Permutation (to_come ts) (map Ok new ++ to_come ts').
Proof.
  revert i rs ts' rs'. induction ts as [|f ts IH]; intros i rs ts' rs' H; cbn in H.
  - injection H as <- <-. split; [reflexivity|]. exists []. rewrite app_nil_r. split; constructor.
  - destruct f as [o|]; cbn in H; [destruct (ready i)|].
    + destruct o as [v| |]; try discriminate H. cbn in H.
      destruct (wait_pass ready (S i) ts (rs ++ [v])) as [[a b]| |] eqn:E; try discriminate H. injection H as <- <-.
      destruct (IH _ _ _ _ E) as (L & new & -> & P). cbn. split; [lia|]. exists (v :: new).
      rewrite <- app_assoc. split; [reflexivity|]. cbn. constructor. exact P.
    + cbn in H. destruct (wait_pass ready (S i) ts rs) as [[a b]| |] eqn:E; try discriminate H. injection H as <- <-.
      destruct (IH _ _ _ _ E) as (L & new & -> & P). cbn. split; [lia|]. exists new. split; [reflexivity|].
      apply Permutation_cons_app. exact P.
    + cbn in H. destruct (wait_pass ready (S i) ts rs) as [[a b]| |] eqn:E; try discriminate H. injection H as <- <-.
      destruct (IH _ _ _ _ E) as (L & new & -> & P). cbn. split; [lia|]. exists new. split; [reflexivity|exact P].
Qed.
Lemma loop_eq ready fuel k (ts : list fut) rs : wait_loop ready (S fuel) k ts rs =
  match wait_pass (ready k) 0 ts rs with
  | Ok (ts', rs') => if length rs' <? length ts' then wait_loop ready fuel (S k) ts' rs' else Some (Ok rs')
  | Throw e => Some (Throw e)
  | UB => Some UB
  end.
Proof. reflexivity. Qed.
Lemma loop_ok ready fuel : forall k (ts : list fut) rs rs',
  length (to_come ts) + length rs = length ts ->
  wait_loop ready fuel k ts rs = Some (Ok rs') ->
  exists new, rs' = rs ++ new /\ Permutation (to_come ts) (map Ok new).
Proof.
  induction fuel as [|fuel IH]; intros k ts rs rs' HL H; [discriminate H|]. rewrite loop_eq in H.
  destruct (wait_pass (ready k) 0 ts rs) as [[ts' rs1]| |] eqn:E; try discriminate H.
  destruct (pass_ok _ _ _ _ _ _ E) as (L & new & -> & P).
  assert (LP := Permutation_length P). rewrite app_length, map_length in LP.
  destruct (Nat.ltb_spec (length (rs ++ new)) (length ts')) as [X|X].
  - assert (HL2 : length (to_come ts') + length (rs ++ new) = length ts') by (rewrite app_length; lia).
    destruct (IH _ _ _ _ HL2 H) as (new2 & -> & P2). exists (new ++ new2). rewrite app_assoc. split; [reflexivity|].
    rewrite P, P2, map_app. reflexivity.
  - injection H as <-. exists new. split; [reflexivity|]. rewrite app_length in X.
    assert (to_come ts' = []) as Z by (apply length_zero_iff_nil; lia). rewrite Z, app_nil_r in P. exact P.
Qed.
(** A future that throws makes the call throw what it throws. *)
Lemma pass_throw ready i (ts : list fut) rs e :
  wait_pass ready i ts rs = Throw e -> In (Throw e) (to_come ts).
Proof.
  revert i rs. induction ts as [|f ts IH]; intros i rs H; cbn in H; [discriminate|].
  destruct f as [o|]; cbn in *; [destruct (ready i); [destruct o as [v|x|]; cbn in H|]|].
  - right. destruct (wait_pass ready (S i) ts (rs ++ [v])) as [[]| |] eqn:E; try discriminate H. cbn in H. injection H as ->. exact (IH _ _ E).
  - left. congruence.
  - discriminate.
  - right. cbn in H. destruct (wait_pass ready (S i) ts rs) as [[]| |] eqn:E; try discriminate H. cbn in H. injection H as ->. exact (IH _ _ E).
  - cbn in H. destruct (wait_pass ready (S i) ts rs) as [[]| |] eqn:E; try discriminate H. cbn in H. injection H as ->. exact (IH _ _ E).
Qed.
Lemma loop_throw ready fuel : forall k (ts : list fut) rs e,
  wait_loop ready fuel k ts rs = Some (Throw e) -> In (Throw e) (to_come ts).
Proof.
  induction fuel as [|fuel IH]; intros k ts rs e H; [discriminate H|]. rewrite loop_eq in H.
  destruct (wait_pass (ready k) 0 ts rs) as [[ts' rs1]| |] eqn:E; try discriminate H.
  - destruct (pass_ok _ _ _ _ _ _ E) as (L & new & -> & P).
    destruct (length (rs ++ new) <? length ts'); [|discriminate].
    apply IH in H. apply (Permutation_in _ (Permutation_sym P)). apply in_or_app. right. exact H.
  - injection H as <-. eapply pass_throw; eassumption.
Qed.
(** When every future is ready, one pass collects all of them in order. *)
Lemma pass_all_ready ready i (vs rs : list A) :
  (forall j, i <= j < i + length vs -> ready j = true) ->
  wait_pass ready i (map (fun v => Fut (Ok v)) vs) rs = Ok (map (fun _ => Invalid) vs, rs ++ vs).
Proof.
  revert i rs. induction vs as [|v vs IH]; intros i rs R; cbn; [now rewrite app_nil_r|].
  rewrite R by (cbn; lia). cbn. rewrite IH by (intros j Hj; apply R; cbn; lia). cbn. rewrite <- app_assoc. reflexivity.
Qed.
(** A pass in which nothing throws always ends, and takes what is ready. *)
Lemma pass_total ready i (ts : list fut) rs : Forall (fun o => exists v, o = Ok v) (to_come ts) ->
  exists ts' rs', wait_pass ready i ts rs = Ok (ts', rs') /\
    (forall j, (forall m, i <= m -> m < i + length ts -> ready m = true) -> nth_error ts' j <> None ->
       nth_error ts' j = Some Invalid).
Proof.
  revert i rs. induction ts as [|f ts IH]; intros i rs F; cbn.
  - eexists; eexists; split; [reflexivity|]. intros [|j] _ X; cbn in *; congruence.
  - destruct f as [o|]; cbn in *.
    + inversion F as [|? ? (v & ->) F']; subst. destruct (ready i) eqn:R; cbn.
      * destruct (IH (S i) (rs ++ [v]) F') as (a & b & E & Z). rewrite E. cbn. eexists; eexists; split; [reflexivity|].
        intros [|j] RR X; cbn in *; [reflexivity|]. apply Z; [|exact X]. intros m Hm Hm2. apply RR; lia.
      * destruct (IH (S i) rs F') as (a & b & E & Z). rewrite E. cbn. eexists; eexists; split; [reflexivity|].
        intros [|j] RR X; cbn in *; [rewrite RR in R by lia; discriminate|]. apply Z; [|exact X]. intros m Hm Hm2. apply RR; lia.
    + destruct (IH (S i) rs F) as (a & b & E & Z). rewrite E. cbn. eexists; eexists; split; [reflexivity|].
      intros [|j] RR X; cbn in *; [reflexivity|]. apply Z; [|exact X]. intros m Hm Hm2. apply RR; lia.
Qed.
Lemma all_invalid (ts : list fut) : (forall j, nth_error ts j <> None -> nth_error ts j = Some Invalid) -> to_come ts = [].
Proof.
  intros H. induction ts as [|f ts IH]; [reflexivity|]. cbn. assert (E := H 0). cbn in E.
  assert (f = Invalid) by (assert (Some f = Some Invalid) by (apply E; discriminate); congruence). subst f. cbn.
  apply IH. intros j. exact (H (S j)).
Qed.
Lemma loop_ends ready k0 : forall d k (ts : list fut) rs,
  k + d = k0 -> (forall i, i < length ts -> ready k0 i = true) ->
  length (to_come ts) + length rs = length ts -> Forall (fun o => exists v, o = Ok v) (to_come ts) ->
  exists rs', wait_loop ready (S d) k ts rs = Some (Ok rs').
Proof.
  induction d as [|d IH]; intros k ts rs EK R HL F.
  - rewrite loop_eq. destruct (pass_total (ready k) 0 ts rs F) as (ts' & rs' & E & Z). rewrite E.
    destruct (pass_ok _ _ _ _ _ _ E) as (L & new & -> & P). assert (LP := Permutation_length P). rewrite app_length, map_length in LP.
    rewrite (all_invalid ts') in LP.
    2:{ intros j. apply Z. intros m _ Hm. replace k with k0 by lia. apply R. exact Hm. }
    cbn in LP. destruct (Nat.ltb_spec (length (rs ++ new)) (length ts')) as [X|X]; [rewrite app_length in X; lia|]. eexists; reflexivity.
  - destruct (pass_total (ready k) 0 ts rs F) as (ts' & rs' & E & _).
    destruct (pass_ok _ _ _ _ _ _ E) as (L & new & -> & P). assert (LP := Permutation_length P). rewrite app_length, map_length in LP.
    rewrite loop_eq.
    rewrite E. destruct (length (rs ++ new) <? length ts'); [|eexists; reflexivity].
    apply IH; try lia.
    + intros i Hi. apply R. lia.
    + rewrite app_length. lia.
    + rewrite P in F. apply Forall_app in F. apply F.
Qed.
(** One future that was already asked for: the call polls for ever. *)
Lemma loop_invalid ready fuel : forall k (ts : list fut) rs rs',
  length (to_come ts) + length rs < length ts -> wait_loop ready fuel k ts rs <> Some (Ok rs').
Proof.
  induction fuel as [|fuel IH]; intros k ts rs rs' HL H; [discriminate H|]. rewrite loop_eq in H.
  destruct (wait_pass (ready k) 0 ts rs) as [[ts' rs1]| |] eqn:E; try discriminate H.
  destruct (pass_ok _ _ _ _ _ _ E) as (L & new & -> & P). assert (LP := Permutation_length P). rewrite app_length, map_length in LP.
  destruct (Nat.ltb_spec (length (rs ++ new)) (length ts')) as [X|X]; rewrite app_length in *; [|lia].
  refine (IH _ _ _ _ _ H). rewrite app_length. lia.
Qed.
End WaitAll.

(** ** Thread pool *)
Section Pool.
Definition started (l : list pev) : list nat := flat_map (fun e => match e with Started n => [n] | _ => [] end) l.
Definition finished (l : list pev) : list nat := flat_map (fun e => match e with Finished n => [n] | _ => [] end) l.
Definition submitted (l : list pev) : list nat := flat_map (fun e => match e with Submitted n => [n] | _ => [] end) l.
Definition running (ps : list tpc) : list nat := flat_map (fun p => match p with Run0 n _ => [n] | _ => [] end) ps.
Definition live (p : tpc) : bool := match p with Loop0 | Pop0 | Run0 _ _ => true | _ => false end.
Lemma started_app a b : started (a ++ b) = started a ++ started b. Proof. apply flat_map_app. Qed.
Lemma finished_app a b : finished (a ++ b) = finished a ++ finished b. Proof. apply flat_map_app. Qed.
Lemma submitted_app a b : submitted (a ++ b) = submitted a ++ submitted b. Proof. apply flat_map_app. Qed.
Lemma running_app a b : running (a ++ b) = running a ++ running b. Proof. apply flat_map_app. Qed.

(** Tasks are started in the order of their submission; what is started and not
    finished is running. *)
Definition pool_inv (w : @sys tpool tpc) : Prop :=
  submitted (tp_log (shared w)) = started (tp_log (shared w)) ++ map tname (tp_queue (shared w)) /\
  Permutation (started (tp_log (shared w))) (finished (tp_log (shared w)) ++ running (threads w)) /\
  tp_live (shared w) = count live (threads w).
Ltac tcases H p :=
  destruct p; cbn in H;
  repeat match type of H with
  | match ?x with _ => _ end = Some _ => destruct x eqn:?; try discriminate H; cbn in H
  end; try discriminate H; injection H as <- <-.
Lemma pool_inv_exec n ts sched : pool_inv (pool_exec n ts sched).
Proof.
  apply (run_inv tstep pool_inv).
  - unfold pool_inv. cbn. repeat split; try reflexivity.
    + induction n; cbn; [constructor|assumption].
    + induction n; cbn; [reflexivity|]. now f_equal.
  - intros l p r s s' p' (I1 & I2 & I3) H. unfold pool_inv. cbn [shared threads] in *.
    rewrite ?running_app, ?count_app in *.
    change (running (p :: r)) with ((match p with Run0 n _ => [n] | _ => [] end) ++ running r) in *.
    change (running (p' :: r)) with ((match p' with Run0 n _ => [n] | _ => [] end) ++ running r) in *.
    change (count live (p :: r)) with ((if live p then 1 else 0) + count live r) in *.
    change (count live (p' :: r)) with ((if live p' then 1 else 0) + count live r) in *.
    tcases H p; unfold tlog; cbn [tp_log tp_queue tp_live tp_running] in *;
    rewrite ?started_app, ?submitted_app, ?finished_app, ?I1;
    repeat match goal with H : tp_queue s = _ |- _ => rewrite H in *; clear H end; cbn in *; rewrite ?app_nil_r in *;
    repeat match goal with |- context [live (if ?b then _ else _)] => destruct b | |- context [live (match ?b with _ => _ end)] => destruct b end;
    (split; [rewrite ?map_app, <- ?app_assoc; cbn; try reflexivity|split; [|cbn; lia]]).
    all: try exact I2.
    all: try (rewrite (Permutation_app_tail _ I2) || rewrite I2).
    all: apply (Permutation_count_occ Nat.eq_dec); intros x; repeat (rewrite ?count_occ_app; cbn [count_occ app]);
      repeat match goal with |- context [Nat.eq_dec ?a ?b] => destruct (Nat.eq_dec a b) end; try lia.
Qed.
(** The owner is thread 0 and alone in submitting, when no task submits tasks. *)
Definition owner (p : tpc) : bool :=
  match p with Submits _ | Wait0 | Wait1 | Stop0 | Join0 | Gone => true | _ => false end.
Definition to_submit (p : tpc) : list nat := match p with Submits ts => map tname ts | _ => [] end.
Definition simple (t : task) : Prop := let '(Task _ subs) := t in subs = [].
Definition simple_pc (p : tpc) : Prop :=
  match p with Submits ts => Forall simple ts | Run0 _ subs => subs = [] | _ => True end.
Definition drained (p : tpc) : bool := match p with Stop0 | Join0 | Gone => true | _ => false end.
Definition stopped (p : tpc) : bool := match p with Join0 | Gone => true | _ => false end.
Definition flat_inv (ts : list task) (w : @sys tpool tpc) : Prop :=
  Forall simple (tp_queue (shared w)) /\ Forall simple_pc (threads w) /\
  exists p ws, threads w = p :: ws /\ owner p = true /\ Forall (fun q => owner q = false) ws /\
    submitted (tp_log (shared w)) ++ to_submit p = map tname ts /\
    (drained p = true -> tp_queue (shared w) = []) /\
    tp_running (shared w) = negb (stopped p) /\
    (p = Gone -> tp_live (shared w) = 0).
Lemma flat_inv_exec n ts sched : Forall simple ts -> flat_inv ts (pool_exec n ts sched).
Proof.
  intros F. apply (run_inv tstep (flat_inv ts)).
  - unfold flat_inv. cbn. repeat split; [constructor|constructor; [exact F|apply Forall_forall; intros x X; apply repeat_spec in X; subst; exact I]|].
    exists (Submits ts), (repeat Loop0 n). repeat split; try discriminate.
    apply Forall_forall. intros x X. apply repeat_spec in X. subst. reflexivity.
  - intros l p r s s' p' (I1 & I2 & q & ws & E & OW & NO & SB & DR & RU & GN) H. cbn [shared threads] in *.
    apply Forall_app in I2 as [IL I2]. inversion I2 as [|? ? IP IR]; subst.
    destruct l as [|x l].
    + cbn in E. injection E as <- <-. unfold flat_inv. cbn [shared threads app].
      tcases H p; try discriminate OW; cbn in *.
      * repeat split; [exact I1|constructor; [constructor|exact IR]|]. eexists; eexists; split; [reflexivity|]. cbn. rewrite app_nil_r in SB.
        repeat split; try assumption; try discriminate. now rewrite app_nil_r.
      * inversion IP; subst. repeat split; [apply Forall_app; repeat constructor; assumption|constructor; assumption|].
        eexists; eexists; split; [reflexivity|]. cbn. repeat split; try assumption; try discriminate.
        rewrite submitted_app, <- app_assoc. exact SB.
      * rewrite RU. cbn. repeat split; [exact I1|constructor; [constructor|exact IR]|]. eexists; eexists; split; [reflexivity|]. cbn.
        repeat split; try assumption; try discriminate.
      * destruct (tp_queue s) eqn:EQ; repeat split; try exact I1; try (rewrite EQ; exact I1); try (constructor; [constructor|exact IR]);
        (eexists; eexists; split; [reflexivity|]; cbn; repeat split; try assumption; try discriminate).
      * repeat split; [exact I1|constructor; [constructor|exact IR]|]. eexists; eexists; split; [reflexivity|]. cbn.
        repeat split; try assumption; try discriminate.
      * repeat split; [exact I1|constructor; [constructor|exact IR]|]. eexists; eexists; split; [reflexivity|]. cbn.
        repeat split; try assumption. intros _. now apply Nat.eqb_eq.
    + cbn in E. injection E as <- <-. inversion IL as [|? ? IX IL']; subst. apply Forall_app in NO as [NL NR]. inversion NR as [|? ? NP NR']; subst.
      unfold flat_inv. cbn [shared threads app].
      assert (GOAL : Forall simple (tp_queue s') /\ simple_pc p' /\ owner p' = false /\
        submitted (tp_log s') = submitted (tp_log s) /\ (tp_queue s = [] -> tp_queue s' = []) /\
        tp_running s' = tp_running s /\ (tp_live s = 0 -> tp_live s' = 0)).
      { tcases H p; try discriminate NP; unfold tlog; cbn in *; repeat split; try assumption; auto; try discriminate;
        rewrite ?submitted_app; cbn; rewrite ?app_nil_r; try reflexivity; try lia;
        try (match goal with E : tp_queue s = _ |- _ => rewrite E in *; inversion I1; subst end); try assumption; try discriminate. all: inversion I1 as [|? ? I1a I1b]; assumption. }
      destruct GOAL as (G1 & G2 & G3 & G4 & G5 & G6 & G7). split; [exact G1|]. split.
      { constructor; [exact IX|]. apply Forall_app. split; [exact IL'|]. constructor; assumption. }
      exists x, (l ++ p' :: r). split; [reflexivity|]. split; [exact OW|]. split.
      { apply Forall_app. split; [exact NL|]. constructor; assumption. }
      rewrite G4, G6. repeat split; auto.
Qed.
(** When the pool is gone, every task ran exactly once. *)
Lemma pool_all n ts sched : Forall simple ts ->
  nth_error (threads (pool_exec n ts sched)) 0 = Some Gone ->
  started (tp_log (shared (pool_exec n ts sched))) = map tname ts /\
  Permutation (finished (tp_log (shared (pool_exec n ts sched)))) (map tname ts).
Proof.
  intros F G. pose proof (flat_inv_exec n ts sched F) as (I1 & I2 & p & ws & E & OW & NO & SB & DR & RU & GN).
  pose proof (pool_inv_exec n ts sched) as (J1 & J2 & J3).
  rewrite E in G. cbn in G. injection G as ->. cbn in SB. rewrite app_nil_r in SB.
  rewrite DR, app_nil_r in J1 by reflexivity. split; [congruence|].
  rewrite <- SB, J1, J2. replace (running (threads (pool_exec n ts sched))) with (@nil nat); [now rewrite app_nil_r|].
  rewrite GN in J3 by reflexivity. clear - J3. induction (threads (pool_exec n ts sched)) as [|x l IH]; [reflexivity|].
  cbn in *. destruct x; cbn in *; try discriminate; apply IH; assumption.
Qed.
(** Never more than once, and never before its submission; FIFO. *)
Lemma pool_once n ts sched : exists rest,
  submitted (tp_log (shared (pool_exec n ts sched))) = started (tp_log (shared (pool_exec n ts sched))) ++ rest.
Proof. destruct (pool_inv_exec n ts sched) as (J1 & _). eexists. exact J1. Qed.
(** Without workers, a pool that was given a task is never destroyed. *)
Lemma pool_hangs t ts sched : nth_error (threads (pool_exec 0 (t :: ts) sched)) 0 <> Some Gone.
Proof.
  assert (X : exists p, threads (pool_exec 0 (t :: ts) sched) = [p] /\ tp_running (shared (pool_exec 0 (t :: ts) sched)) = true /\
    match p with
    | Submits l => l <> [] \/ tp_queue (shared (pool_exec 0 (t :: ts) sched)) <> []
    | Wait0 | Wait1 => tp_queue (shared (pool_exec 0 (t :: ts) sched)) <> []
    | _ => False
    end).
  { apply (run_inv tstep (fun w => exists p, threads w = [p] /\ tp_running (shared w) = true /\
      match p with
      | Submits l => l <> [] \/ tp_queue (shared w) <> []
      | Wait0 | Wait1 => tp_queue (shared w) <> []
      | _ => False
      end)).
    - eexists. split; [reflexivity|]. split; [reflexivity|]. left. discriminate.
    - intros l p r s s' p' (q & E & R & Q) H. cbn [shared threads] in *.
      destruct l as [|? []]; [|discriminate E..]. cbn in E. injection E as <- ->. exists p'. split; [reflexivity|].
      tcases H p; try contradiction; cbn in *; rewrite ?R; (split; [assumption || reflexivity|]).
      + destruct Q; [congruence|assumption].
      + right. destruct (tp_queue s); discriminate.
      + exact Q.
      + destruct (tp_queue s); [congruence|]. discriminate. }
  destruct X as (p & -> & _ & Q). cbn. intros E. injection E as ->. exact Q.
Qed.
(** With a worker, the pool can always still be destroyed. *)
Definition weight (p : tpc) : nat :=
  match p with
  | Submits ts => 6 + 6 * length ts
  | Wait0 => 5 | Wait1 => 4 | Stop0 => 3 | Join0 => 2 | Gone => 0
  | Loop0 => 2 | Pop0 => 1 | Run0 _ subs => 3 + 6 * length subs | Ended => 0
  end.
Fixpoint weights (l : list tpc) : nat := match l with [] => 0 | p :: r => weight p + weights r end.
Lemma weights_app a b : weights (a ++ b) = weights a + weights b.
Proof. induction a; cbn; lia. Qed.
Definition measure (w : @sys tpool tpc) : nat := 4 * length (tp_queue (shared w)) + weights (threads w).
Lemma measure_step w i p s' p' : nth_error (threads w) i = Some p -> tstep i (shared w) p = Some (s', p') ->
  measure (run tstep w [i]) + weight p + 4 * length (tp_queue (shared w)) = measure w + weight p' + 4 * length (tp_queue s').
Proof.
  intros N H. destruct (nth_error_split _ _ N) as (l & r & EL & EI). destruct w as [s l0]. cbn [threads shared] in *. subst l0 i.
  cbn [run fold_left]. rewrite (step_some tstep l p r s s' p' H). unfold measure. cbn [shared threads]. rewrite !weights_app.
  cbn [weights]. lia.
Qed.
Lemma run_at w i p s' p' : nth_error (threads w) i = Some p -> tstep i (shared w) p = Some (s', p') ->
  shared (run tstep w [i]) = s' /\ nth_error (threads (run tstep w [i])) i = Some p'.
Proof.
  intros N H. destruct (nth_error_split _ _ N) as (l & r & EL & EI). destruct w as [s l0]. cbn [threads shared] in *. subst l0 i.
  cbn [run fold_left]. rewrite (step_some tstep l p r s s' p' H). cbn. split; [reflexivity|].
  apply QueueProofs.nth_here.
Qed.
Lemma pool_progress n ts sched : Forall simple ts ->
  let w := pool_exec (S n) ts sched in
  nth_error (threads w) 0 <> Some Gone -> exists more, measure (run tstep w more) < measure w.
Proof.
  cbv zeta. intros F NG. pose proof (flat_inv_exec (S n) ts sched F) as (I1 & I2 & p & ws & E & OW & NO & SB & DR & RU & GN).
  pose proof (pool_inv_exec (S n) ts sched) as (J1 & J2 & J3).
  assert (LEN : length (threads (pool_exec (S n) ts sched)) = S (S n)).
  { apply (run_inv tstep (fun w => length (threads w) = S (S n))).
    - cbn. now rewrite repeat_length.
    - intros l t r s s' t' L _. cbn in *. rewrite app_length in *. exact L. }
  assert (WE : tp_running (shared (pool_exec (S n) ts sched)) = true -> ~ In Ended (threads (pool_exec (S n) ts sched))).
  { apply (run_inv tstep (fun w => tp_running (shared w) = true -> ~ In Ended (threads w))).
    - intros _. cbn. intros [X|[X|X]]; try discriminate X. apply repeat_spec in X. discriminate X.
    - clear. intros l t r s s' t' IH H R. cbn [shared threads] in *.
      assert (RS : tp_running s = true /\ t' <> Ended).
      { tcases H t; cbn in *; split; try assumption; try congruence; try discriminate;
        repeat match goal with |- (if ?b then _ else _) <> _ => destruct b | |- match ?b with _ => _ end <> _ => destruct b end; discriminate. }
      destruct RS as [RS TN]. specialize (IH RS). intros X. apply in_app_or in X as [X|[X|X]].
      + apply IH, in_or_app. left. exact X.
      + congruence.
      + apply IH, in_or_app. right. right. exact X. }
  set (w := pool_exec (S n) ts sched) in *.
  assert (ONE : forall i q s' q', nth_error (threads w) i = Some q -> tstep i (shared w) q = Some (s', q') ->
    weight q' + 4 * length (tp_queue s') < weight q + 4 * length (tp_queue (shared w)) ->
    exists more, measure (run tstep w more) < measure w).
  { intros i q s' q' N H L. exists [i]. pose proof (measure_step w i q s' q' N H). lia. }
  assert (N0 : nth_error (threads w) 0 = Some p) by (rewrite E; reflexivity).
  destruct p; try discriminate OW.
  - destruct ts0 as [|t0 ts0].
    + eapply (ONE 0); [exact N0|reflexivity|]. cbn. lia.
    + eapply (ONE 0); [exact N0|reflexivity|]. cbn. rewrite app_length. cbn. lia.
  - eapply (ONE 0); [exact N0|reflexivity|]. rewrite RU. cbn. lia.
  - destruct (tp_queue (shared w)) as [|t0 q] eqn:EQ.
    + eapply (ONE 0); [exact N0|cbn; reflexivity|]. rewrite EQ. cbn. lia.
    + rewrite E in LEN. cbn in LEN. destruct ws as [|v ws]; [discriminate LEN|].
      assert (N1 : nth_error (threads w) 1 = Some v) by (rewrite E; reflexivity).
      inversion NO as [|? ? NV _]; subst. rewrite E in I2. inversion I2 as [|? ? _ I3]; subst. inversion I3 as [|? ? SV _]; subst.
      destruct v; try discriminate NV.
      * eapply (ONE 1); [exact N1|cbn; rewrite RU; reflexivity|]. rewrite EQ; cbn; lia.
      * destruct t0 as [m subs]. eapply (ONE 1); [exact N1|cbn; rewrite EQ; reflexivity|]. cbn.
        inversion I1 as [|? ? SI _]; subst. cbn in SI. subst subs. rewrite ?EQ. cbn. lia.
      * cbn in SV. subst subs. eapply (ONE 1); [exact N1|reflexivity|]. cbn; rewrite ?EQ; cbn; lia.
      * exfalso. apply WE; [rewrite RU; reflexivity|]. rewrite E. right. left. reflexivity.
  - eapply (ONE 0); [exact N0|reflexivity|]. cbn. lia.
  - destruct (Nat.eq_dec (tp_live (shared w)) 0) as [Z|Z].
    + eapply (ONE 0); [exact N0|cbn; rewrite Z; reflexivity|]. cbn. lia.
    + destruct (count_pos live (threads w)) as (i & v & NV & LV); [lia|].
      assert (SV : simple_pc v) by (rewrite Forall_forall in I2; apply I2; eapply nth_error_In; exact NV).
      destruct v; try discriminate LV.
      * eapply (ONE i); [exact NV|cbn; rewrite RU; reflexivity|]. cbn. lia.
      * assert (S1 : tstep i (shared w) Pop0 = Some (shared w, Loop0)) by (cbn; rewrite DR; reflexivity).
        destruct (run_at w i _ _ _ NV S1) as (A1 & A2).
        assert (S2 : tstep i (shared (run tstep w [i])) Loop0 = Some (TP (tp_running (shared w)) (tp_queue (shared w)) (tp_log (shared w)) (pred (tp_live (shared w))), Ended)).
        { rewrite A1. cbn. rewrite RU. reflexivity. }
        exists [i; i]. change [i; i] with ([i] ++ [i]). rewrite run_app.
        pose proof (measure_step w i _ _ _ NV S1). pose proof (measure_step _ i _ _ _ A2 S2). rewrite A1 in *. cbn in *. lia.
      * cbn in SV. subst subs. eapply (ONE i); [exact NV|reflexivity|]. cbn. lia.
  - congruence.
Qed.
Lemma pool_can_end n ts sched : Forall simple ts -> exists more,
  nth_error (threads (pool_exec (S n) ts (sched ++ more))) 0 = Some Gone.
Proof.
  intros F. remember (measure (pool_exec (S n) ts sched)) as m eqn:M. revert sched M.
  induction m as [m IH] using (well_founded_induction lt_wf). intros sched M.
  assert (D : nth_error (threads (pool_exec (S n) ts sched)) 0 = Some Gone \/ nth_error (threads (pool_exec (S n) ts sched)) 0 <> Some Gone).
  { destruct (nth_error (threads (pool_exec (S n) ts sched)) 0) as [[]|]; (left; reflexivity) || (right; discriminate). }
  destruct D as [D|D].
  - exists []. rewrite app_nil_r. exact D.
  - destruct (pool_progress n ts sched F D) as (more & L).
    unfold pool_exec in L at 1. rewrite <- run_app in L.
    destruct (IH _ ltac:(rewrite M; exact L) (sched ++ more) eq_refl) as (more2 & G).
    exists (more ++ more2). rewrite app_assoc. exact G.
Qed.
End Pool.

(** ** Table cache *)
Section Cache.
Context (gp : params) (VP : valid_params gp).
Notation thread := (cpc * list (Z * Z))%type.
Definition in_range (r : Z * Z) : Prop := (0 <= fst r < W4096 /\ 0 <= snd r < W256)%Z.
Definition cpc_ok (c : cache) (p : cpc) : Prop :=
  match p with
  | CIdle => True
  | CLock b e | CUnlock b e | CFind b e | CEmplace b e => in_range (b, e)
  | CIndex b e => in_range (b, e) /\ cache_find (to_hex_p b) c <> None
  | CPow b e t => in_range (b, e) /\ t = gen_table (gpP gp) b
  end.
Definition cache_inv (w : @sys cstate thread) : Prop :=
  cache_ok gp (c_map (shared w)) /\
  Forall (fun t => cpc_ok (c_map (shared w)) (fst t) /\ Forall in_range (snd t)) (threads w) /\
  Forall (fun r => let '(_, (b, e, x)) := r in x = ((b ^ e) mod gpP gp)%Z) (c_rets (shared w)).
Lemma cpc_grow c b p : cpc_ok c p -> cpc_ok ((to_hex_p b, gen_table (gpP gp) b) :: c) p.
Proof.
  destruct p; cbn; try tauto. intros [R N]. split; [exact R|]. destruct (bytes_eqb _ _); [discriminate|exact N].
Qed.
Lemma cache_inv_exec n progs sched : Forall (Forall in_range) progs -> cache_inv (cexec gp n progs sched).
Proof.
  intros PR. apply (run_inv (cstep gp) cache_inv).
  - unfold cache_inv. cbn. split; [apply cache_ok_nil|]. split; [|constructor].
    induction PR; cbn; constructor; auto. split; [exact I|assumption].
  - intros l t r s s' t' (C & T & RS) H. unfold cache_inv. cbn [shared threads] in *.
    apply Forall_app in T as [TL TR]. inversion TR as [|? ? TT TR']; subst. destruct TT as [TP TO].
    assert (GOAL : (c_map s' = c_map s \/ exists b, (0 <= b < W4096)%Z /\ c_map s' = (to_hex_p b, gen_table (gpP gp) b) :: c_map s) /\
      cpc_ok (c_map s') (fst t') /\ Forall in_range (snd t') /\ Forall (fun r => let '(_, (b, e, x)) := r in x = ((b ^ e) mod gpP gp)%Z) (c_rets s')).
    { destruct t as [p ops]. destruct p; cbn [cstep] in H; cbn [fst snd] in *.
      - destruct ops as [|[b e] ops]; [discriminate|]. injection H as <- <-. inversion TO; subst. cbn. auto.
      - destruct (c_sem s); [discriminate|]. injection H as <- <-. cbn. auto.
      - injection H as <- <-. cbn. auto.
      - injection H as <- <-. cbn [fst snd] in *. split; [auto|]. split; [|auto].
        destruct (cache_find (to_hex_p b) (c_map s)) eqn:X; cbn in *; [|exact TP]. split; [exact TP|]. congruence.
      - injection H as <- <-. cbn [fst snd c_map c_rets cpc_ok] in *. destruct (cache_find (to_hex_p b) (c_map s)) eqn:X.
        + split; [auto|]. split; [|auto]. split; [exact TP|]. congruence.
        + split; [right; exists b; split; [apply TP|reflexivity]|]. split; [|auto]. split; [exact TP|].
          cbn. destruct (bytes_eqb (to_hex_p b) (to_hex_p b)) eqn:Y; [discriminate|].
          assert (Z := bytes_eqb_refl (to_hex_p b)). congruence.
      - destruct (cache_find (to_hex_p b) (c_map s)) as [t|] eqn:X; [|discriminate]. injection H as <- <-.
        cbn in *. split; [auto|]. split; [|auto]. split; [apply TP|].
        destruct (C _ _ X) as (b' & Hb & K & ->). apply to_hex_p_inj in K; [now subst|apply TP|exact Hb].
      - injection H as <- <-. cbn in *. split; [auto|]. split; [exact I|]. split; [exact TO|].
        apply Forall_app. split; [exact RS|]. constructor; [|constructor]. destruct TP as [R ->].
        apply table_pow_correct; [pose proof (P_pos gp VP); lia|apply (vp_Podd _ VP)|apply R]. }
    destruct GOAL as (GM & GP & GO & GR). split; [|split; [|exact GR]].
    + destruct GM as [-> | (b & Hb & ->)]; [exact C|].
      intros key t0 X. cbn in X. destruct (bytes_eqb (to_hex_p b) key) eqn:K.
      * apply bytes_eqb_true in K. injection X as <-. exists b. auto.
      * apply C. exact X.
    + assert (MON : forall q, cpc_ok (c_map s) q -> cpc_ok (c_map s') q).
      { destruct GM as [-> | (b & _ & ->)]; [trivial|]. intros q. apply cpc_grow. }
      apply Forall_app. split; [|constructor].
      * eapply Forall_impl; [|exact TL]. intros a [A1 A2]. split; [apply MON; exact A1|exact A2].
      * split; assumption.
      * eapply Forall_impl; [|exact TR']. intros a [A1 A2]. split; [apply MON; exact A1|exact A2].
Qed.
(** No call is stuck, and no null table is used. *)
Lemma cache_moves n progs sched i t : Forall (Forall in_range) progs ->
  let w := cexec gp n progs sched in
  nth_error (threads w) i = Some t -> t <> (CIdle, []) ->
  (match fst t with CLock _ _ => 0 < c_sem (shared w) | _ => True end) ->
  exists s' t', cstep gp i (shared w) t = Some (s', t').
Proof.
  cbv zeta. intros PR N NE L. destruct (cache_inv_exec n progs sched PR) as (C & T & _).
  rewrite Forall_forall in T. specialize (T t (nth_error_In _ _ N)) as [T _].
  destruct t as [p ops]. destruct p; cbn in *; try (eexists; eexists; reflexivity).
  - destruct ops as [|[b e] ops]; [congruence|]. eexists; eexists; reflexivity.
  - destruct (c_sem _); [lia|]. eexists; eexists; reflexivity.
  - destruct T as [_ T]. destruct (cache_find _ _); [|congruence]. eexists; eexists; reflexivity.
Qed.
(** The semaphore is not kept during the use of the map: all its units come back. *)
Definition in_wait (t : thread) : bool := match fst t with CUnlock _ _ => true | _ => false end.
Lemma cache_sem n progs sched : c_sem (shared (cexec gp n progs sched)) + count in_wait (threads (cexec gp n progs sched)) = n.
Proof.
  apply (run_inv (cstep gp) (fun w => c_sem (shared w) + count in_wait (threads w) = n)).
  - cbn. rewrite count_zero; [lia|]. intros i t H. apply nth_error_In, in_map_iff in H as (k & <- & _). reflexivity.
  - intros l t r s s' t' I H. cbn [shared threads] in *. rewrite count_app in *. cbn [count] in *.
    destruct t as [p ops]. destruct p; cbn in H; unfold in_wait in *; cbn [fst] in *.
    all: repeat match type of H with match ?x with _ => _ end = Some _ => destruct x eqn:?; try discriminate H end;
      injection H as <- <-; cbn [fst c_sem] in *; try lia.
    destruct (cache_find _ _); cbn; lia.
Qed.
End Cache.
