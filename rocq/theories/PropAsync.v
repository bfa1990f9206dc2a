(** Properties C51-C53, C63, C64: queue, futures, thread pool, semaphore, table cache. *)
From Coq Require Import Permutation.
From Verif Require Import Base ThreadModel FifoSpec GroupModel GroupSpec GroupProofs CodecModel LookupModel LookupProofs
  QueueModel QueueProofs AsyncModel AsyncProofs TestParams.
Open Scope nat_scope.
Notation tp := test_params.

(** * C51: AsyncQueue
    [progs]: the calls of any number of threads; [sched]: any interleaving. *)
(** The history of the queue is that of a first-in first-out buffer: nothing is lost,
    repeated or reordered. *)
Theorem C51_fifo {A} (progs : list (list (@qop A))) sched :
  exists q, fifo (map snd (q_hist (shared (qexec progs sched)))) q /\
    puts (map snd (q_hist (shared (qexec progs sched)))) = gots (map snd (q_hist (shared (qexec progs sched)))) ++ q.
Proof.
  destruct (inv_exec progs sched) as (_ & _ & q & ns & _ & F & _). exists q. split; [exact F|].
  rewrite (fifo_conserves _ _ F). f_equal.
  assert (D : forall a, ~ In (Dropped a) (map snd (q_hist (shared (qexec progs sched))))).
  { apply (run_inv qstep (fun w => forall a, ~ In (Dropped a) (map snd (q_hist (shared w))))); [intros a []|].
    intros l t r s s' t' IH H a I. cbn [shared] in *. revert I. destruct t as [[] ops]; cbn in H;
    repeat match type of H with match ?x with _ => _ end = Some _ => destruct x; try discriminate H end;
    injection H as <- <-; cbn; rewrite ?map_app; intros I; try (apply (IH a I));
    repeat match type of I with context [if ?b then event _ _ else _] => destruct b; cbn in I; rewrite ?map_app in I end;
    try (apply (IH a I)); apply in_app_or in I as [I|[I|[]]]; try (apply (IH a I)); cbn in I;
    repeat match type of I with context [if ?b then _ else _] => destruct b end; discriminate I. }
  clear F. induction (map snd (q_hist (shared (qexec progs sched)))) as [|e h IH]; [reflexivity|].
  cbn. rewrite IH by (intros a I; apply (D a); right; exact I).
  destruct e; try reflexivity. destruct (D a). left. reflexivity.
Qed.
(** What the calls of a thread returned is what the history says they did, in order;
    [pending] is the answer that its present call has already settled. *)
Theorem C51_answers {A} (progs : list (list (@qop A))) sched i t :
  nth_error (threads (qexec progs sched)) i = Some t ->
  answers (of_thread i (q_hist (shared (qexec progs sched)))) =
  map ret_event (of_thread i (q_rets (shared (qexec progs sched)))) ++ pending (shared (qexec progs sched)) t.
Proof. exact (answered_exec progs sched i t). Qed.
(** Every push of a thread is in the history in the order of the program, or under
    way, or still to come; a thread that is done has pushed everything. *)
Theorem C51_pushes {A} (progs : list (list (@qop A))) sched i t ops :
  nth_error (threads (qexec progs sched)) i = Some t -> nth_error progs i = Some ops ->
  puts (of_thread i (q_hist (shared (qexec progs sched)))) ++ pushing t ++ pushes (snd t) = pushes ops /\
  (t = (QIdle, []) -> puts (of_thread i (q_hist (shared (qexec progs sched)))) = pushes ops).
Proof.
  intros N P. destruct (accounted_exec progs sched i t N) as (o & O & E). assert (o = ops) by congruence. subst o.
  split; [exact E|]. intros ->. cbn in E. now rewrite !app_nil_r in E.
Qed.
(** A caller is told that the queue is empty only when all that was put has been
    received. *)
Theorem C51_empty {A} (progs : list (list (@qop A))) sched a b :
  map snd (q_hist (shared (qexec progs sched))) = a ++ Missed :: b -> puts a = outs a.
Proof.
  destruct (inv_exec progs sched) as (_ & _ & q & ns & _ & F & _). intros E. rewrite E in F.
  exact (fifo_missed_empty _ _ _ F).
Qed.
(** No data race: the two locks suffice. *)
Theorem C51_no_race {A} (progs : list (list (@qop A))) sched : ~ qrace (qexec progs sched).
Proof. exact (no_race progs sched). Qed.
(** No deadlock and no use of a null pointer: while a thread has something to do some
    thread can act, and a thread that does not wait for a lock can itself. *)
Theorem C51_progress {A} (progs : list (list (@qop A))) sched i t :
  let w := qexec progs sched in
  nth_error (threads w) i = Some t -> t <> (QIdle, []) ->
  (exists j u s' u', nth_error (threads w) j = Some u /\ qstep j (shared w) u = Some (s', u')) /\
  (~ waiting t -> exists s' t', qstep i (shared w) t = Some (s', t')).
Proof.
  cbv zeta. intros N NE. split; [exact (QueueProofs.no_deadlock progs sched i t N NE)|].
  intros NW. exact (never_stuck _ i t (inv_exec progs sched) N NE NW).
Qed.
Definition qdemo : @sys (@qstate nat) (@qpc nat * list (@qop nat)) :=
  qexec [[QPush 1; QPush 2; QPop false]; [QPop true; QPush 3]; [QEmpty; QPop false; QPop true]]
    (concat (repeat [0; 0; 1; 2] 50)).
Example C51_case :
  threads qdemo = [(QIdle, []); (QIdle, []); (QIdle, [])] /\
  puts (map snd (q_hist (shared qdemo))) = [1; 2; 3] /\ gots (map snd (q_hist (shared qdemo))) = [1; 2; 3] /\
  of_thread 2 (q_rets (shared qdemo)) = [REmpty false; RItem 3; RNone].
Proof. vm_compute. repeat split; reflexivity. Qed.

(** * C52: waiting for futures
    [ready k i]: whether future [i] is complete when pass [k] looks at it, any
    function; [outs] are the outcomes of the tasks. *)
Definition futures {A} (outs : list (outcome A)) : list (@future A) := map Fut outs.
Lemma to_come_futures {A} (outs : list (outcome A)) : to_come (futures outs) = outs.
Proof. induction outs as [|o l IH]; [reflexivity|]. cbn. now f_equal. Qed.
(** If it returns, it returns every result exactly once. *)
Theorem C52_all_once {A} ready fuel (outs : list (outcome A)) rs :
  wait_all ready fuel (futures outs) = Some (Ok rs) -> Permutation outs (map Ok rs).
Proof.
  intros H. destruct (loop_ok ready fuel 0 (futures outs) [] rs) as (new & -> & P).
  - rewrite to_come_futures. unfold futures. rewrite map_length. cbn. lia.
  - exact H.
  - rewrite to_come_futures in P. exact P.
Qed.
(** It throws only what a task threw, and returns in the pass in which all are ready. *)
Theorem C52_throws {A} ready fuel (outs : list (outcome A)) e :
  wait_all ready fuel (futures outs) = Some (Throw e) -> In (Throw e) outs.
Proof. intros H. apply loop_throw in H. rewrite to_come_futures in H. exact H. Qed.
Theorem C52_returns {A} (ready : nat -> nat -> bool) k (vs : list A) :
  (forall i, i < length vs -> ready k i = true) ->
  exists rs, wait_all ready (S k) (futures (map Ok vs)) = Some (Ok rs).
Proof.
  intros R. unfold wait_all.
  apply (loop_ends ready k k 0).
  - lia.
  - unfold futures. rewrite !map_length. exact R.
  - rewrite to_come_futures. unfold futures. rewrite !map_length. cbn. lia.
  - rewrite to_come_futures. apply Forall_forall. intros o O. apply in_map_iff in O as (v & <- & _). eauto.
Qed.
(** In the order of the tasks, if all are ready at the first pass ... *)
Theorem C52_in_order {A} (ready : nat -> nat -> bool) fuel (vs : list A) :
  (forall i, i < length vs -> ready 0 i = true) ->
  wait_all ready (S fuel) (futures (map Ok vs)) = Some (Ok vs).
Proof.
  intros R. unfold wait_all. rewrite loop_eq. unfold futures. rewrite map_map.
  rewrite pass_all_ready by (intros j J; apply R; lia). cbn [app]. rewrite map_length, Nat.ltb_irrefl. reflexivity.
Qed.
(** ... but otherwise in the order of completion. *)
Theorem C52_order_refuted : exists (ready : nat -> nat -> bool),
  (forall i k, ready k i = true -> ready (S k) i = true) /\
  wait_all ready 2 (futures [Ok 10; Ok 20]) = Some (Ok [20; 10]).
Proof.
  exists (fun k i => (1 <=? k) || (1 <=? i)). split; [|reflexivity].
  intros i k. destruct k; cbn; [|reflexivity]. reflexivity.
Qed.
(** And it polls for ever if a future was already asked for its result. *)
Theorem C52_invalid_refuted {A} ready fuel (outs : list (outcome A)) rs :
  wait_all ready fuel (Invalid :: futures outs) <> Some (Ok rs).
Proof.
  apply loop_invalid. change (to_come (Invalid :: futures outs)) with (to_come (futures outs)).
  rewrite to_come_futures. unfold futures. cbn. rewrite map_length. lia.
Qed.
Example C52_case : wait_all (fun k i => k + i =? 2) 9 (futures [Ok 7; Ok 8; Ok 9]) = Some (Ok [9; 8; 7]) /\
  wait_all (fun k i => k + i =? 2) 2 (futures [Ok 7; Ok 8; Ok 9]) = None /\
  wait_all (fun k i => k + i =? 2) 9 (futures [Ok 7; Throw BadAlloc; Ok 9]) = Some (Throw BadAlloc).
Proof. repeat split; reflexivity. Qed.

(** * C53: the table cache
    [n]: the count of the semaphore; [progs]: the calls of any number of threads, a
    base and an exponent each.  The operations of std::map are taken as indivisible,
    which C53_race_refuted shows the code does not ensure. *)
Theorem C53_right_table gp n progs sched : valid_params gp ->
  Forall (Forall (fun r => (0 <= fst r < W4096 /\ 0 <= snd r < W256)%Z)) progs ->
  let w := cexec gp n progs sched in
  Forall (fun r => let '(_, (b, e, x)) := r in x = ((b ^ e) mod gpP gp)%Z) (c_rets (shared w)) /\
  (forall key t, cache_find key (c_map (shared w)) = Some t ->
     exists b, (0 <= b < W4096)%Z /\ key = to_hex_p b /\ t = gen_table (gpP gp) b).
Proof.
  cbv zeta. intros V H. destruct (cache_inv_exec gp V n progs sched H) as (C & _ & R). split; [exact R|exact C].
Qed.
(** No call uses a table that is not there; a call waits only for the semaphore, and
    the semaphore is free again as soon as its waiters are through. *)
Theorem C53_progress gp n progs sched i t : valid_params gp ->
  Forall (Forall (fun r => (0 <= fst r < W4096 /\ 0 <= snd r < W256)%Z)) progs ->
  let w := cexec gp n progs sched in
  nth_error (threads w) i = Some t -> t <> (CIdle, []) -> 0 < n ->
  exists j u s' u', nth_error (threads w) j = Some u /\ cstep gp j (shared w) u = Some (s', u').
Proof.
  cbv zeta. intros V H N NE NP. set (w := cexec gp n progs sched).
  destruct (Nat.eq_dec (c_sem (shared w)) 0) as [Z|Z].
  - pose proof (cache_sem gp n progs sched) as S. fold w in S. rewrite Z in S.
    destruct (count_pos in_wait (threads w)) as (j & u & U & I); [lia|].
    destruct u as [[] ops]; try discriminate I. exists j. do 3 eexists. split; [exact U|reflexivity].
  - destruct (cache_moves gp V n progs sched i t H N NE) as (s' & t' & E).
    + destruct (fst t); auto. fold w. lia.
    + exists i, t, s', t'. auto.
Qed.
(** The waiting on the semaphore excludes nobody: two threads with different bases
    change the map at the same time, whatever its count. *)
Theorem C53_race_refuted gp n : exists sched, cache_race (cexec gp (S n) [[(2, 1)]; [(3, 1)]]%Z sched).
Proof.
  exists [0; 0; 0; 1; 1; 1; 0; 1], 0, 1, (CEmplace 2 1, []), (CEmplace 3 1, []), true, true.
  split; [discriminate|]. repeat split; auto.
Qed.
(** A count of 0 (std::thread::hardware_concurrency may return 0) blocks every call. *)
Theorem C53_zero_refuted gp progs sched : c_rets (shared (cexec gp 0 progs sched)) = [].
Proof.
  enough (X : c_rets (shared (cexec gp 0 progs sched)) = [] /\ c_sem (shared (cexec gp 0 progs sched)) = 0 /\
    Forall (fun t => match fst t with CIdle | CLock _ _ => True | _ => False end) (threads (cexec gp 0 progs sched))) by apply X.
  apply (run_inv (cstep gp) (fun w => c_rets (shared w) = [] /\ c_sem (shared w) = 0 /\
    Forall (fun t => match fst t with CIdle | CLock _ _ => True | _ => False end) (threads w))).
  - repeat split. apply Forall_forall. intros t T. apply in_map_iff in T as (p & <- & _). exact I.
  - intros l t r s s' t' (R & S & F) H. cbn [shared threads] in *. apply Forall_app in F as [FL F]. inversion F as [|? ? FT FR]; subst.
    destruct t as [[] ops]; try contradiction; cbn in H.
    + destruct ops as [|[b e] ops]; [discriminate|]. injection H as <- <-. split; [exact R|]. split; [exact S|]. apply Forall_app. repeat constructor; auto.
    + rewrite S in H. discriminate.
Qed.
Definition cache_demo : list (list (Z * Z)) := [[(3, 2); (5, 3)]; [(3, 4)]]%Z.
Example C53_case :
  Forall (Forall (fun r => (0 <= fst r < W4096 /\ 0 <= snd r < W256)%Z)) cache_demo /\
  threads (cexec tp 2 cache_demo [0; 0; 1; 1; 0; 0; 1; 1]) = [(CEmplace 3 2, [(5, 3)]); (CEmplace 3 4, [])]%Z.
Proof. split; [repeat constructor; cbn [fst snd]; vm_compute; discriminate|vm_compute; reflexivity]. Qed.

(** * C63: thread pool
    [n] workers; [ts] the tasks that the owner submits before destroying the pool. *)
(** Tasks are started in the order of submission, none twice; a task that was started
    is finished or running. *)
Theorem C63_order n ts sched :
  let w := pool_exec n ts sched in
  submitted (tp_log (shared w)) = started (tp_log (shared w)) ++ map tname (tp_queue (shared w)) /\
  Permutation (started (tp_log (shared w))) (finished (tp_log (shared w)) ++ running (threads w)).
Proof. cbv zeta. destruct (pool_inv_exec n ts sched) as (A & B & _). auto. Qed.
(** When the pool is destroyed every task has been run exactly once, if no task
    submits tasks itself. *)
Theorem C63_all_run n ts sched :
  Forall (fun t => let '(Task _ subs) := t in subs = []) ts ->
  nth_error (threads (pool_exec n ts sched)) 0 = Some Gone ->
  started (tp_log (shared (pool_exec n ts sched))) = map tname ts /\
  Permutation (finished (tp_log (shared (pool_exec n ts sched)))) (map tname ts).
Proof. exact (pool_all n ts sched). Qed.
(** With at least one worker the destruction can always still come to its end. *)
Theorem C63_can_end n ts sched :
  Forall (fun t => let '(Task _ subs) := t in subs = []) ts ->
  exists more, nth_error (threads (pool_exec (S n) ts (sched ++ more))) 0 = Some Gone.
Proof. exact (pool_can_end n ts sched). Qed.
(** Without workers it never does, once a task was submitted. *)
Theorem C63_no_workers_refuted t ts sched : nth_error (threads (pool_exec 0 (t :: ts) sched)) 0 <> Some Gone.
Proof. exact (pool_hangs t ts sched). Qed.
(** A task submitted by a running task is lost when the pool is being destroyed. *)
Theorem C63_nested_refuted : exists ts sched,
  nth_error (threads (pool_exec 1 ts sched)) 0 = Some Gone /\
  submitted (tp_log (shared (pool_exec 1 ts sched))) = [1; 2] /\
  started (tp_log (shared (pool_exec 1 ts sched))) = [1].
Proof.
  exists [Task 1 [Task 2 []]], ([0; 1; 1] ++ [0; 0; 0; 0] ++ [1; 1; 1; 0]).
  repeat split; reflexivity.
Qed.
Example C63_case : let w := pool_exec 2 [Task 4 []; Task 5 []; Task 6 []] ([0; 0; 1; 1; 2; 2; 0; 2; 2; 2; 2; 1] ++ repeat 0 9 ++ repeat 1 6 ++ repeat 2 6 ++ [0]) in
  nth_error (threads w) 0 = Some Gone /\ started (tp_log (shared w)) = [4; 5; 6] /\ finished (tp_log (shared w)) = [5; 6; 4].
Proof. vm_compute. repeat split; reflexivity. Qed.

(** * C64: semaphore
    [n] is its count, [uses] how often each of the threads uses it. *)
(** Never more than [n] threads hold it. *)
Theorem C64_at_most n uses sched :
  s_count (shared (sexec n uses sched)) + count holds (threads (sexec n uses sched)) = n.
Proof. destruct (sem_inv_exec n uses sched) as (A & _). exact A. Qed.
(** With a positive count nobody waits for ever: no wake-up is lost. *)
Theorem C64_progress n uses sched i t :
  let w := sexec n uses sched in
  0 < n -> nth_error (threads w) i = Some t -> t <> (SIdle, 0) ->
  exists j u s' u', nth_error (threads w) j = Some u /\ sstep j (shared w) u = Some (s', u').
Proof. exact (sem_deadlock n uses sched i t). Qed.
(** With count 0 nobody ever passes. *)
Theorem C64_zero_refuted uses sched : count holds (threads (sexec 0 uses sched)) = 0.
Proof. exact (sem_zero uses sched). Qed.
Example C64_case :
  let w := sexec 1 [1; 1; 1] ([0; 0; 0; 0] ++ [1; 1; 1] ++ [2; 2; 2]) in
  count holds (threads w) = 1 /\ s_asleep (shared w) = 2 /\ s_count (shared w) = 0 /\
  threads (run sstep w (repeat 0 9 ++ repeat 1 9 ++ repeat 2 9)) = [(SIdle, 0); (SIdle, 0); (SIdle, 0)].
Proof. vm_compute. repeat split; reflexivity. Qed.

Print Assumptions C51_fifo.
Print Assumptions C51_answers.
Print Assumptions C51_pushes.
Print Assumptions C51_empty.
Print Assumptions C51_no_race.
Print Assumptions C51_progress.
Print Assumptions C52_all_once.
Print Assumptions C52_throws.
Print Assumptions C52_returns.
Print Assumptions C52_in_order.
Print Assumptions C52_order_refuted.
Print Assumptions C52_invalid_refuted.
Print Assumptions C53_right_table.
Print Assumptions C53_progress.
Print Assumptions C53_race_refuted.
Print Assumptions C53_zero_refuted.
Print Assumptions C63_order.
Print Assumptions C63_all_run.
Print Assumptions C63_can_end.
Print Assumptions C63_no_workers_refuted.
Print Assumptions C63_nested_refuted.
Print Assumptions C64_at_most.
Print Assumptions C64_progress.
Print Assumptions C64_zero_refuted.
