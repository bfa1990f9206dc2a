(** Properties C48-C50: the precompute buffers. *)
From Coq Require Import Permutation.
From Verif Require Import Base GroupModel GroupSpec GroupProofs CodecModel HashModel ElgamalModel ChaumModel
  ThreadModel FifoSpec PrecomputeModel PrecomputeProofs PropChaum TestParams.
Open Scope Z_scope.
Ltac Zify.zify_post_hook ::= idtac.
Notation tp := test_params.

(** In every theorem, [progs] lists the calls of any number of threads, [sched] is any
    interleaving of their steps, and [rnd] gives the successive results of rand_q. *)

(** * C48 *)
(** Both buffers behave as first-in first-out buffers. *)
Theorem C48_fifo gp rnd progs sched :
  let s := shared (exec gp rnd progs sched) in fifo (p_htq s) (p_tq s) /\ fifo (p_htr s) (p_tr s).
Proof. exact (fifos_exec gp rnd progs sched). Qed.
(** What was put is what came out, oldest first, followed by what is left; what the
    callers received is in the order of production. *)
Theorem C48_order gp rnd progs sched :
  let s := shared (exec gp rnd progs sched) in
  puts (p_htq s) = outs (p_htq s) ++ p_tq s /\ puts (p_htr s) = outs (p_htr s) ++ p_tr s /\
  sub (gots (p_htq s)) (puts (p_htq s)) /\ sub (gots (p_htr s)) (puts (p_htr s)).
Proof.
  cbv zeta. destruct (fifos_exec gp rnd progs sched) as (F & G). repeat split.
  - exact (fifo_conserves _ _ F).
  - exact (fifo_conserves _ _ G).
  - exact (fifo_gots _ _ F).
  - exact (fifo_gots _ _ G).
Qed.
(** No result of rand_q enters two values that are handed out, nor a value that is
    handed out and another result of rand_q. *)
Lemma sub_flat {A B} (f : A -> list B) l m : sub l m -> sub (flat_map f l) (flat_map f m).
Proof.
  induction 1 as [|a l m H IH|a l m H IH]; cbn; [constructor| |].
  - induction (f a); cbn; [assumption|constructor; assumption].
  - induction (f a); cbn; [assumption|constructor; assumption].
Qed.
Lemma sub_app {A} (a b c d : list A) : sub a b -> sub c d -> sub (a ++ c) (b ++ d).
Proof. induction 1; cbn; intros; try constructor; auto. Qed.
Lemma sub_refl {A} (l : list A) : sub l l. Proof. induction l; constructor; assumption. Qed.
Theorem C48_no_reuse gp rnd progs sched :
  let s := shared (exec gp rnd progs sched) in
  NoDup (flat_map it_draws (gots (p_htq s)) ++ flat_map it_draws (gots (p_htr s)) ++ rands (p_notes s)).
Proof.
  cbv zeta. pose proof (used_exec gp rnd progs sched) as U. cbv zeta in U.
  pose proof (fifos_exec gp rnd progs sched) as (F & G).
  set (w := exec gp rnd progs sched) in *.
  assert (N : NoDup (used w)) by (eapply Permutation_NoDup; [symmetry; exact U|apply seq_NoDup]).
  eapply sub_nodup; [|exact N]. unfold used, spent. apply sub_app_r.
  apply sub_app; [apply sub_flat, (fifo_gots _ _ F)|]. apply sub_app; [apply sub_flat, (fifo_gots _ _ G)|]. apply sub_refl.
Qed.
(** A caller is told that there is nothing only when everything put so far is gone. *)
Theorem C48_miss gp rnd progs sched a b :
  (p_htq (shared (exec gp rnd progs sched)) = a ++ Missed :: b -> puts a = outs a) /\
  (forall c d, p_htr (shared (exec gp rnd progs sched)) = c ++ Missed :: d -> puts c = outs c).
Proof.
  destruct (fifos_exec gp rnd progs sched) as (F & G). split.
  - intros E. unfold fifos in F. rewrite E in F. exact (fifo_missed_empty _ _ _ F).
  - intros c d E. rewrite E in G. exact (fifo_missed_empty _ _ _ G).
Qed.
(** The calls never block each other for ever, and no queue is popped when empty:
    while a thread has something to do, some thread can take a step. *)
Theorem C48_progress gp rnd progs sched i t :
  let w := exec gp rnd progs sched in
  nth_error (threads w) i = Some t -> t <> (Idle, []) ->
  exists j u s' u', nth_error (threads w) j = Some u /\ tstep gp rnd j (shared w) u = Some (s', u').
Proof. exact (no_deadlock gp rnd progs sched i t). Qed.
(** Data races.  The calls that keep the lock throughout have none, ... *)
Theorem C48_locked_no_race gp rnd progs sched :
  Forall (Forall (fun o => match o with OInit _ | OTake | OTriple | OEmpty | ORand => True | _ => False end)) progs ->
  ~ race (exec gp rnd progs sched).
Proof. intros H. exact (locked_no_race gp rnd progs sched H). Qed.
(** ... no two threads ever write one queue or the size at the same time, ... *)
Theorem C48_writes_exclusive gp rnd progs sched i j t u v :
  let w := exec gp rnd progs sched in
  i <> j -> nth_error (threads w) i = Some t -> nth_error (threads w) j = Some u ->
  v = VTq \/ v = VTr \/ v = VMax -> access t = Some (v, true) -> access u <> Some (v, true).
Proof. exact (queue_writes_locked gp rnd progs sched i j t u v). Qed.
(** ... but populate() reads the size of the queue without the lock while another
    thread takes an element, and stop_populate() writes its flag without the lock. *)
Theorem C48_race_refuted gp rnd :
  (exists sched, race (exec gp rnd [[OInit 2; OPopulate 7]; [OTake]] sched)) /\
  (exists sched, race (exec gp rnd [[OInit 2; OPopulate 7]; [OStop]] sched)).
Proof.
  split.
  - exists (repeat 0%nat 18 ++ [1; 1]%nat), 0%nat, 1%nat, (Pop6 7 1, []), (Take1, []), VTq, false, true.
    split; [discriminate|]. split; [vm_compute; reflexivity|]. split; [vm_compute; reflexivity|]. cbn. auto.
  - exists ([1; 0; 0; 0; 0; 0; 0; 0]%nat), 0%nat, 1%nat, (Pop1 7 0, []), (Stop0, []), VOk, false, true.
    split; [discriminate|]. split; [vm_compute; reflexivity|]. split; [vm_compute; reflexivity|]. cbn. auto.
Qed.
(** Non-trivial case: one thread fills the buffers, two take. *)
Definition demo_rnd (n : nat) : Z := Z.of_nat n + 2.
Definition demo : @sys pstate (pc * list op) :=
  exec tp demo_rnd [[OInit 2; OPopulate 5; OSize]; [OTake; OTriple; ORand]; [OTake; OTake]]
    (repeat 0%nat 24 ++ repeat 1%nat 4 ++ repeat 0%nat 20 ++ repeat 2%nat 4 ++ repeat 1%nat 9 ++ repeat 2%nat 4).
Example C48_case :
  map it_draws (puts (p_htq (shared demo))) = [[0; 1; 2; 3]; [6; 7; 8; 9]]%nat /\
  map it_draws (gots (p_htq (shared demo))) = [[0; 1; 2; 3]; [6; 7; 8; 9]]%nat /\
  map it_draws (gots (p_htr (shared demo))) = [[4]]%nat /\ rands (p_notes (shared demo)) = [10]%nat /\
  List.last (p_htq (shared demo)) Seen = Missed.
Proof. vm_compute. repeat split; reflexivity. Qed.

(** * C49 *)
(** [M] bounds every size that is asked for (and the default size): the buffer never
    holds [M] or more entries beyond the number of calls of populate. *)
Theorem C49_bound gp rnd progs sched M :
  default_size <= M ->
  Forall (Forall (fun o => match o with OInit n => n <= M | _ => True end)) progs ->
  let s := shared (exec gp rnd progs sched) in
  Z.of_nat (length (p_tq s)) <= M - 1 + Z.of_nat (p_calls s) /\
  (p_calls s = 1%nat -> Z.of_nat (length (p_tq s)) <= M).
Proof.
  cbv zeta. intros HM HP. destruct (bounded_exec gp rnd M progs sched HM HP) as (B & _).
  pose proof (totals M (threads (exec gp rnd progs sched))). split; [lia|]. intros E. rewrite E in B. lia.
Qed.
(** A single thread: init(n), populate(K) returns with exactly [n] entries and
    2 * ceil(n / 3) extra triples. *)
Theorem C49_fills gp rnd n K : 0 < n ->
  exists k, let w := exec gp rnd [[OInit n; OPopulate K]] (repeat 0%nat k) in
    threads w = [(Idle, [])] /\ Z.of_nat (length (p_tq (shared w))) = n /\
    length (p_tr (shared w)) = (2 * ((Z.to_nat n + 2) / 3))%nat /\ p_max (shared w) = n /\ p_lock (shared w) = None.
Proof.
  intros H. set (s1 := called (set_lock (set_max (set_ok (set_lock pstate0 (Some 0%nat)) true) n) None)).
  assert (A : solo gp rnd 6 pstate0 (Idle, [OInit n; OPopulate K]) s1 (Pop0 K 0, [])).
  { assert (E : (n =? 0) = false) by lia.
    eapply solo_step; [reflexivity|]. eapply solo_step; [reflexivity|]. eapply solo_step; [reflexivity|].
    eapply solo_step; [cbn; rewrite E; reflexivity|]. eapply solo_step; [reflexivity|]. eapply solo_step; [reflexivity|].
    constructor. }
  destruct (fills gp rnd (Z.to_nat n - 1) s1 K 0 []) as (k & s2 & B & B1 & B2 & B3 & B4 & B5).
  - reflexivity.
  - reflexivity.
  - cbn. lia.
  - right. cbn. lia.
  - exists (6 + k)%nat. unfold exec, begin. cbn [map].
    rewrite (solo_run gp rnd _ _ _ _ _ (solo_trans gp rnd _ _ _ _ _ _ _ _ A B)). cbn [threads shared].
    split; [reflexivity|]. split; [rewrite B4; cbn; lia|]. split; [|split; [rewrite B3; reflexivity|exact B1]].
    rewrite B5, extras_3 by reflexivity. cbn [length p_tr s1 called set_lock set_max set_ok pstate0].
    replace (S (Z.to_nat n - 1)) with (Z.to_nat n) by lia. reflexivity.
Qed.
(** After stop_populate, at most one more entry is put, unless init is called again. *)
Theorem C49_stop gp rnd progs sched later :
  let w := exec gp rnd progs sched in
  p_ok (shared w) = false ->
  Forall (fun t => match fst t with Init0 _ | Init1 _ => False | _ => True end /\ forall n, ~ In (OInit n) (snd t)) (threads w) ->
  (length (puts (p_htq (shared (run (tstep gp rnd) w later)))) <= S (length (puts (p_htq (shared w)))))%nat.
Proof. exact (after_stop gp rnd progs sched later). Qed.
(** And a populate that runs leaves: each of its steps takes it nearer to its end. *)
Theorem C49_stop_returns gp rnd progs sched i t s' t' :
  let w := exec gp rnd progs sched in
  nth_error (threads w) i = Some t -> key_of (fst t) <> None -> p_ok (shared w) = false ->
  tstep gp rnd i (shared w) t = Some (s', t') -> (left_to_do (fst t') < left_to_do (fst t) <= 15)%nat.
Proof.
  cbv zeta. intros N K O H. split.
  - eapply stop_leaves; try eassumption. eapply pop2_short. exact N.
  - unfold left_to_do. destruct (fst t) as [| | | | | |? ? ds|? ? []|? ? [] ?| | | | | | | | | | | | | | | |]; lia.
Qed.
(** The configured size is exceeded: populate puts one entry before it looks. *)
Theorem C49_exceeds_refuted : exists gp rnd progs k,
  let s := shared (exec gp rnd progs (repeat 0%nat k)) in
  p_max s = 1 /\ length (p_tq s) = 2%nat.
Proof. exists tp, demo_rnd, [[OInit 1; OPopulate 5; OPopulate 5]], 50%nat. vm_compute. split; reflexivity. Qed.
Example C49_case :
  let s := shared (exec tp demo_rnd [[OInit 4; OPopulate 5]] (repeat 0%nat 100)) in
  (length (p_tq s), length (p_tr s), p_calls s) = (4, 4, 1)%nat.
Proof. vm_compute. reflexivity. Qed.
Example C49_stop_case :
  let w := exec tp demo_rnd [[OInit 4; OPopulate 5]; [OStop]] (repeat 0%nat 9 ++ [1; 1]%nat) in
  p_ok (shared w) = false /\ length (puts (p_htq (shared w))) = 0%nat /\
  length (puts (p_htq (shared (run (tstep tp demo_rnd) w (repeat 0%nat 100))))) = 1%nat.
Proof. vm_compute. repeat split; reflexivity. Qed.

(** * C50 *)
Lemma make_triple_good gp rnd K d : valid_params gp -> (forall n, 0 <= rnd n < gpQ gp) -> good_triple gp K (make_triple gp rnd K d).
Proof.
  intros V R. pose proof (vp_Qhi _ V). specialize (R d). assert (X : 0 <= rnd d < W256) by (clear - R H; lia).
  unfold good_triple, make_triple. cbn [tr_exp tr_g tr_k]. split; [exact R|]. split; [apply g_pow_p_correct|apply pow_mod_p_correct]; assumption.
Qed.
Lemma make_quad_good gp rnd K d e : valid_params gp -> (forall n, 0 <= rnd n < gpQ gp) -> good_quad gp K (make_quad gp rnd K d e).
Proof.
  intros V R. pose proof (vp_Qhi _ V). pose proof (R d) as Rd. pose proof (R e) as Re.
  assert (X : 0 <= rnd d < W256) by (clear - Rd H; lia). assert (Y : 0 <= rnd e < W256) by (clear - Re H; lia).
  unfold good_quad, make_quad. cbn [qd_exp1 qd_exp2 qd_g1 qd_g2k1]. split; [exact Rd|]. split; [exact Re|].
  split; [apply g_pow_p_correct; assumption|].
  unfold mul_mod_p. rewrite (g_pow_p_correct gp V) by assumption. rewrite (pow_mod_p_correct gp V) by assumption.
  rewrite <- Zmult_mod. reflexivity.
Qed.
(** If every call of populate is for the key [K], then every value in the buffers and
    every value handed out has the right form for [K]. *)
Theorem C50_consistent gp rnd progs sched K :
  valid_params gp -> (forall n, 0 <= rnd n < gpQ gp) ->
  Forall (Forall (fun o => match o with OPopulate K' => K' = K | _ => True end)) progs ->
  let s := shared (exec gp rnd progs sched) in
  (forall x, In x (p_tq s) \/ In x (gots (p_htq s)) ->
     good_triple gp K (tq_t1 (it_val x)) /\ good_triple gp K (tq_t2 (it_val x)) /\ good_quad gp K (tq_q (it_val x))) /\
  (forall x, In x (p_tr s) \/ In x (gots (p_htr s)) -> good_triple gp K (it_val x)).
Proof.
  cbv zeta. intros V R HP. destruct (keyed_exec gp rnd (fun K' => K' = K) progs sched HP) as (KQ & KR & _).
  destruct (fifos_exec gp rnd progs sched) as (F & G).
  set (s := shared (exec gp rnd progs sched)) in *.
  assert (IQ : forall x, In x (p_tq s) \/ In x (gots (p_htq s)) -> In x (puts (p_htq s))).
  { intros x [I|I]; [rewrite (fifo_conserves _ _ F); apply in_or_app; right; exact I|exact (sub_in _ _ _ (fifo_gots _ _ F) I)]. }
  assert (IR : forall x, In x (p_tr s) \/ In x (gots (p_htr s)) -> In x (puts (p_htr s))).
  { intros x [I|I]; [rewrite (fifo_conserves _ _ G); apply in_or_app; right; exact I|exact (sub_in _ _ _ (fifo_gots _ _ G) I)]. }
  rewrite Forall_forall in KQ, KR. split; intros x I.
  - destruct (KQ x (IQ x I)) as (K' & -> & d1 & d2 & d3 & d4 & _ & ->). cbn [tq_t1 tq_t2 tq_q].
    auto using make_triple_good, make_quad_good.
  - destruct (KR x (IR x I)) as (K' & -> & d & _ & ->). apply make_triple_good; assumption.
Qed.
(** The values come from the draws recorded with them, by the key of some call. *)
Theorem C50_from_draws gp rnd progs sched :
  let s := shared (exec gp rnd progs sched) in
  forall x, In x (gots (p_htq s)) -> exists K d1 d2 d3 d4,
    (exists p, In p progs /\ In (OPopulate K) p) /\ it_draws x = [d1; d2; d3; d4] /\
    tr_exp (tq_t1 (it_val x)) = rnd d1 /\ tr_exp (tq_t2 (it_val x)) = rnd d2 /\
    qd_exp1 (tq_q (it_val x)) = rnd d3 /\ qd_exp2 (tq_q (it_val x)) = rnd d4.
Proof.
  cbv zeta. intros x I.
  destruct (keyed_exec gp rnd (fun K => exists p, In p progs /\ In (OPopulate K) p) progs sched) as (KQ & _).
  { apply Forall_forall. intros p P. apply Forall_forall. intros o O. destruct o; auto. exists p. auto. }
  destruct (fifos_exec gp rnd progs sched) as (F & _). rewrite Forall_forall in KQ.
  destruct (KQ x (sub_in _ _ _ (fifo_gots _ _ F) I)) as (K & P & d1 & d2 & d3 & d4 & D & E).
  exists K, d1, d2, d3, d4. rewrite E. cbn. repeat split; auto.
Qed.
(** The buffers are not tied to a key: after populate for one key, a caller that
    encrypts for another key receives values of the first. *)
Theorem C50_key_refuted : exists gp rnd progs k x,
  let s := shared (exec gp rnd progs (repeat 0%nat k)) in
  valid_params gp /\ (forall n, 0 <= rnd n < gpQ gp) /\ progs = [[OInit 1; OPopulate 5; OPopulate 6; OTake; OTake]] /\
  In x (gots (p_htq s)) /\ ~ good_triple gp 6 (tq_t1 (it_val x)).
Proof.
  set (r := fun _ : nat => 3).
  set (x := Item [0; 1; 2; 3]%nat {| tq_t1 := make_triple tp r 5 0; tq_t2 := make_triple tp r 5 1; tq_q := make_quad tp r 5 2 3 |}).
  exists tp, r, [[OInit 1; OPopulate 5; OPopulate 6; OTake; OTake]], 56%nat, x.
  cbv zeta. split; [exact test_params_valid|]. split; [intros n; unfold r; cbn [gpQ test_params]; lia|]. split; [reflexivity|].
  assert (E : hd_error (gots (p_htq (shared (exec tp r [[OInit 1; OPopulate 5; OPopulate 6; OTake; OTake]] (repeat 0%nat 56))))) = Some x)
    by (vm_compute; reflexivity).
  split; [destruct (gots _); [discriminate E|injection E as ->; left; reflexivity]|].
  intros (_ & _ & H). assert (X : tr_k (tq_t1 (it_val x)) = 125) by (vm_compute; reflexivity). rewrite X in H. vm_compute in H. discriminate H.
Qed.
Example C50_case :
  map (fun x => (tr_exp (tq_t1 (it_val x)), tr_g (tq_t1 (it_val x)) =? (gpG tp ^ tr_exp (tq_t1 (it_val x))) mod gpP tp))
    (gots (p_htq (shared demo))) = [(2, true); (8, true)].
Proof. vm_compute. reflexivity. Qed.

Print Assumptions C48_fifo.
Print Assumptions C48_order.
Print Assumptions C48_no_reuse.
Print Assumptions C48_miss.
Print Assumptions C48_progress.
Print Assumptions C48_locked_no_race.
Print Assumptions C48_writes_exclusive.
Print Assumptions C48_race_refuted.
Print Assumptions C49_bound.
Print Assumptions C49_fills.
Print Assumptions C49_stop.
Print Assumptions C49_stop_returns.
Print Assumptions C49_exceeds_refuted.
Print Assumptions C50_consistent.
Print Assumptions C50_from_draws.
Print Assumptions C50_key_refuted.
