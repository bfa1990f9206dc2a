(** Property C86: one encryption mediator called by several threads. *)
From Coq Require Import Psatz String.
From Verif Require Import Base GroupModel HashModel ManifestModel BallotModel JsonModel HashedProofs EncryptModel PropManifest PropEncrypt PropBallot
  ElementModel MediatorModel MediatorSpec MediatorProofs TestParams.
Local Open Scope string_scope.
Local Open Scope list_scope.
Local Notation length := List.length.
Local Open Scope Z_scope.
Ltac Zify.zify_post_hook ::= idtac.

(** The hash of the device, by the specification. *)
Definition first_seed gp sha (d : device) : Z :=
  hash_elems gp sha [HU64 (dv_device d); HU64 (dv_session d); HU64 (dv_launch d); HStr (dv_location d)].
Lemma new_seed m cx d md : mediator_new m cx d = Ok md -> md_seed md = None /\ md_device md = d.
Proof. unfold mediator_new. destruct (bytes_eqb _ _); [|discriminate]. intros H. apply Ok_inj in H. subst md. split; reflexivity. Qed.

(** Any number of threads, each with any requests, with a lock around the calls: under every
    schedule nothing undefined happens, and the answers are those of one thread that makes the
    same requests in the order of return, in which every thread's requests are in its order. *)
Theorem C86_locked gp sha hmac dump m cx d md todo schedule :
  mediator_new m cx d = Ok md ->
  exists c, run_locked gp sha hmac dump md (start todo) schedule = Ok c /\
    answers (cf_log c) = snd (mediator_run gp sha hmac dump md (requests (cf_log c))) /\
    in_order todo (cf_log c).
Proof.
  intros HN. destruct (new_seed _ _ _ _ HN) as [N _].
  destruct (serial_run gp sha hmac dump md N schedule (start todo) (serial_start gp sha hmac dump md todo N)) as (c & R & S & _).
  exists c. split; [exact R|]. split; [exact S|]. apply accounted_in_order.
  apply (locked_inv gp sha hmac dump (accounted todo) md (accounted_step gp sha hmac dump todo md) schedule (start todo)); [apply accounted_start|exact R].
Qed.
(** So the ballots form the chain from the hash of the device. *)
Theorem C86_chain gp sha hmac dump m cx d md todo schedule c :
  mediator_new m cx d = Ok md -> run_locked gp sha hmac dump md (start todo) schedule = Ok c ->
  chained (first_seed gp sha d) (links (cf_log c)) /\ Forall (coded gp sha) (answers (cf_log c)).
Proof.
  intros HN R. destruct (C86_locked gp sha hmac dump m cx d md todo schedule HN) as (c' & R' & A & _).
  rewrite R in R'. apply Ok_inj in R'. subst c'. unfold links. rewrite A.
  destruct (mediator_run gp sha hmac dump md (requests (cf_log c))) as [md' xs] eqn:E. cbn [snd].
  exact (C38_chain gp sha hmac dump m cx d md _ md' xs HN E).
Qed.
(** Wherever a schedule has come to, it can go on until every request is answered. *)
Theorem C86_finishes gp sha hmac dump m cx d md todo schedule :
  mediator_new m cx d = Ok md ->
  exists more c, run_locked gp sha hmac dump md (start todo) (schedule ++ more) = Ok c /\ complete todo (cf_log c).
Proof.
  intros HN. destruct (new_seed _ _ _ _ HN) as [N _].
  destruct (serial_run gp sha hmac dump md N schedule (start todo) (serial_start gp sha hmac dump md todo N)) as (c & R & S).
  destruct (finish gp sha hmac dump md N _ c (le_n _) S) as (more & c' & R' & F). exists more, c'.
  assert (RR : run_locked gp sha hmac dump md (start todo) (schedule ++ more) = Ok c').
  { unfold run_locked in *. clear - R R'. revert R. generalize (start todo). induction schedule as [|i l IH]; intros s R; cbn [app foldM] in *.
    - apply Ok_inj in R. subst s. exact R'.
    - destruct (step_locked gp sha hmac dump md s i) as [s'| |]; try discriminate. cbn [bind] in *. apply IH, R. }
  split; [exact RR|]. apply all_answered; [|exact F].
  apply (locked_inv gp sha hmac dump (accounted todo) md (accounted_step gp sha hmac dump todo md) (schedule ++ more) (start todo)); [apply accounted_start|exact RR].
Qed.
(** A chain has no gaps that do not show: if what is left after leaving out a ballot that is not
    the last is still a chain, that ballot's code was its own seed. *)
Theorem C86_gaps s l x l' : chained s l -> gap l x l' -> chained s l' -> snd x = fst x.
Proof.
  intros H G H'. destruct G as [a [s1 c1] [s2 c2] b]. destruct (chained_app _ _ _ H) as (t & T & E).
  apply E in H'. cbn [chained] in T, H'. cbn [fst snd]. destruct T as (-> & -> & _), H' as (-> & _). reflexivity.
Qed.

(** Without a lock, calls that do not overlap behave in the same way. *)
Lemma not_ok_step gp sha hmac dump md c i : (forall c', step gp sha hmac dump md c i <> Ok c') ->
  step_locked gp sha hmac dump md c i = step gp sha hmac dump md c i.
Proof.
  intros H. unfold step_locked. destruct (nth_error (cf_threads c) i) as [t|] eqn:T.
  - destruct (outside t && _) eqn:B; [|reflexivity]. exfalso. apply andb_true_iff in B. destruct B as [B _].
    unfold outside in B. unfold step in H. rewrite T in H. destruct (th_point t); try discriminate B.
    destruct (th_todo t); eapply H; reflexivity.
  - exfalso. unfold step in H. rewrite T in H. eapply H. reflexivity.
Qed.
Theorem C86_apart gp sha hmac dump md todo schedule :
  (forall a b c, schedule = a ++ b -> run gp sha hmac dump md (start todo) a = Ok c -> apart c) ->
  run gp sha hmac dump md (start todo) schedule = run_locked gp sha hmac dump md (start todo) schedule.
Proof.
  unfold run, run_locked. generalize (start todo). induction schedule as [|i l IH]; intros s H; [reflexivity|]. cbn [foldM].
  destruct (step gp sha hmac dump md s i) as [s'|e|] eqn:E.
  - rewrite (apart_step gp sha hmac dump md s i s'); [cbn [bind]| |exact E].
    + apply IH. intros a b c -> R. apply (H (i :: a) b c eq_refl). cbn [foldM]. rewrite E. exact R.
    + apply (H [i] l s' eq_refl). cbn [foldM]. rewrite E. reflexivity.
  - rewrite not_ok_step by (intros c'; rewrite E; discriminate). rewrite E. reflexivity.
  - rewrite not_ok_step by (intros c'; rewrite E; discriminate). rewrite E. reflexivity.
Qed.
(** One thread needs no lock. *)
Theorem C86_one_thread gp sha hmac dump md l schedule :
  run gp sha hmac dump md (start [l]) schedule = run_locked gp sha hmac dump md (start [l]) schedule.
Proof.
  apply C86_apart. intros a b c _ R i j t t' I J _ _.
  assert (L : length (cf_threads c) = 1%nat).
  { apply (run_inv gp sha hmac dump (fun c => length (cf_threads c) = 1%nat) md) with (sch := a) (c := start [l]); [|reflexivity|exact R].
    clear. intros c i c' L H. unfold step in H. destruct (nth_error (cf_threads c) i) as [t|]; [|apply Ok_inj in H; subst; exact L].
    destruct (th_point t) as [|r|r|r p|r x code].
    - destruct (th_todo t); apply Ok_inj in H; subst c'; [exact L|]. cbn [cf_threads]. unfold goto. rewrite put_len. exact L.
    - apply Ok_inj in H. subst c'. cbn [cf_threads]. unfold goto. rewrite put_len. exact L.
    - destruct (cf_seed c); [|discriminate]. apply Ok_inj in H. subst c'. cbn [cf_threads]. unfold goto. rewrite put_len. exact L.
    - destruct (nth_error (cf_seeds c) p) as [[s|]|]; try discriminate. cbn zeta in H.
      destruct (code_of _); apply Ok_inj in H; subst c'; cbn [cf_threads]; unfold goto; rewrite put_len; exact L.
    - apply Ok_inj in H. subst c'. cbn [cf_threads]. unfold goto. rewrite put_len. exact L. }
  apply (f_equal (fun x => x)) in I. assert (I' : (i < 1)%nat) by (rewrite <- L; apply nth_error_Some; congruence).
  assert (J' : (j < 1)%nat) by (rewrite <- L; apply nth_error_Some; congruence). lia.
Qed.

(** Without a lock, whatever the schedule: as long as nothing undefined has happened, every
    ballot is properly coded and its seed is the hash of the device or the code of a ballot
    returned before. *)
Theorem C86_unlocked_partial gp sha hmac dump m cx d md todo schedule c :
  mediator_new m cx d = Ok md -> run gp sha hmac dump md (start todo) schedule = Ok c ->
  rooted [first_seed gp sha d] (links (cf_log c)) /\ Forall (coded gp sha) (answers (cf_log c)) /\ in_order todo (cf_log c).
Proof.
  intros HN R. destruct (new_seed _ _ _ _ HN) as [_ D].
  pose proof (run_inv gp sha hmac dump (grown gp sha (device_get_hash gp sha (md_device md))) md (grown_step gp sha hmac dump md)
    schedule (start todo) c (grown_start gp sha _ todo) R) as (_ & _ & G3 & G4).
  rewrite D in G3. split; [exact G3|]. split; [exact G4|]. apply accounted_in_order.
  apply (run_inv gp sha hmac dump (accounted todo) md (accounted_step gp sha hmac dump todo md) schedule (start todo)); [apply accounted_start|exact R].
Qed.

(** ** Two threads on the sample election *)
Definition dev0 : device := {| dv_device := 1; dv_session := 2; dv_launch := 3; dv_location := s2b "here" |}.
Lemma md0_new : mediator_new im0 cx0 dev0 = Ok md0.
Proof. vm_compute. reflexivity. Qed.
Definition env3 : env :=
  {| e_rand := e_rand env1; e_tq := e_tq env1; e_tr := e_tr env1; e_clock := fun _ => 1600000777 |}.
Definition asked : list (list request) :=
  [[ReqEncrypt env1 part_ballot false];
   [ReqEncrypt env3 (ballot_of "part" []) false; ReqEncrypt env1 (ballot_of "none" []) false; ReqCompact env1 part_ballot false]].
Definition seen (x : outcome config) : option (list (nat * list (Z * Z))) :=
  match x with Ok c => Some (map (fun e => (fst (fst e), link (snd e))) (cf_log c)) | _ => None end.
(** Thread 1 wants to call while thread 0 is within a call; one of its requests fails. *)
Example C86_case :
  seen (run_locked tp lsha chmac dump0 md0 (start asked) [0; 1; 0; 0; 0; 0; 1; 1; 1; 1; 1; 1; 1; 1; 1; 1; 1]%nat)
  = Some [(0%nat, [(1191, 1424)]); (1%nat, [(1424, 1445)]); (1%nat, []); (1%nat, [(1445, 1423)])] /\
  first_seed tp lsha dev0 = 1191.
Proof. vm_compute. split; reflexivity. Qed.
(** Without a lock: both threads encrypt before either stores its code.  Nothing undefined
    happens, two ballots hang on one seed, and the first can be left out of the record: what
    is left is a chain. *)
Theorem C86_fork_refuted : exists schedule c x y l,
  mediator_new im0 cx0 dev0 = Ok md0 /\
  run tp lsha chmac dump0 md0 (start asked) schedule = Ok c /\ complete asked (cf_log c) /\
  links (cf_log c) = x :: y :: l /\ fst x = fst y /\ snd x <> snd y /\ snd x <> fst x /\
  ~ chained (first_seed tp lsha dev0) (links (cf_log c)) /\
  gap (links (cf_log c)) x (y :: l) /\ chained (first_seed tp lsha dev0) (y :: l).
Proof.
  assert (S : seen (run tp lsha chmac dump0 md0 (start asked) [0; 0; 0; 0; 1; 1; 1; 0; 1; 1; 1; 1; 1; 1; 1; 1]%nat)
    = Some [(0%nat, [(1191, 1424)]); (1%nat, [(1191, 1459)]); (1%nat, []); (1%nat, [(1459, 1422)])]) by (vm_compute; reflexivity).
  assert (D : first_seed tp lsha dev0 = 1191) by (vm_compute; reflexivity).
  set (sch := [0; 0; 0; 0; 1; 1; 1; 0; 1; 1; 1; 1; 1; 1; 1; 1]%nat) in *.
  destruct (run tp lsha chmac dump0 md0 (start asked) sch) as [c| |] eqn:R; try discriminate S.
  cbn [seen] in S. injection S as S.
  assert (L : links (cf_log c) = [(1191, 1424); (1191, 1459); (1459, 1422)]).
  { unfold links, answers. rewrite flat_map_concat_map, map_map.
    rewrite <- (map_map (fun e : nat * request * response => (fst (fst e), link (snd e))) snd), S. reflexivity. }
  destruct (C86_unlocked_partial _ _ _ _ _ _ _ _ _ _ _ md0_new R) as (_ & _ & O1 & O2).
  exists sch, c, (1191, 1424), (1191, 1459), [(1459, 1422)]. rewrite L, D.
  split; [exact md0_new|]. split; [exact R|]. split.
  { split; [exact O1|]. intros i l H. destruct (O2 i l H) as (rest & E).
    assert (C : length (requests_of i (cf_log c)) = length (filter (fun e => (fst e =? i)%nat) [(0%nat, [(1191, 1424)]); (1%nat, [(1191, 1459)]); (1%nat, []); (1%nat, [(1459, 1422)])])).
    { rewrite <- S. unfold requests_of. rewrite map_length. clear. induction (cf_log c) as [|[[j r] x] h IH]; [reflexivity|].
      cbn [filter map fst]. destruct (j =? i)%nat; cbn [length]; [f_equal; exact IH|exact IH]. }
    assert (Z0 : rest = []).
    { apply (f_equal (@List.length _)) in E. rewrite app_length, C in E. destruct rest; [reflexivity|exfalso].
      destruct i as [|[|i]]; cbn in H; [injection H as <-; cbn in E; discriminate E|injection H as <-; cbn in E; discriminate E|].
      destruct i; discriminate H. }
    rewrite Z0, app_nil_r in E. exact E. }
  split; [reflexivity|]. split; [reflexivity|]. split; [discriminate|]. split; [discriminate|].
  split; [intros (_ & H & _); discriminate H|]. split; [exact (gap_at [] _ _ _)|]. repeat split.
Qed.
(** And a thread may read the seed after another has deleted it. *)
Theorem C86_deleted_refuted : exists schedule,
  mediator_new im0 cx0 dev0 = Ok md0 /\ run tp lsha chmac dump0 md0 (start asked) schedule = UB.
Proof. exists [0; 0; 0; 1; 1; 0; 0; 1]%nat. split; [exact md0_new|]. vm_compute. reflexivity. Qed.

Print Assumptions C86_locked.
Print Assumptions C86_chain.
Print Assumptions C86_finishes.
Print Assumptions C86_gaps.
Print Assumptions C86_apart.
Print Assumptions C86_one_thread.
Print Assumptions C86_unlocked_partial.
Print Assumptions C86_fork_refuted.
Print Assumptions C86_deleted_refuted.
