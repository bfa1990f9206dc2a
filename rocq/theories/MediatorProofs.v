(** Lemmas on a mediator called by several threads. *)
From Coq Require Import Psatz.
From Verif Require Import Base GroupModel ManifestModel BallotModel JsonModel HashedProofs EncryptModel PropBallot ElementModel MediatorModel MediatorSpec.
Local Open Scope list_scope.
Local Notation length := List.length.
Local Open Scope Z_scope.
Ltac Zify.zify_post_hook ::= idtac.

(** ** Lists *)
Lemma put_len {A} (l : list A) i x : length (put l i x) = length l.
Proof. revert i. induction l as [|y l IH]; intros [|i]; cbn [put length]; auto. Qed.
Lemma put_same {A} (l : list A) i x y : nth_error l i = Some y -> nth_error (put l i x) i = Some x.
Proof. revert i. induction l as [|z l IH]; intros [|i] H; cbn in *; try discriminate; auto. Qed.
Lemma put_other {A} (l : list A) i j x : i <> j -> nth_error (put l i x) j = nth_error l j.
Proof.
  revert i j. induction l as [|z l IH]; intros [|i] [|j] H; cbn [put nth_error]; try reflexivity; try congruence.
  apply IH. congruence.
Qed.
Lemma put_inv {A} (l : list A) i j x y z : nth_error l i = Some z -> nth_error (put l i x) j = Some y ->
  (i = j /\ y = x) \/ (i <> j /\ nth_error l j = Some y).
Proof.
  intros H1 H2. destruct (Nat.eq_dec i j) as [->|N].
  - left. rewrite (put_same _ _ _ _ H1) in H2. split; congruence.
  - right. rewrite put_other in H2 by exact N. auto.
Qed.
Lemma nth_last {A} (l : list A) x : nth_error (l ++ [x]) (length l) = Some x.
Proof. induction l as [|y l IH]; [reflexivity|exact IH]. Qed.
Lemma nth_app_ {A} (l : list A) x i y : nth_error l i = Some y -> nth_error (l ++ [x]) i = Some y.
Proof. revert i. induction l as [|z l IH]; intros [|i] H; cbn in *; try discriminate; auto. Qed.

(** ** Histories *)
Lemma requests_of_snoc i h j r x :
  requests_of i (h ++ [(j, r, x)]) = requests_of i h ++ (if (j =? i)%nat then [r] else []).
Proof.
  unfold requests_of. rewrite filter_app, map_app. cbn [filter fst snd]. destruct (j =? i)%nat; reflexivity.
Qed.
Lemma answers_snoc h j r x : answers (h ++ [(j, r, x)]) = answers h ++ [x].
Proof. unfold answers. rewrite map_app. reflexivity. Qed.
Lemma requests_snoc h j r x : requests (h ++ [(j, r, x)]) = requests h ++ [r].
Proof. unfold requests. rewrite map_app. reflexivity. Qed.
Lemma links_snoc h j r x : links (h ++ [(j, r, x)]) = links h ++ link x.
Proof. unfold links. rewrite answers_snoc, flat_map_app. cbn [flat_map]. now rewrite app_nil_r. Qed.
Lemma rooted_incl l : forall k k', incl k k' -> rooted k l -> rooted k' l.
Proof.
  induction l as [|[s c] l IH]; intros k k' I; cbn [rooted]; [auto|]. intros [H1 H2]. split; [apply I, H1|].
  apply (IH (c :: k)); [|exact H2]. intros y [-> | Hy]; [left; reflexivity|right; apply I, Hy].
Qed.
Lemma rooted_snoc l : forall k s c, rooted k l -> In s (k ++ map snd l) -> rooted k (l ++ [(s, c)]).
Proof.
  induction l as [|[a b] l IH]; intros k s c H I; cbn [app rooted map snd] in *.
  - rewrite app_nil_r in I. auto.
  - destruct H as [H1 H2]. split; [exact H1|]. apply IH; [exact H2|].
    apply in_app_or in I. cbn [app]. destruct I as [I|[-> | I]]; [right; apply in_or_app; auto|left; reflexivity|right; apply in_or_app; auto].
Qed.
Lemma chained_rooted l : forall s, chained s l -> rooted [s] l.
Proof.
  induction l as [|[a b] l IH]; intros s; cbn [chained rooted]; [auto|]. intros [-> H]. split; [left; reflexivity|].
  apply (rooted_incl l [b]); [|apply IH, H]. intros y [-> | []]. left; reflexivity.
Qed.
Lemma chained_app a : forall s b, chained s (a ++ b) ->
  exists t, chained t b /\ forall b', chained s (a ++ b') <-> chained t b'.
Proof.
  induction a as [|[x y] a IH]; intros s b H; cbn [app chained] in *.
  - exists s. split; [exact H|]. intros b'. reflexivity.
  - destruct H as [-> H]. destruct (IH _ _ H) as (t & T1 & T2). exists t. split; [exact T1|]. intros b'. rewrite T2. tauto.
Qed.

Section Mediator.
Context (gp : params) (sha : bytes -> Z) (hmac : bytes -> bytes -> Z) (dump : json -> outcome bytes).
Notation mstep := (mediator_step gp sha hmac dump).
Notation mrun := (mediator_run gp sha hmac dump).
Notation step := (step gp sha hmac dump).
Notation step_locked := (step_locked gp sha hmac dump).
Notation run := (run gp sha hmac dump).
Notation run_locked := (run_locked gp sha hmac dump).
Notation next := (next_seed gp sha).

Lemma mrun_snoc l : forall md r,
  mrun md (l ++ [r]) = (fst (mstep (fst (mrun md l)) r), snd (mrun md l) ++ [snd (mstep (fst (mrun md l)) r)]).
Proof.
  induction l as [|x l IH]; intros md r; cbn [app mediator_run].
  - destruct (mstep md r) as [m' y] eqn:E. cbn [fst snd app]. rewrite E. reflexivity.
  - destruct (mstep md x) as [m' y]. rewrite IH. destruct (mrun m' l) as [m2 ys]. reflexivity.
Qed.
Lemma mstep_fields md r : md_manifest (fst (mstep md r)) = md_manifest md /\ md_context (fst (mstep md r)) = md_context md /\
  md_device (fst (mstep md r)) = md_device md.
Proof. unfold mediator_step. destruct r as [E b v|E b v]; cbn [fst]; destruct (value_of _); repeat split. Qed.
Lemma mrun_fields l : forall md, md_manifest (fst (mrun md l)) = md_manifest md /\ md_context (fst (mrun md l)) = md_context md /\
  md_device (fst (mrun md l)) = md_device md.
Proof.
  induction l as [|r l IH]; intros md; cbn [mediator_run]; [repeat split|].
  pose proof (mstep_fields md r) as F. destruct (mstep md r) as [m' y]. cbn [fst] in F.
  specialize (IH m'). destruct (mrun m' l) as [m2 ys]. cbn [fst] in *. destruct F as (F1 & F2 & F3), IH as (I1 & I2 & I3). repeat split; congruence.
Qed.
Lemma mstep_seed md r : md_seed (fst (mstep md r)) = Some (match code_of (snd (mstep md r)) with Some c => c | None => next md end).
Proof.
  unfold mediator_step. fold (next md). destruct r as [E b v|E b v]; cbn [fst snd]; destruct (value_of _); reflexivity.
Qed.
Lemma code_link x : match code_of x with Some c => exists s, link x = [(s, c)] | None => link x = [] end.
Proof. destruct x as [[c| |]|[c| |]]; cbn; eauto. Qed.

(** ** Which requests are answered *)
Definition pending (p : point) : list request :=
  match p with Outside => [] | Unset r | Calling r | Encrypting r _ | Storing r _ _ => [r] end.
Definition accounted (todo : list (list request)) (c : config) : Prop :=
  length (cf_threads c) = length todo /\ Forall (fun e => (fst (fst e) < length todo)%nat) (cf_log c) /\
  forall i t, nth_error (cf_threads c) i = Some t ->
    nth_error todo i = Some (requests_of i (cf_log c) ++ pending (th_point t) ++ th_todo t).
Lemma accounted_start todo : accounted todo (start todo).
Proof.
  unfold accounted, start; cbn [cf_threads cf_log]. rewrite map_length. split; [reflexivity|]. split; [constructor|].
  intros i t H. rewrite nth_error_map in H. destruct (nth_error todo i) as [l|]; [|discriminate].
  cbn in H. injection H as <-. reflexivity.
Qed.
Lemma accounted_put todo c i t p l log' seeds seed (A : accounted todo c) : nth_error (cf_threads c) i = Some t ->
  (forall j, requests_of j log' = requests_of j (cf_log c) \/
     exists r, j = i /\ pending (th_point t) = [r] /\ requests_of j log' = requests_of j (cf_log c) ++ [r]) ->
  Forall (fun e => (fst (fst e) < length todo)%nat) log' ->
  requests_of i log' ++ pending p ++ l = requests_of i (cf_log c) ++ pending (th_point t) ++ th_todo t ->
  accounted todo {| cf_seeds := seeds; cf_seed := seed; cf_log := log'; cf_threads := goto c i p l |}.
Proof.
  destruct A as (A1 & A2 & A3). intros H L F E. split; [|split]; cbn [cf_threads cf_log]; unfold goto.
  - rewrite put_len. exact A1.
  - exact F.
  - intros j t' J. destruct (put_inv _ _ _ _ _ _ H J) as [[-> ->]|[N J']]; cbn [th_point th_todo].
    + rewrite E. apply A3, H.
    + rewrite (A3 _ _ J'). destruct (L j) as [-> |(r & -> & _)]; [reflexivity|congruence].
Qed.
Lemma accounted_step todo md c i c' : accounted todo c -> step md c i = Ok c' -> accounted todo c'.
Proof.
  intros A H. pose proof A as (A1 & A2 & A3). unfold MediatorModel.step in H.
  destruct (nth_error (cf_threads c) i) as [t|] eqn:T; [|apply Ok_inj in H; subst; exact A].
  assert (I : (i < length todo)%nat) by (rewrite <- A1; apply nth_error_Some; congruence).
  assert (SN : forall r x, pending (th_point t) = [r] -> forall j, requests_of j (cf_log c ++ [(i, r, x)]) = requests_of j (cf_log c) \/
     exists r', j = i /\ pending (th_point t) = [r'] /\ requests_of j (cf_log c ++ [(i, r, x)]) = requests_of j (cf_log c) ++ [r']).
  { intros r x P j. rewrite requests_of_snoc. destruct (Nat.eqb_spec i j) as [->|]; [right; eauto|left; apply app_nil_r]. }
  assert (FN : forall r x, Forall (fun e => (fst (fst e) < length todo)%nat) (cf_log c ++ [(i, r, x)])).
  { intros r x. apply Forall_app. split; [exact A2|]. constructor; [exact I|constructor]. }
  assert (EN : forall r x, pending (th_point t) = [r] -> requests_of i (cf_log c ++ [(i, r, x)]) ++ pending Outside ++ th_todo t =
     requests_of i (cf_log c) ++ pending (th_point t) ++ th_todo t).
  { intros r x ->. rewrite requests_of_snoc, Nat.eqb_refl, <- app_assoc. reflexivity. }
  destruct (th_point t) as [|r|r|r p|r x code] eqn:P.
  - destruct (th_todo t) as [|r l] eqn:D; [apply Ok_inj in H; subst; exact A|]. apply Ok_inj in H. subst c'.
    eapply accounted_put; [exact A|exact T|auto|exact A2|]. rewrite P, D. destruct (cf_seed c); reflexivity.
  - apply Ok_inj in H. subst c'. eapply accounted_put; [exact A|exact T|auto|exact A2|]. rewrite P. reflexivity.
  - destruct (cf_seed c) as [p|]; [|discriminate]. apply Ok_inj in H. subst c'.
    eapply accounted_put; [exact A|exact T|auto|exact A2|]. rewrite P. reflexivity.
  - destruct (nth_error (cf_seeds c) p) as [[s|]|]; try discriminate. cbn zeta in H.
    destruct (code_of _) as [code|]; apply Ok_inj in H; subst c'.
    + eapply accounted_put; [exact A|exact T|auto|exact A2|]. rewrite P. reflexivity.
    + eapply accounted_put; [exact A|exact T|rewrite P; apply SN; reflexivity|apply FN|rewrite P; apply EN; reflexivity].
  - apply Ok_inj in H. subst c'.
    eapply accounted_put; [exact A|exact T|rewrite P; apply SN; reflexivity|apply FN|rewrite P; apply EN; reflexivity].
Qed.
Lemma run_inv (P : config -> Prop) md : (forall c i c', P c -> step md c i = Ok c' -> P c') ->
  forall sch c c', P c -> run md c sch = Ok c' -> P c'.
Proof.
  intros S. induction sch as [|i sch IH]; intros c c' H R; cbn [MediatorModel.run foldM] in R; unfold MediatorModel.run in R; cbn [foldM] in R.
  - apply Ok_inj in R. subst. exact H.
  - destruct (step md c i) as [c1| |] eqn:E; try discriminate. cbn [bind] in R. apply (IH c1); [|exact R]. apply (S _ _ _ H E).
Qed.
Lemma accounted_in_order todo c : accounted todo c -> in_order todo (cf_log c).
Proof.
  intros (A1 & A2 & A3). split; [exact A2|]. intros i l H.
  destruct (nth_error (cf_threads c) i) as [t|] eqn:T.
  - rewrite (A3 _ _ T) in H. injection H as <-. eauto.
  - apply nth_error_None in T. rewrite A1 in T. apply nth_error_None in T. congruence.
Qed.

(** ** Without a lock *)
Definition grown (dh : Z) (c : config) : Prop :=
  (forall p v, nth_error (cf_seeds c) p = Some (Some v) -> In v (dh :: map snd (links (cf_log c)))) /\
  (forall i t r x code, nth_error (cf_threads c) i = Some t -> th_point t = Storing r x code ->
     coded gp sha x /\ exists s, link x = [(s, code)] /\ In s (dh :: map snd (links (cf_log c)))) /\
  rooted [dh] (links (cf_log c)) /\ Forall (coded gp sha) (answers (cf_log c)).
Lemma delete_live l p q v x : nth_error (delete l p ++ [Some x]) q = Some (Some v) -> nth_error l q = Some (Some v) \/ v = x.
Proof.
  intros H. destruct (Nat.lt_ge_cases q (length (delete l p))) as [L|L].
  - left. rewrite nth_error_app1 in H by exact L. destruct p as [p|]; [|exact H]. cbn [delete] in *.
    destruct (nth_error l p) as [z|] eqn:Z0.
    + destruct (put_inv _ _ _ _ _ _ Z0 H) as [[-> D]|[_ D]]; [discriminate D|exact D].
    + destruct (Nat.eq_dec p q) as [->|N]; [|rewrite put_other in H by exact N; exact H].
      exfalso. apply nth_error_None in Z0. rewrite put_len in L. lia.
  - right. rewrite nth_error_app2 in H by exact L. destruct (q - length (delete l p))%nat as [|k]; cbn in H; [congruence|].
    destruct k; discriminate.
Qed.
Lemma delete_len l p : length (delete l p) = length l.
Proof. destruct p; [apply put_len|reflexivity]. Qed.
Lemma grown_step md c i c' : grown (device_get_hash gp sha (md_device md)) c -> step md c i = Ok c' ->
  grown (device_get_hash gp sha (md_device md)) c'.
Proof.
  set (dh := device_get_hash gp sha (md_device md)). intros G H. pose proof G as (G1 & G2 & G3 & G4). unfold MediatorModel.step in H.
  destruct (nth_error (cf_threads c) i) as [t|] eqn:T; [|apply Ok_inj in H; subst; exact G].
  (* a thread that moves to a point other than Storing *)
  assert (O : forall p l, (forall r x code, p <> Storing r x code) -> forall j t' r x code,
     nth_error (goto c i p l) j = Some t' -> th_point t' = Storing r x code ->
     coded gp sha x /\ exists s, link x = [(s, code)] /\ In s (dh :: map snd (links (cf_log c)))).
  { intros p l NS j t' r x code J P. destruct (put_inv _ _ _ _ _ _ T J) as [[_ ->]|[_ J']]; [exfalso; apply (NS r x code P)|].
    apply (G2 _ _ _ _ _ J' P). }
  destruct (th_point t) as [|r|r|r p|r x code] eqn:P.
  - destruct (th_todo t) as [|r l]; apply Ok_inj in H; subst c'; [exact G|].
    split; [exact G1|]. split; [|split; [exact G3|exact G4]]. cbn [cf_threads cf_log]. apply O. destruct (cf_seed c); discriminate.
  - apply Ok_inj in H. subst c'. split; [|split; [|split; [exact G3|exact G4]]]; cbn [cf_seeds cf_threads cf_log].
    + intros q v Q. apply delete_live in Q. destruct Q as [Q| ->]; [apply (G1 _ _ Q)|left; reflexivity].
    + apply O. discriminate.
  - destruct (cf_seed c) as [p|]; [|discriminate]. apply Ok_inj in H. subst c'.
    split; [exact G1|]. split; [|split; [exact G3|exact G4]]. cbn [cf_threads cf_log]. apply O. discriminate.
  - destruct (nth_error (cf_seeds c) p) as [[s|]|] eqn:S; try discriminate. cbn zeta in H.
    set (x := snd (mstep (with_seed md s) r)) in *. pose proof (code_link x) as CL.
    pose proof (step_coded gp sha hmac dump (with_seed md s) r) as SC. fold x in SC.
    destruct (code_of x) as [code|]; apply Ok_inj in H; subst c'.
    + split; [exact G1|]. split; [|split; [exact G3|exact G4]]. cbn [cf_threads cf_log]. intros j t' r' x' code' J P'.
      destruct (put_inv _ _ _ _ _ _ T J) as [[_ ->]|[_ J']]; [|apply (G2 _ _ _ _ _ J' P')].
      cbn [th_point] in P'. injection P' as <- <- <-. split; [exact SC|]. destruct CL as [s' CL]. exists s'. split; [exact CL|].
      destruct (step_link gp sha hmac dump (with_seed md s) r s' code CL) as [-> _]. apply (G1 _ _ S).
    + assert (E : links (cf_log c ++ [(i, r, x)]) = links (cf_log c)) by (rewrite links_snoc, CL; apply app_nil_r).
      split; [|split; [|split]]; cbn [cf_seeds cf_threads cf_log]; rewrite ?E; [exact G1|apply O; discriminate|exact G3|].
      rewrite answers_snoc. apply Forall_app. split; [exact G4|]. constructor; [exact SC|constructor].
  - apply Ok_inj in H. subst c'. destruct (G2 _ _ _ _ _ T P) as (SC & s & L & I).
    assert (E : links (cf_log c ++ [(i, r, x)]) = links (cf_log c) ++ [(s, code)]) by (rewrite links_snoc, L; reflexivity).
    assert (K : forall v, In v (dh :: map snd (links (cf_log c))) -> In v (dh :: map snd (links (cf_log c) ++ [(s, code)]))).
    { intros v [-> | V]; [left; reflexivity|right]. rewrite map_app. apply in_or_app. left. exact V. }
    split; [|split; [|split]]; cbn [cf_seeds cf_threads cf_log]; rewrite ?E.
    + intros q v Q. apply delete_live in Q. destruct Q as [Q| ->]; [apply K, (G1 _ _ Q)|].
      right. rewrite map_app. apply in_or_app. right. left. reflexivity.
    + intros j t' r' x' code' J P'. destruct (O Outside (th_todo t) ltac:(discriminate) _ _ _ _ _ J P') as (C1 & s' & C2 & C3).
      split; [exact C1|]. exists s'. split; [exact C2|apply K, C3].
    + apply rooted_snoc; [exact G3|exact I].
    + rewrite answers_snoc. apply Forall_app. split; [exact G4|]. constructor; [exact SC|constructor].
Qed.
Lemma grown_start dh todo : grown dh (start todo).
Proof.
  split; [|split; [|split]]; cbn [start cf_seeds cf_threads cf_log].
  - intros [|p] v H; discriminate.
  - intros i t r x code H P. rewrite nth_error_map in H. destruct (nth_error todo i); [|discriminate]. cbn in H. injection H as <-. discriminate P.
  - exact I.
  - constructor.
Qed.

(** ** With a lock *)
Definition live (c : config) (v : Z) : Prop :=
  exists p, cf_seed c = Some p /\ nth_error (cf_seeds c) p = Some (Some v).
Definition at_point (m : mediator) (c : config) (p : point) : Prop :=
  match p with
  | Outside => match md_seed m with None => cf_seed c = None | Some v => live c v end
  | Unset r => cf_seed c = None /\ md_seed m = None
  | Calling r => live c (next m)
  | Encrypting r p => cf_seed c = Some p /\ live c (next m)
  | Storing r x code => live c (next m) /\ x = snd (mstep m r) /\ code_of x = Some code
  end.
Definition serial (md : mediator) (c : config) : Prop :=
  answers (cf_log c) = snd (mrun md (requests (cf_log c))) /\
  ((Forall (fun t => outside t = true) (cf_threads c) /\ at_point (fst (mrun md (requests (cf_log c)))) c Outside) \/
   exists i t, nth_error (cf_threads c) i = Some t /\ outside t = false /\
     (forall j t', nth_error (cf_threads c) j = Some t' -> j <> i -> outside t' = true) /\
     at_point (fst (mrun md (requests (cf_log c)))) c (th_point t)).
Lemma serial_start md todo : md_seed md = None -> serial md (start todo).
Proof.
  intros N. split; [reflexivity|]. left. split; [|cbn; rewrite N; reflexivity].
  apply Forall_forall. intros t I. cbn [start cf_threads] in I. apply in_map_iff in I. destruct I as (l & <- & _). reflexivity.
Qed.
Lemma forall_outside l : Forall (fun t => outside t = true) l <-> forallb outside l = true.
Proof. rewrite forallb_forall, Forall_forall. reflexivity. Qed.
Lemma serial_step md c i : md_seed md = None -> serial md c -> exists c', step_locked md c i = Ok c' /\ serial md c'.
Proof.
  intros N S. pose proof S as (S1 & S2). unfold MediatorModel.step_locked.
  destruct (nth_error (cf_threads c) i) as [t|] eqn:T; [|eexists; split; [reflexivity|exact S]].
  set (m := fst (mrun md (requests (cf_log c)))) in *.
  assert (QM : forall v, v = next m -> mequiv gp sha (with_seed md v) m).
  { intros v ->. destruct (mrun_fields (requests (cf_log c)) md) as (F1 & F2 & F3). fold m in F1, F2, F3.
    repeat split; cbn [with_seed md_manifest md_context md_device]; congruence. }
  destruct S2 as [[F A]|(k & tk & K & Ok_ & Others & A)].
  - (* nobody is inside *)
    rewrite (proj1 (forall_outside _) F), andb_false_r. unfold MediatorModel.step. rewrite T.
    assert (OT : outside t = true) by (rewrite Forall_forall in F; apply F, (nth_error_In _ _ T)).
    unfold outside in OT. destruct (th_point t) eqn:P; try discriminate OT.
    destruct (th_todo t) as [|r l]; [eexists; split; [reflexivity|exact S]|].
    eexists. split; [reflexivity|]. split; [exact S1|]. right. cbn [cf_threads cf_log]. fold m.
    exists i. eexists. split; [apply (put_same _ _ _ _ T)|]. cbn [th_point]. split; [destruct (cf_seed c); reflexivity|]. split.
    + intros j t' J NJ. unfold goto in J. rewrite put_other in J by congruence. rewrite Forall_forall in F. apply F, (nth_error_In _ _ J).
    + cbn [at_point] in A. destruct (md_seed m) as [v|] eqn:M.
      * pose proof A as (p & C1 & C2). rewrite C1. cbn [at_point]. unfold next_seed. rewrite M. exists p. split; [reflexivity|exact C2].
      * rewrite A. split; [reflexivity|exact M].
  - destruct (Nat.eq_dec k i) as [->|NE].
    + (* the thread inside moves *)
      rewrite K in T. injection T as <-. rewrite Ok_. cbn [andb]. unfold MediatorModel.step. rewrite K.
      assert (OP : forall p l, forall j t', nth_error (goto c i p l) j = Some t' -> j <> i -> outside t' = true).
      { intros p l j t' J NJ. unfold goto in J. rewrite put_other in J by congruence. apply (Others _ _ J NJ). }
      assert (OO : forall l, Forall (fun t => outside t = true) (goto c i Outside l)).
      { intros l. apply Forall_forall. intros t' I. apply In_nth_error in I. destruct I as [j J].
        destruct (Nat.eq_dec j i) as [->|NJ]; [|apply (OP _ _ _ _ J NJ)]. unfold goto in J. rewrite (put_same _ _ _ _ K) in J.
        injection J as <-. reflexivity. }
      destruct (th_point tk) as [|r|r|r p|r x code] eqn:P.
      * unfold outside in Ok_. rewrite P in Ok_. discriminate.
      * destruct A as [A1 A2]. rewrite A1. cbn [delete]. eexists. split; [reflexivity|]. split; [exact S1|]. right. cbn [cf_threads cf_log]. fold m.
        exists i. eexists. split; [apply (put_same _ _ _ _ K)|]. split; [reflexivity|]. split; [apply OP|].
        cbn [th_point at_point]. unfold next_seed. rewrite A2. exists (length (cf_seeds c)). split; [reflexivity|]. cbn [cf_seeds].
        destruct (mrun_fields (requests (cf_log c)) md) as (_ & _ & MD). fold m in MD. rewrite MD. apply nth_last.
      * pose proof A as (p & A1 & A2). rewrite A1. eexists. split; [reflexivity|]. split; [exact S1|]. right. cbn [cf_threads cf_log]. fold m.
        exists i. eexists. split; [apply (put_same _ _ _ _ K)|]. split; [reflexivity|]. split; [apply OP|].
        cbn [th_point at_point cf_seed]. split; [reflexivity|]. exists p. split; [reflexivity|exact A2].
      * destruct A as (A0 & p' & A1 & A2). rewrite A0 in A1. injection A1 as <-. rewrite A2. cbn zeta.
        destruct (step_equiv gp sha hmac dump _ _ r (QM _ eq_refl)) as [-> _].
        pose proof (mstep_seed m r) as MS. destruct (code_of (snd (mstep m r))) as [code|] eqn:CO.
        -- eexists. split; [reflexivity|]. split; [exact S1|]. right. cbn [cf_threads cf_log]. fold m.
           exists i. eexists. split; [apply (put_same _ _ _ _ K)|]. split; [reflexivity|]. split; [apply OP|].
           cbn [th_point at_point]. split; [exists p; split; [exact A0|exact A2]|]. split; [reflexivity|exact CO].
        -- eexists. split; [reflexivity|]. split; cbn [cf_threads cf_log].
           ++ rewrite answers_snoc, requests_snoc, mrun_snoc. cbn [snd]. fold m. rewrite S1. reflexivity.
           ++ left. split; [apply OO|]. rewrite requests_snoc, mrun_snoc. cbn [fst]. fold m. cbn [at_point]. rewrite MS.
              exists p. split; [exact A0|exact A2].
      * destruct A as ((p & A1 & A2) & -> & CO). eexists. split; [reflexivity|]. split; cbn [cf_threads cf_log].
        -- rewrite answers_snoc, requests_snoc, mrun_snoc. cbn [snd]. fold m. rewrite S1. reflexivity.
        -- left. split; [apply OO|]. rewrite requests_snoc, mrun_snoc. cbn [fst]. fold m. cbn [at_point].
           rewrite (mstep_seed m r), CO. exists (length (cf_seeds c)). split; [reflexivity|]. cbn [cf_seeds].
           rewrite <- (delete_len (cf_seeds c) (cf_seed c)). apply nth_last.
    + (* another thread waits *)
      rewrite (Others _ _ T) by congruence. cbn [andb].
      replace (forallb outside (cf_threads c)) with false; [eexists; split; [reflexivity|exact S]|].
      symmetry. apply not_true_is_false. intros B. rewrite forallb_forall in B. rewrite (B _ (nth_error_In _ _ K)) in Ok_. discriminate.
Qed.
Lemma serial_run md : md_seed md = None -> forall sch c, serial md c -> exists c', run_locked md c sch = Ok c' /\ serial md c'.
Proof.
  intros N. induction sch as [|i sch IH]; intros c S; unfold MediatorModel.run_locked; cbn [foldM]; [eauto|].
  destruct (serial_step md c i N S) as (c1 & -> & S'). cbn [bind]. apply (IH c1 S').
Qed.
(** A locked run is a run. *)
Lemma locked_inv (P : config -> Prop) md : (forall c i c', P c -> step md c i = Ok c' -> P c') ->
  forall sch c c', P c -> run_locked md c sch = Ok c' -> P c'.
Proof.
  intros S. induction sch as [|i sch IH]; intros c c' H R; unfold MediatorModel.run_locked in R; cbn [foldM] in R.
  - apply Ok_inj in R. subst. exact H.
  - destruct (step_locked md c i) as [c1| |] eqn:E; try discriminate. cbn [bind] in R. apply (IH c1); [|exact R].
    unfold MediatorModel.step_locked in E. destruct (nth_error (cf_threads c) i) as [t|]; [|apply Ok_inj in E; subst; exact H].
    destruct (outside t && _); [apply Ok_inj in E; subst; exact H|apply (S _ _ _ H E)].
Qed.

(** ** Everything is answered in the end *)
Definition weight (t : thread) : nat :=
  (5 * length (th_todo t) + match th_point t with Outside => 0 | Unset _ => 4 | Calling _ => 3 | Encrypting _ _ => 2 | Storing _ _ _ => 1 end)%nat.
Definition total (l : list thread) : nat := fold_right (fun t n => (weight t + n)%nat) 0%nat l.
Lemma total_put l i t t' : nth_error l i = Some t -> (weight t' < weight t)%nat -> (total (put l i t') < total l)%nat.
Proof.
  revert i. induction l as [|x l IH]; intros [|i] H W; cbn in H; try discriminate; cbn [put total fold_right].
  - injection H as ->. fold (total l). lia.
  - specialize (IH i H W). fold (total l). fold (total (put l i t')). lia.
Qed.
Lemma total_zero l : total l = 0%nat -> Forall (fun t => weight t = 0%nat) l.
Proof. induction l as [|t l IH]; cbn [total fold_right]; intros H; [constructor|]. constructor; [lia|]. apply IH. unfold total. lia. Qed.
Lemma step_total md c i t : nth_error (cf_threads c) i = Some t -> weight t <> 0%nat -> forall c', step md c i = Ok c' ->
  (total (cf_threads c') < total (cf_threads c))%nat.
Proof.
  intros T W c' H. unfold MediatorModel.step in H. rewrite T in H. unfold weight in W.
  assert (G : forall p l, (weight {| th_point := p; th_todo := l |} < weight t)%nat -> (total (goto c i p l) < total (cf_threads c))%nat).
  { intros p l L. apply (total_put _ _ _ _ T L). }
  destruct (th_point t) as [|r|r|r p|r x code] eqn:P.
  - destruct (th_todo t) as [|r l] eqn:D; [cbn in W; lia|]. apply Ok_inj in H. subst c'. cbn [cf_threads].
    apply G. unfold weight. rewrite P, D. cbn [th_todo th_point length]. destruct (cf_seed c); lia.
  - apply Ok_inj in H. subst c'. apply G. unfold weight. rewrite P. cbn [th_todo th_point]. lia.
  - destruct (cf_seed c); [|discriminate]. apply Ok_inj in H. subst c'. apply G. unfold weight. rewrite P. cbn [th_todo th_point]. lia.
  - destruct (nth_error (cf_seeds c) p) as [[s|]|]; try discriminate. cbn zeta in H.
    destruct (code_of _); apply Ok_inj in H; subst c'; apply G; unfold weight; rewrite P; cbn [th_todo th_point]; lia.
  - apply Ok_inj in H. subst c'. apply G. unfold weight. rewrite P. cbn [th_todo th_point]. lia.
Qed.
Lemma finish md : md_seed md = None -> forall n c, (total (cf_threads c) <= n)%nat -> serial md c ->
  exists sch c', run_locked md c sch = Ok c' /\ Forall (fun t => weight t = 0%nat) (cf_threads c').
Proof.
  intros N. induction n as [|n IH]; intros c L S.
  - exists [], c. split; [reflexivity|]. apply total_zero. lia.
  - destruct (Nat.eq_dec (total (cf_threads c)) 0) as [Z0|Z0].
    { exists [], c. split; [reflexivity|]. apply total_zero, Z0. }
    (* a thread that moves *)
    assert (M : exists i t, nth_error (cf_threads c) i = Some t /\ weight t <> 0%nat /\
                (outside t && negb (forallb outside (cf_threads c)) = false)).
    { pose proof S as (_ & [[F _]|(k & tk & K & O & _)]).
      - assert (E : exists t, In t (cf_threads c) /\ weight t <> 0%nat).
        { clear - Z0. induction (cf_threads c) as [|t l IH]; cbn [total fold_right] in Z0; [lia|].
          destruct (Nat.eq_dec (weight t) 0) as [W|W]; [|exists t; split; [left; reflexivity|exact W]].
          destruct IH as (t' & I & W'); [unfold total; lia|]. exists t'. split; [right; exact I|exact W']. }
        destruct E as (t & I & W). apply In_nth_error in I. destruct I as [i I]. exists i, t. split; [exact I|]. split; [exact W|].
        rewrite (proj1 (forall_outside _) F). apply andb_false_r.
      - exists k, tk. split; [exact K|]. split; [|rewrite O; reflexivity].
        unfold outside in O. unfold weight. destruct (th_point tk); [discriminate| | | |]; lia. }
    destruct M as (i & t & T & W & B). destruct (serial_step md c i N S) as (c1 & E & S1).
    assert (E' : step md c i = Ok c1) by (unfold MediatorModel.step_locked in E; rewrite T, B in E; exact E).
    pose proof (step_total md c i t T W c1 E') as D.
    destruct (IH c1 ltac:(lia) S1) as (sch & c' & R & F). exists (i :: sch), c'. split; [|exact F].
    unfold MediatorModel.run_locked. cbn [foldM]. rewrite E. exact R.
Qed.
Lemma all_answered todo c : accounted todo c -> Forall (fun t => weight t = 0%nat) (cf_threads c) -> complete todo (cf_log c).
Proof.
  intros (A1 & A2 & A3) F. split; [exact A2|]. intros i l H.
  destruct (nth_error (cf_threads c) i) as [t|] eqn:T.
  - rewrite (A3 _ _ T) in H. injection H as <-. rewrite Forall_forall in F. specialize (F t (nth_error_In _ _ T)).
    unfold weight in F. destruct (th_todo t); [|cbn [length] in F; lia]. destruct (th_point t); try lia. cbn [pending app]. apply app_nil_r.
  - apply nth_error_None in T. rewrite A1 in T. apply nth_error_None in T. congruence.
Qed.

(** ** Calls that do not overlap *)
Definition apart (c : config) : Prop :=
  forall i j t t', nth_error (cf_threads c) i = Some t -> nth_error (cf_threads c) j = Some t' ->
    outside t = false -> outside t' = false -> i = j.
Lemma apart_step md c i c' : apart c' -> step md c i = Ok c' -> step_locked md c i = Ok c'.
Proof.
  intros A H. unfold MediatorModel.step_locked. destruct (nth_error (cf_threads c) i) as [t|] eqn:T.
  2:{ unfold MediatorModel.step in H. rewrite T in H. exact H. }
  destruct (outside t && negb (forallb outside (cf_threads c))) eqn:B; [|exact H].
  apply andb_true_iff in B. destruct B as [B1 B2]. unfold MediatorModel.step in H. rewrite T in H.
  unfold outside in B1. destruct (th_point t) eqn:PT; try discriminate B1. destruct (th_todo t) as [|r l]; [exact H|].
  exfalso. apply Ok_inj in H. subst c'.
  assert (E : exists k tk, nth_error (cf_threads c) k = Some tk /\ outside tk = false).
  { apply negb_true_iff in B2. clear - B2. induction (cf_threads c) as [|x l IH]; cbn [forallb] in B2; [discriminate|].
    destruct (outside x) eqn:O; [|exists 0%nat, x; auto]. destruct (IH B2) as (k & tk & K1 & K2). exists (S k), tk. auto. }
  destruct E as (k & tk & K & O). destruct (Nat.eq_dec i k) as [->|NE].
  - rewrite K in T. injection T as ->. unfold outside in O. rewrite PT in O. discriminate O.
  - apply NE. eapply (A i k); cbn [cf_threads]; unfold goto.
    + apply (put_same _ _ _ _ T).
    + rewrite put_other by exact NE. exact K.
    + cbn. destruct (cf_seed c); reflexivity.
    + exact O.
Qed.
End Mediator.
