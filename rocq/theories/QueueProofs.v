(** The two-lock queue is a first-in first-out queue under every interleaving. *)
From Coq Require Import Permutation.
From Verif Require Import Base ThreadModel FifoSpec QueueModel.
Open Scope nat_scope.

Lemma nth_mid {A} (l r : list A) t i x : nth_error (l ++ t :: r) i = Some x ->
  (i = length l /\ x = t) \/ (i <> length l /\ forall u, nth_error (l ++ u :: r) i = Some x).
Proof.
  intros H. destruct (Nat.eq_dec i (length l)) as [->|N].
  - left. rewrite nth_error_app2, Nat.sub_diag in H by lia. cbn in H. split; congruence.
  - right. split; [exact N|]. intros u. destruct (Nat.lt_ge_cases i (length l)) as [L|L].
    + rewrite nth_error_app1 in * by lia. exact H.
    + rewrite nth_error_app2 in * by lia. destruct (i - length l) as [|k] eqn:E; [lia|]. exact H.
Qed.
Lemma nth_here {A} (l r : list A) t : nth_error (l ++ t :: r) (length l) = Some t.
Proof. rewrite nth_error_app2, Nat.sub_diag by lia. reflexivity. Qed.

Lemma NoDup_app_r {A} (l m : list A) : NoDup (l ++ m) -> NoDup m.
Proof. induction l as [|x l IH]; [trivial|]. intros N. inversion N; auto. Qed.

Section Queue.
Context {A : Type}.
Notation thread := (@qpc A * list (@qop A))%type.
Notation state := (@qstate A).

Ltac cases H :=
  match type of H with qstep _ _ ?t = Some _ => destruct t as [[] ops]; cbn in H end;
  repeat match type of H with
  | match ?x with _ => _ end = Some _ => destruct x eqn:?; try discriminate H; cbn in H
  end;
  try discriminate H; apply (f_equal (fun o => match o with Some x => x | None => (qstate0, (QIdle, [])) end)) in H;
  cbv beta iota in H; injection H as <- <-.

Definition head_cs (p : @qpc A) : bool :=
  match p with
  | Take1 _ | Take2 _ | Take3 _ _ | Take4 _ _ | Take5 | Take6 _ | Take7 _ | Take8 _ _ | Take9 _ _ | Take10 _ | Take11 _ _
  | Miss0 | Empty1 | Empty2 | Empty3 _ | Empty4 _ | Empty5 => true
  | _ => false
  end.
Definition tail_cs (p : @qpc A) : bool :=
  match p with
  | Push2 _ _ | Push3 _ _ | Push4 _ _ | Push5 | Take2 _ | Take3 _ _ | Take7 _ | Take8 _ _ | Empty2 | Empty3 _ => true
  | _ => false
  end.
Definition mutex (cs : @qpc A -> bool) (lock : state -> option nat) (w : @sys state thread) : Prop :=
  forall i t, nth_error (threads w) i = Some t -> (cs (fst t) = true <-> lock (shared w) = Some i).
Definition lock_change (cs : @qpc A -> bool) (lock : state -> option nat) me s (t : thread) s' (t' : thread) : Prop :=
  (lock s' = lock s /\ cs (fst t') = cs (fst t)) \/
  (lock s = None /\ lock s' = Some me /\ cs (fst t) = false /\ cs (fst t') = true) \/
  (lock s' = None /\ cs (fst t) = true /\ cs (fst t') = false).
Lemma head_step me s t s' t' : qstep me s t = Some (s', t') -> lock_change head_cs q_hlock me s t s' t'.
Proof.
  intros H. unfold lock_change. cases H; cbn; auto 10;
  repeat match goal with |- context [if ?b then _ else _] => destruct b end; cbn; auto 10.
Qed.
Lemma tail_step me s t s' t' : qstep me s t = Some (s', t') -> lock_change tail_cs q_tlock me s t s' t'.
Proof.
  intros H. unfold lock_change. cases H; cbn; auto 10;
  repeat match goal with |- context [if ?b then _ else _] => destruct b end; cbn; auto 10.
Qed.
Lemma mutex_step cs lock l t r s s' t' :
  mutex cs lock (Sys s (l ++ t :: r)) -> lock_change cs lock (length l) s t s' t' ->
  mutex cs lock (Sys s' (l ++ t' :: r)).
Proof.
  intros M H i u N. cbn in N.
  pose proof (M (length l) t (nth_here l r t)) as ME. cbn in ME.
  destruct (nth_mid _ _ _ _ _ N) as [(-> & ->)|(NE & Q)]; cbn [shared] in *.
  - destruct H as [(E1 & E2)|[(E1 & E2 & E3 & E4)|(E1 & E2 & E3)]].
    + rewrite E1, E2. exact ME.
    + rewrite E2, E4. tauto.
    + rewrite E1, E3. split; discriminate.
  - pose proof (M i u (Q t)) as MO. cbn in MO.
    destruct H as [(E1 & E2)|[(E1 & E2 & E3 & E4)|(E1 & E2 & E3)]].
    + rewrite E1. exact MO.
    + rewrite E2. rewrite E1 in MO. split; intros X; [apply MO in X; discriminate|congruence].
    + rewrite E1. apply ME in E2. rewrite E2 in MO. split; [|discriminate].
      intros X. apply MO in X. congruence.
Qed.
Lemma mutex_other cs lock l t r s i u :
  mutex cs lock (Sys s (l ++ t :: r)) -> i <> length l -> nth_error (l ++ t :: r) i = Some u ->
  cs (fst t) = true -> cs (fst u) = false.
Proof.
  intros M N NI C. destruct (cs (fst u)) eqn:E; [|reflexivity].
  apply (M i u NI) in E. apply (M (length l) t (nth_here l r t)) in C. cbn in *. congruence.
Qed.

(** The items between head and tail, and the nodes that hold them. *)
Inductive chain (h : nat -> @node A) (t : nat) : nat -> list A -> list nat -> Prop :=
| chain_nil : chain h t t [] []
| chain_cons n m v l ns : h n = Nd (Some v) (Some m) -> chain h t m l ns -> chain h t n (v :: l) (n :: ns).
Lemma chain_frame h h' t n l ns : chain h t n l ns -> (forall m, In m ns -> h' m = h m) -> chain h' t n l ns.
Proof.
  induction 1 as [|n m v l ns E C IH]; intros F; [constructor|]. econstructor; [rewrite F by (left; reflexivity); exact E|].
  apply IH. intros x X. apply F. right. exact X.
Qed.
Lemma chain_push h t m n v l ns : chain h t m l ns -> ~ In n ns -> h t = Nd (Some v) (Some n) -> chain h n m (l ++ [v]) (ns ++ [t]).
Proof.
  induction 1 as [|a b x l ns E C IH]; intros NI HT; cbn.
  - econstructor; [exact HT|constructor].
  - econstructor; [exact E|]. apply IH; [|exact HT]. intros X. apply NI. right. exact X.
Qed.
Lemma chain_head h t n l ns : chain h t n l ns -> NoDup (ns ++ [t]) -> (n = t <-> l = []).
Proof.
  intros C N. destruct C as [|n m v l ns E C]; [tauto|]. split; [|discriminate]. intros ->.
  inversion N as [|? ? X Y]; subst. destruct X. apply in_or_app. right. left. reflexivity.
Qed.

Definition owned (t : thread) : list nat :=
  match fst t with
  | Push1 _ n | Push2 _ n | Push3 _ n | Push4 _ n => [n]
  | Take11 _ n | Take12 _ n => [n]
  | _ => []
  end.
Definition first_is (v : option A) (l : list A) : Prop :=
  match v with Some x => exists q, l = x :: q | None => exists x q, l = x :: q end.
Definition local (s : state) (l : list A) (t : thread) : Prop :=
  match fst t with
  | Push1 v n | Push2 v n => q_heap s n = new_node
  | Push3 v n => q_heap s n = new_node /\ q_heap s (q_tail s) = Nd (Some v) None
  | Push4 v n => q_heap s n = new_node /\ q_heap s (q_tail s) = Nd (Some v) (Some n)
  | Take3 b t | Take4 b t => t = q_head s \/ (t <> q_head s /\ first_is None l)
  | Take5 => first_is None l
  | Take6 v | Take7 v | Take10 v => first_is v l
  | Take8 v t | Take9 v t => first_is v l /\ t <> q_head s
  | Take11 v n | Take12 v n => exists d, q_heap s n = Nd (Some d) None /\ (v = None \/ v = Some d)
  | _ => True
  end.
Lemma first_app v l k : first_is v l -> first_is v (l ++ k).
Proof. destruct v; cbn; [intros (q & ->)|intros (x & q & ->)]; cbn; eauto. Qed.
Lemma local_frame s l s' l' u :
  local s l u -> (forall n, In n (owned u) -> q_heap s' n = q_heap s n) ->
  (tail_cs (fst u) = true -> q_tail s' = q_tail s /\ q_heap s' (q_tail s) = q_heap s (q_tail s)) ->
  (head_cs (fst u) = true -> q_head s' = q_head s /\ exists k, l' = l ++ k) ->
  local s' l' u.
Proof.
  unfold local, owned. intros L O T H. destruct (fst u); try exact I; cbn [tail_cs head_cs] in *;
  try (rewrite O by (left; reflexivity)); try exact L;
  try (destruct (T eq_refl) as (E2 & E3); rewrite ?E2, ?E3; try exact L);
  try (destruct (H eq_refl) as (E1 & k & ->); rewrite ?E1); try exact L; try (apply first_app; exact L).
  - destruct L as [L|(L1 & L2)]; [left; exact L|right; split; [exact L1|]]. apply (first_app None l k L2).
  - destruct L as [L|(L1 & L2)]; [left; exact L|right; split; [exact L1|]]. apply (first_app None l k L2).
  - destruct L as (L1 & L2). split; [apply first_app; exact L1|exact L2].
  - destruct L as (L1 & L2). split; [apply first_app; exact L1|exact L2].
Qed.

Definition inv (w : @sys state thread) : Prop :=
  let s := shared w in
  mutex head_cs q_hlock w /\ mutex tail_cs q_tlock w /\
  exists l ns,
    chain (q_heap s) (q_tail s) (q_head s) l ns /\
    fifo (map snd (q_hist s)) l /\
    NoDup (flat_map owned (threads w) ++ ns ++ [q_tail s]) /\
    Forall (fun n => n < q_fresh s) (flat_map owned (threads w) ++ ns ++ [q_tail s]) /\
    (forall i t, nth_error (threads w) i = Some t -> local s l t) /\
    ((forall i t, nth_error (threads w) i = Some t -> match fst t with Push3 _ _ | Push4 _ _ => False | _ => True end) ->
     q_heap s (q_tail s) = new_node).
Lemma inv_begin progs : inv (qbegin progs).
Proof.
  unfold inv, qbegin. cbn [shared threads qstate0 q_hlock q_tlock q_hist q_heap q_head q_tail q_fresh].
  assert (O : forall t, In t (map (pair (@QIdle A)) progs) -> fst t = QIdle).
  { intros t X. apply in_map_iff in X as (p & <- & _). reflexivity. }
  assert (F : flat_map owned (map (pair (@QIdle A)) progs) = []).
  { clear O. induction progs as [|p progs IH]; [reflexivity|exact IH]. }
  split; [|split].
  1,2: intros i t X; apply nth_error_In, O in X; rewrite X; cbn; split; discriminate.
  exists [], []. rewrite F. cbn. split; [constructor|]. split; [constructor|].
  split; [apply NoDup_cons; [intros []|apply NoDup_nil]|]. split; [repeat constructor|].
  split; [|intros; reflexivity]. intros i t X. apply nth_error_In, O in X. unfold local. rewrite X. exact I.
Qed.
Ltac perm :=
  apply (Permutation_count_occ Nat.eq_dec); intros ?x; cbn [app]; rewrite ?app_nil_r, ?count_occ_app; cbn [count_occ];
  rewrite ?count_occ_app; cbn [count_occ]; repeat destruct Nat.eq_dec; lia.
Lemma split_two l t r i u : i <> length l -> nth_error (l ++ t :: r) i = Some u ->
  exists o, Permutation (flat_map owned (l ++ t :: r)) (owned u ++ owned t ++ o).
Proof.
  intros NE Q. destruct (Nat.lt_ge_cases i (length l)) as [LT|GE].
  - rewrite nth_error_app1 in Q by exact LT. apply nth_error_split in Q as (a & b & -> & _).
    exists (flat_map owned a ++ flat_map owned b ++ flat_map owned r).
    rewrite !flat_map_app. cbn [flat_map]. perm.
  - rewrite nth_error_app2 in Q by exact GE. destruct (i - length l) as [|k] eqn:E; [lia|]. cbn in Q.
    apply nth_error_split in Q as (a & b & -> & _).
    exists (flat_map owned l ++ flat_map owned a ++ flat_map owned b).
    rewrite flat_map_app. cbn [flat_map]. rewrite flat_map_app. cbn [flat_map]. perm.
Qed.
(** A step of one thread, seen from the invariant: it is enough to look at its own
    nodes, its own facts and what it does to the others. *)
Lemma inv_change l t r s s' t' q ns q' ns' :
  inv (Sys s (l ++ t :: r)) -> qstep (length l) s t = Some (s', t') ->
  chain (q_heap s) (q_tail s) (q_head s) q ns ->
  NoDup (flat_map owned (l ++ t :: r) ++ ns ++ [q_tail s]) ->
  (forall i u, i <> length l -> nth_error (l ++ t :: r) i = Some u -> local s q u) ->
  (* the changed parts *)
  chain (q_heap s') (q_tail s') (q_head s') q' ns' ->
  fifo (map snd (q_hist s')) q' ->
  NoDup (flat_map owned (l ++ t' :: r) ++ ns' ++ [q_tail s']) ->
  Forall (fun n => n < q_fresh s') (flat_map owned (l ++ t' :: r) ++ ns' ++ [q_tail s']) ->
  local s' q' t' ->
  (forall n, ~ In n (owned t) -> ~ (In n ns) -> n <> q_tail s -> n < q_fresh s -> q_heap s' n = q_heap s n) ->
  (q_tail s' = q_tail s /\ q_heap s' (q_tail s) = q_heap s (q_tail s) \/ tail_cs (fst t) = true) ->
  (q_head s' = q_head s /\ (exists k, q' = q ++ k) \/ head_cs (fst t) = true) ->
  ((forall i u, nth_error (l ++ t' :: r) i = Some u -> match fst u with Push3 _ _ | Push4 _ _ => False | _ => True end) ->
     q_heap s' (q_tail s') = new_node) ->
  Forall (fun n => n < q_fresh s) (flat_map owned (l ++ t :: r) ++ ns ++ [q_tail s]) ->
  inv (Sys s' (l ++ t' :: r)).
Proof.
  intros (MH & MT & _) H C0 N0 L0 C F N B L HP TL HD TN B0.
  split; [|split].
  - eapply mutex_step; [exact MH|]. apply head_step, H.
  - eapply mutex_step; [exact MT|]. apply tail_step, H.
  - exists q', ns'. cbn [shared threads]. split; [exact C|]. split; [exact F|]. split; [exact N|]. split; [exact B|]. split; [|exact TN].
    intros i u U. destruct (nth_mid _ _ _ _ _ U) as [(-> & ->)|(NE & Q)]; [exact L|].
    specialize (Q t). apply (local_frame s q s' q' u (L0 i u NE Q)).
    + intros n X. destruct (split_two l t r i u NE Q) as (o & P).
      rewrite P in N0, B0. rewrite <- !app_assoc in N0, B0.
      apply in_split in X as (a & b & X). rewrite X in N0, B0. rewrite <- app_assoc in N0, B0. cbn [app] in N0, B0.
      apply NoDup_remove_2 in N0. rewrite Forall_app in B0. destruct B0 as (_ & B0). inversion B0 as [|? ? B1 _]; subst.
      apply HP; [| | |exact B1]; intros Y; apply N0; apply in_or_app; right; apply in_or_app; right.
      * apply in_or_app. left. exact Y.
      * apply in_or_app. right. apply in_or_app. right. apply in_or_app. left. exact Y.
      * apply in_or_app. right. apply in_or_app. right. apply in_or_app. right. left. symmetry. exact Y.
    + intros TU. destruct TL as [TL|TL]; [exact TL|].
      rewrite (mutex_other _ _ _ _ _ _ _ _ MT NE Q TL) in TU. discriminate.
    + intros TU. destruct HD as [TL'|TL']; [exact TL'|].
      rewrite (mutex_other _ _ _ _ _ _ _ _ MH NE Q TL') in TU. discriminate.
Qed.
Ltac nodes := intros; apply in_or_app; cbn; auto.
Lemma free_case l r s ops v old e q ns :
  inv (Sys s (l ++ (Take12 v old, ops) :: r)) ->
  qstep (length l) s (Take12 v old, ops) = Some (returns (set_node s old (Nd None None)) e, (QIdle, ops)) ->
  chain (q_heap s) (q_tail s) (q_head s) q ns -> fifo (map snd (q_hist s)) q ->
  NoDup (flat_map owned (l ++ (Take12 v old, ops) :: r) ++ ns ++ [q_tail s]) ->
  Forall (fun n => n < q_fresh s) (flat_map owned (l ++ (Take12 v old, ops) :: r) ++ ns ++ [q_tail s]) ->
  (forall i u, i <> length l -> nth_error (l ++ (Take12 v old, ops) :: r) i = Some u -> local s q u) ->
  (forall x, (match fst (Take12 v old, ops) with Push3 _ _ | Push4 _ _ => False | _ => True end -> 
      (forall i u, nth_error (l ++ x :: r) i = Some u -> match fst u with Push3 _ _ | Push4 _ _ => False | _ => True end) ->
      q_heap s (q_tail s) = new_node)) ->
  inv (Sys (returns (set_node s old (Nd None None)) e) (l ++ (QIdle, ops) :: r)).
Proof.
  intros I H C F N B LO TS.
  assert (EO : Permutation (flat_map owned (l ++ (Take12 v old, ops) :: r) ++ ns ++ [q_tail s])
       (old :: flat_map owned (l ++ (QIdle, ops) :: r) ++ ns ++ [q_tail s])).
  { rewrite !flat_map_app. cbn [flat_map owned fst]. perm. }
  pose proof N as N'. rewrite EO in N'. inversion N' as [|? ? N1 N2]; subst.
  pose proof B as B'. rewrite EO in B'. inversion B' as [|? ? B1 B2]; subst.
  assert (O1 : ~ In old ns) by (intros X; apply N1; apply in_or_app; right; apply in_or_app; left; exact X).
  assert (O2 : q_tail s <> old) by (intros X; apply N1; apply in_or_app; right; apply in_or_app; right; left; exact X).
  apply (inv_change _ _ _ _ _ _ q ns q ns I H C N LO); cbn [returns set_node q_heap q_tail q_head q_fresh q_hist]; auto.
  - apply (chain_frame _ _ _ _ _ _ C). intros m M. destruct (Nat.eqb_spec m old) as [->|]; [contradiction|reflexivity].
  - exact Logic.I.
  - intros m NM _ _ _. destruct (Nat.eqb_spec m old) as [->|]; [destruct NM; left; reflexivity|reflexivity].
  - left. split; [reflexivity|]. destruct (Nat.eqb_spec (q_tail s) old); [contradiction|reflexivity].
  - left. split; [reflexivity|]. exists []. now rewrite app_nil_r.
  - intros X. destruct (Nat.eqb_spec (q_tail s) old); [contradiction|]. eapply TS; [exact Logic.I|exact X].
Qed.
Lemma inv_step l t r s s' t' :
  inv (Sys s (l ++ t :: r)) -> qstep (length l) s t = Some (s', t') -> inv (Sys s' (l ++ t' :: r)).
Proof.
  intros I H. pose proof I as (MH & MT & q & ns & C & F & N & B & L & T). cbn [shared threads] in *.
  pose proof (L _ t (nth_here l r t)) as LT.
  assert (LO : forall i u, i <> length l -> nth_error (l ++ t :: r) i = Some u -> local s q u) by (intros; eapply L; eassumption).
  assert (NS : NoDup (ns ++ [q_tail s])) by (clear - N; exact (NoDup_app_r _ _ N)).
  assert (NT : ~ In (q_tail s) ns).
  { intros X. apply NoDup_remove_2 in NS. rewrite app_nil_r in NS. contradiction. }
  assert (QH : q_head s = q_tail s <-> q = []) by (eapply chain_head; eassumption).
  assert (TS : forall x, (match fst t with Push3 _ _ | Push4 _ _ => False | _ => True end -> 
      (forall i u, nth_error (l ++ x :: r) i = Some u -> match fst u with Push3 _ _ | Push4 _ _ => False | _ => True end) ->
      q_heap s (q_tail s) = new_node)).
  { intros x HT HA. apply T. intros i u U. destruct (nth_mid _ _ _ _ _ U) as [(-> & ->)|(NE & Q)]; [exact HT|]. exact (HA i u (Q x)). }
  (* a step that leaves list, heap, ends and ownership alone *)
  assert (SAME : q_heap s' = q_heap s -> q_tail s' = q_tail s -> q_head s' = q_head s -> q_fresh s' = q_fresh s ->
    owned t' = owned t -> fifo (map snd (q_hist s')) q -> local s' q t' ->
    match fst t with Push3 _ _ | Push4 _ _ => False | _ => True end -> inv (Sys s' (l ++ t' :: r))).
  { intros E1 E2 E3 E4 E5 F' L' P'.
    assert (EO : flat_map owned (l ++ t' :: r) = flat_map owned (l ++ t :: r)).
    { rewrite !flat_map_app. cbn [flat_map]. rewrite E5. reflexivity. }
    apply (inv_change l t r s s' t' q ns q ns I H C N LO); rewrite ?EO, ?E1, ?E2, ?E3, ?E4; auto.
    - left. split; [reflexivity|]. exists []. now rewrite app_nil_r.
    - apply TS. exact P'. }
  assert (TM : tail_cs (fst t) = true -> match fst t with Push3 _ _ | Push4 _ _ => False | _ => True end -> q_heap s (q_tail s) = new_node).
  { intros TC HT. apply T. intros i u U. destruct (Nat.eq_dec i (length l)) as [->|NE].
    - rewrite nth_here in U. injection U as <-. exact HT.
    - pose proof (mutex_other _ _ _ _ _ _ _ _ MT NE U TC) as X. destruct (fst u); try exact Logic.I; discriminate X. }
  unfold local in LT. pose proof H as H0.
  assert (HC : forall n d, ~ In n ns -> chain (fun m => if m =? n then d else q_heap s m) (q_tail s) (q_head s) q ns).
  { intros n d X. apply (chain_frame _ _ _ _ _ _ C). intros m M. destruct (Nat.eqb_spec m n) as [->|]; [contradiction|reflexivity]. }
  assert (FT : q_tail s < q_fresh s).
  { clear - B. rewrite !Forall_app in B. destruct B as (_ & _ & B). inversion B. assumption. }
  cases H; cbn [fst] in LT; try (apply SAME; try reflexivity; try exact F; try exact LT; try exact Logic.I; fail).
  - (* Push0 *)
    assert (EO : Permutation (flat_map owned (l ++ (Push1 v (q_fresh s), ops) :: r) ++ ns ++ [q_tail s])
       (q_fresh s :: flat_map owned (l ++ (Push0 v, ops) :: r) ++ ns ++ [q_tail s])).
    { rewrite !flat_map_app. cbn [flat_map owned fst]. perm. }
    apply (inv_change _ _ _ _ _ _ q ns q ns I H0 C N LO); cbn [alloc q_heap q_tail q_head q_fresh q_hist].
    + apply HC. intros X. rewrite !Forall_app in B. destruct B as (_ & B & _). rewrite Forall_forall in B. specialize (B _ X). lia.
    + exact F.
    + rewrite EO. constructor; [|exact N]. intros X. rewrite Forall_forall in B. specialize (B _ X). cbn in B. lia.
    + rewrite EO. constructor; [lia|]. eapply Forall_impl; [|exact B]. cbn. lia.
    + unfold local. cbn [fst alloc q_heap]. rewrite Nat.eqb_refl. reflexivity.
    + intros n _ _ _ LN. destruct (Nat.eqb_spec n (q_fresh s)); [lia|reflexivity].
    + left. split; [reflexivity|]. destruct (Nat.eqb_spec (q_tail s) (q_fresh s)); [lia|reflexivity].
    + left. split; [reflexivity|]. exists []. now rewrite app_nil_r.
    + intros X. destruct (Nat.eqb_spec (q_tail s) (q_fresh s)); [lia|]. eapply TS; [exact Logic.I|exact X].
    + exact B.
  - (* Push2 *)
    assert (EO : flat_map owned (l ++ (Push3 v n, ops) :: r) = flat_map owned (l ++ (Push2 v n, ops) :: r)).
    { rewrite !flat_map_app. reflexivity. }
    assert (NN : n <> q_tail s).
    { intros ->. clear - N. rewrite flat_map_app in N. cbn [flat_map owned fst] in N. rewrite <- app_assoc in N.
      apply NoDup_app_r in N. cbn [app] in N. inversion N as [|? ? X Y]; subst. apply X.
      apply in_or_app. right. apply in_or_app. right. left. reflexivity. }
    apply (inv_change _ _ _ _ _ _ q ns q ns I H0 C N LO); rewrite ?EO; cbn [set_node q_heap q_tail q_head q_fresh q_hist]; auto.
    + unfold local. cbn [fst set_node q_heap q_tail]. destruct (Nat.eqb_spec n (q_tail s)); [contradiction|].
      split; [exact LT|]. rewrite Nat.eqb_refl. rewrite TM by (exact Logic.I || reflexivity). reflexivity.
    + intros m _ _ NM _. destruct (Nat.eqb_spec m (q_tail s)); [contradiction|reflexivity].
    + left. split; [reflexivity|]. exists []. now rewrite app_nil_r.
    + intros X. exfalso. exact (X _ _ (nth_here l r _)).
  - (* Push3 *)
    assert (EO : flat_map owned (l ++ (Push4 v n, ops) :: r) = flat_map owned (l ++ (Push3 v n, ops) :: r)).
    { rewrite !flat_map_app. reflexivity. }
    assert (NN : n <> q_tail s).
    { intros ->. clear - N. rewrite flat_map_app in N. cbn [flat_map owned fst] in N. rewrite <- app_assoc in N.
      apply NoDup_app_r in N. cbn [app] in N. inversion N as [|? ? X Y]; subst. apply X.
      apply in_or_app. right. apply in_or_app. right. left. reflexivity. }
    destruct LT as (LT1 & LT2).
    apply (inv_change _ _ _ _ _ _ q ns q ns I H0 C N LO); rewrite ?EO; cbn [set_node q_heap q_tail q_head q_fresh q_hist]; auto.
    + unfold local. cbn [fst set_node q_heap q_tail]. destruct (Nat.eqb_spec n (q_tail s)); [contradiction|].
      split; [exact LT1|]. rewrite Nat.eqb_refl, LT2. reflexivity.
    + intros m _ _ NM _. destruct (Nat.eqb_spec m (q_tail s)); [contradiction|reflexivity].
    + left. split; [reflexivity|]. exists []. now rewrite app_nil_r.
    + intros X. exfalso. exact (X _ _ (nth_here l r _)).
  - (* Push4 *)
    destruct LT as (LT1 & LT2).
    assert (EO : Permutation (flat_map owned (l ++ (Push5, ops) :: r) ++ (ns ++ [q_tail s]) ++ [n])
       (flat_map owned (l ++ (Push4 v n, ops) :: r) ++ ns ++ [q_tail s])).
    { rewrite !flat_map_app. cbn [flat_map owned fst]. perm. }
    assert (NI : ~ In n ns).
    { intros Y. clear - N Y. rewrite flat_map_app in N. cbn [flat_map owned fst] in N. rewrite <- app_assoc in N.
      apply NoDup_app_r in N. cbn [app] in N. inversion N as [|? ? X Z]; subst. apply X.
      apply in_or_app. right. apply in_or_app. left. exact Y. }
    apply (inv_change _ _ _ _ _ _ q ns (q ++ [v]) (ns ++ [q_tail s]) I H0 C N LO); rewrite ?EO; cbn [set_tail q_heap q_tail q_head q_fresh q_hist]; auto.
    + eapply chain_push; eassumption.
    + rewrite map_app. cbn. constructor. exact F.
    + exact Logic.I.
    + left. split; [reflexivity|]. exists [v]. reflexivity.
  - (* Take2 *)
    destruct (Nat.eqb_spec (q_tail s) (q_head s)) as [E|E].
    + apply SAME; try reflexivity; try exact Logic.I.
      * cbn. rewrite map_app. cbn. assert (q = []) by (apply QH; congruence). subst q. constructor. exact F.
      * left. exact E.
    + apply SAME; try reflexivity; try exact Logic.I; try exact F. right. split; [exact E|].
      destruct q as [|x q]; [destruct E; symmetry; apply QH; reflexivity|]. exists x, q. reflexivity.
  - (* Take4 *)
    apply SAME; try reflexivity; try exact Logic.I; try exact F.
    + cbn. destruct (q_head s =? t); [reflexivity|]. destruct b; reflexivity.
    + unfold local. cbn [fst]. destruct (Nat.eqb_spec (q_head s) t) as [E|E]; [exact Logic.I|].
      destruct LT as [LT|(_ & LT)]; [congruence|]. destruct b; exact LT.
  - (* Take5 *)
    apply SAME; try reflexivity; try exact Logic.I; try exact F. destruct LT as (x & q1 & ->).
    inversion C as [|? ? ? ? ? E C']; subst. rewrite E in Heqo. cbn in Heqo. injection Heqo as <-.
    exists q1. reflexivity.
  - (* Take7 *)
    apply SAME; try reflexivity; try exact Logic.I; try exact F. split; [exact LT|]. intros E.
    assert (q = []) by (apply QH; congruence). subst q. destruct v; [destruct LT as (? & X)|destruct LT as (? & ? & X)]; discriminate X.
  - (* Take9 *)
    destruct LT as (LT1 & LT2).
    apply SAME; try reflexivity; try exact Logic.I; try exact F.
    + cbn. destruct (q_head s =? t); reflexivity.
    + unfold local. cbn [fst]. destruct (Nat.eqb_spec (q_head s) t) as [E|E]; [congruence|exact LT1].
  - (* Take10 *)
    assert (X : exists q1 ns1, q = a :: q1 /\ ns = q_head s :: ns1 /\ chain (q_heap s) (q_tail s) n q1 ns1 /\ (v = None \/ v = Some a)).
    { destruct C as [|h m x q1 ns1 E C'].
      - destruct v; [destruct LT as (? & X)|destruct LT as (? & ? & X)]; discriminate X.
      - rewrite E in *. cbn in *. injection Heqo as <-. injection Heqo0 as <-.
        exists q1, ns1. repeat split; try assumption. destruct v; [right; destruct LT as (? & X); injection X as -> _; reflexivity|left; reflexivity]. }
    destruct X as (q1 & ns1 & -> & -> & C1 & HV).
    assert (EO : Permutation (flat_map owned (l ++ (Take11 v (q_head s), ops) :: r) ++ ns1 ++ [q_tail s])
       (flat_map owned (l ++ (Take10 v, ops) :: r) ++ (q_head s :: ns1) ++ [q_tail s])).
    { rewrite !flat_map_app. cbn [flat_map owned fst]. perm. }
    assert (NH : q_head s <> q_tail s) by (intros E; apply NT; left; exact E).
    apply (inv_change _ _ _ _ _ _ (a :: q1) (q_head s :: ns1) q1 ns1 I H0 C N LO); rewrite ?EO; cbn [set_node set_head q_heap q_tail q_head q_fresh q_hist]; auto.
    + apply (chain_frame _ _ _ _ _ _ C1). intros m M. destruct (Nat.eqb_spec m (q_head s)) as [->|]; [|reflexivity].
      inversion NS as [|? ? X Y]; subst. destruct X. apply in_or_app. left. exact M.
    + rewrite map_app. cbn. apply fifo_got. exact F.
    + unfold local. cbn [fst set_node set_head q_heap]. exists a. rewrite Nat.eqb_refl. split; [reflexivity|exact HV].
    + intros m _ NM _ _. destruct (Nat.eqb_spec m (q_head s)) as [->|]; [destruct NM; left; reflexivity|reflexivity].
    + left. split; [reflexivity|]. destruct (Nat.eqb_spec (q_tail s) (q_head s)); [congruence|reflexivity].
    + intros X. destruct (Nat.eqb_spec (q_tail s) (q_head s)); [congruence|]. eapply TS; [exact Logic.I|exact X].
  - (* Take12, value returned by move *)
    eapply free_case; eassumption.
  - eapply free_case; eassumption.
  - (* Empty2 *)
    apply SAME; try reflexivity; try exact Logic.I. cbn. rewrite map_app. cbn.
    destruct (Nat.eqb_spec (q_tail s) (q_head s)) as [E|E].
    + assert (q = []) by (apply QH; congruence). subst q. constructor. exact F.
    + destruct q as [|x q]; [destruct E; symmetry; apply QH; reflexivity|]. constructor. exact F.
Qed.
Lemma inv_exec (progs : list (list (@qop A))) sched : inv (qexec progs sched).
Proof. apply (run_inv qstep inv); [apply inv_begin|]. intros. eapply inv_step; eassumption. Qed.

(** ** No data race and no access to a freed node *)
Lemma owned_out w i t n l ns :
  nth_error (threads w) i = Some t -> In n (owned t) ->
  chain (q_heap (shared w)) (q_tail (shared w)) (q_head (shared w)) l ns ->
  NoDup (flat_map owned (threads w) ++ ns ++ [q_tail (shared w)]) ->
  n <> q_tail (shared w) /\ n <> q_head (shared w).
Proof.
  intros Q X C N. apply nth_error_split in Q as (a & b & E & _). rewrite E in N.
  rewrite flat_map_app in N. cbn [flat_map] in N. rewrite <- app_assoc in N. apply NoDup_app_r in N.
  apply in_split in X as (c & d & X). rewrite X in N. rewrite <- !app_assoc in N. cbn [app] in N. apply NoDup_remove_2 in N.
  split; intros ->; apply N.
  - apply in_or_app. right. apply in_or_app. right. apply in_or_app. right. apply in_or_app. right. left. reflexivity.
  - destruct C as [|h m x q1 ns1 E1 C1].
    + apply in_or_app. right. apply in_or_app. right. apply in_or_app. right. left. reflexivity.
    + apply in_or_app. right. apply in_or_app. right. apply in_or_app. right. left. reflexivity.
Qed.
Lemma access_cs s t x b : In (x, b) (accesses s t) ->
  match x with
  | LHead => head_cs (fst t) = true
  | LTail => tail_cs (fst t) = true
  | LData n => (n = q_tail s /\ (exists v m, fst t = Push2 v m)) \/ (n = q_head s /\ fst t = Take5) \/ (exists v, fst t = Take12 v n)
  | LNext n => (n = q_tail s /\ (exists v m, fst t = Push3 v m)) \/ (n = q_head s /\ exists v, fst t = Take10 v) \/ (exists v, fst t = Take12 v n)
  end.
Proof.
  unfold accesses. destruct t as [p ops]. destruct p; cbn; intros H; try contradiction;
  repeat match goal with H : _ \/ _ |- _ => destruct H as [H|H] | H : False |- _ => contradiction end;
  injection H as <- <-; cbn; eauto 8.
Qed.
Lemma cs_conflict cs lock w i j t u :
  mutex cs lock w -> i <> j -> nth_error (threads w) i = Some t -> nth_error (threads w) j = Some u ->
  cs (fst t) = true -> cs (fst u) = true -> False.
Proof. intros M N A1 A2 B1 B2. apply (M i t A1) in B1. apply (M j u A2) in B2. congruence. Qed.
Lemma no_race (progs : list (list (@qop A))) sched : ~ qrace (qexec progs sched).
Proof.
  intros (i & j & t & u & x & b & c & N & NI & NJ & AI & AJ & _).
  destruct (inv_exec progs sched) as (MH & MT & q & ns & C & F & ND & B & L & T).
  set (w := qexec progs sched) in *.
  assert (NH : forall k y, nth_error (threads w) k = Some y -> (fst y = Take5 \/ exists v, fst y = Take10 v) -> q_head (shared w) <> q_tail (shared w)).
  { intros k y K Y E. apply (chain_head _ _ _ _ _ C) in E; [|exact (NoDup_app_r _ _ ND)]. subst q.
    specialize (L k y K). unfold local in L. destruct Y as [Y|(v & Y)]; rewrite Y in L.
    - destruct L as (? & ? & X). discriminate X.
    - destruct v; [destruct L as (? & X)|destruct L as (? & ? & X)]; discriminate X. }
  assert (OW : forall k y v n, nth_error (threads w) k = Some y -> fst y = Take12 v n -> n <> q_tail (shared w) /\ n <> q_head (shared w)).
  { intros k y v n K Y. apply (owned_out w k y n q ns K); try assumption. unfold owned. rewrite Y. left. reflexivity. }
  assert (OO : forall n v v', fst t = Take12 v n -> fst u = Take12 v' n -> False).
  { intros n v v' E1 E2. clear - ND N NI NJ E1 E2.
    apply nth_error_split in NI as (a & d & E & <-). rewrite E in ND, NJ.
    destruct (split_two a t d j u (not_eq_sym N) NJ) as (o & P). rewrite P in ND. unfold owned in ND at 1 2. rewrite E1, E2 in ND.
    cbn [app] in ND. inversion ND as [|? ? X _]. apply X. left. reflexivity. }
  apply access_cs in AI, AJ. destruct x as [| |n|n].
  - exact (cs_conflict _ _ _ _ _ _ _ MH N NI NJ AI AJ).
  - exact (cs_conflict _ _ _ _ _ _ _ MT N NI NJ AI AJ).
  - destruct AI as [(E1 & v & m & P1)|[(E1 & P1)|(v & P1)]]; destruct AJ as [(E2 & v' & m' & P2)|[(E2 & P2)|(v' & P2)]].
    + apply (cs_conflict _ _ _ _ _ _ _ MT N NI NJ); [rewrite P1|rewrite P2]; reflexivity.
    + apply (NH j u NJ (or_introl P2)). congruence.
    + apply (proj1 (OW j u _ _ NJ P2)). exact E1.
    + apply (NH i t NI (or_introl P1)). congruence.
    + apply (cs_conflict _ _ _ _ _ _ _ MH N NI NJ); [rewrite P1|rewrite P2]; reflexivity.
    + apply (proj2 (OW j u _ _ NJ P2)). exact E1.
    + apply (proj1 (OW i t _ _ NI P1)). exact E2.
    + apply (proj2 (OW i t _ _ NI P1)). exact E2.
    + exact (OO n v v' P1 P2).
  - destruct AI as [(E1 & v & m & P1)|[(E1 & v & P1)|(v & P1)]]; destruct AJ as [(E2 & v' & m' & P2)|[(E2 & v' & P2)|(v' & P2)]].
    + apply (cs_conflict _ _ _ _ _ _ _ MT N NI NJ); [rewrite P1|rewrite P2]; reflexivity.
    + apply (NH j u NJ (or_intror (ex_intro _ v' P2))). congruence.
    + apply (proj1 (OW j u _ _ NJ P2)). exact E1.
    + apply (NH i t NI (or_intror (ex_intro _ v P1))). congruence.
    + apply (cs_conflict _ _ _ _ _ _ _ MH N NI NJ); [rewrite P1|rewrite P2]; reflexivity.
    + apply (proj2 (OW j u _ _ NJ P2)). exact E1.
    + apply (proj1 (OW i t _ _ NI P1)). exact E2.
    + apply (proj2 (OW i t _ _ NI P1)). exact E2.
    + exact (OO n v v' P1 P2).
Qed.

(** ** What the calls return is what the history says *)
Definition of_thread {B} (i : nat) (h : list (nat * B)) : list B :=
  flat_map (fun e => if fst e =? i then [snd e] else []) h.
Definition answers (h : list (qev A)) : list (qev A) :=
  flat_map (fun e => match e with Put _ => [] | e => [e] end) h.
Definition ret_event (r : @qret A) : qev A :=
  match r with RNone => Missed | RItem v => Got v | REmpty true => Missed | REmpty false => Seen end.
Definition pending (s : state) (t : thread) : list (qev A) :=
  match fst t with
  | Take3 _ t | Take4 _ t => if q_head s =? t then [Missed] else []
  | Miss0 => [Missed]
  | Take11 _ n | Take12 _ n => match nd_data (q_heap s n) with Some d => [Got d] | None => [] end
  | Empty3 t | Empty4 t => [if q_head s =? t then Missed else Seen]
  | _ => []
  end.
Definition answered (w : @sys state thread) : Prop :=
  forall i t, nth_error (threads w) i = Some t ->
    answers (of_thread i (q_hist (shared w))) = map ret_event (of_thread i (q_rets (shared w))) ++ pending (shared w) t.
Lemma of_thread_app {B} i (h k : list (nat * B)) : of_thread i (h ++ k) = of_thread i h ++ of_thread i k.
Proof. apply flat_map_app. Qed.
Lemma answers_app h k : answers (h ++ k) = answers h ++ answers k.
Proof. apply flat_map_app. Qed.
(** What a step adds to history and results concerns the acting thread only. *)
Lemma log_step me (s : state) t s' t' : qstep me s t = Some (s', t') ->
  (exists e, q_hist s' = q_hist s ++ e /\ forall i, i <> me -> of_thread i e = []) /\
  (exists e, q_rets s' = q_rets s ++ e /\ forall i, i <> me -> of_thread i e = []).
Proof.
  intros H. assert (Z1 : forall {B} (x : B) i, i <> me -> of_thread i [(me, x)] = []).
  { intros B x i N. unfold of_thread. cbn. destruct (Nat.eqb_spec me i); [congruence|reflexivity]. }
  cases H; repeat match goal with |- context [if ?b then event _ _ else _] => destruct b end; cbn;
  (split; [solve [exists []; rewrite app_nil_r; split; auto|eexists; split; [reflexivity|apply Z1]]
          |solve [exists []; rewrite app_nil_r; split; auto|eexists; split; [reflexivity|apply Z1]]]).
Qed.
Lemma heap_step me (s : state) t s' t' : qstep me s t = Some (s', t') ->
  forall n, n <> q_tail s -> n <> q_head s -> ~ In n (owned t) -> n < q_fresh s -> q_heap s' n = q_heap s n.
Proof.
  intros H n N1 N2 N3 N4. cases H; repeat match goal with |- context [if ?b then event _ _ else _] => destruct b end; cbn in *; try reflexivity;
  match goal with |- context [n =? ?x] => destruct (Nat.eqb_spec n x); [subst|reflexivity] end; try congruence; try lia.
  all: destruct N3; left; reflexivity.
Qed.
Lemma answered_step l t r s s' t' :
  inv (Sys s (l ++ t :: r)) -> answered (Sys s (l ++ t :: r)) -> qstep (length l) s t = Some (s', t') ->
  answered (Sys s' (l ++ t' :: r)).
Proof.
  intros I AN H i u U. cbn [shared threads] in *.
  pose proof I as (MH & MT & q & ns & C & F & N & B & L & T). cbn [shared threads] in *.
  destruct (nth_mid _ _ _ _ _ U) as [(-> & ->)|(NE & Q)].
  - pose proof (AN _ _ (nth_here l r t)) as E. cbn [shared] in E. pose proof (L _ t (nth_here l r t)) as LT. unfold local in LT.
    assert (ME : forall {B} (x : B), of_thread (length l) [(length l, x)] = [x]).
    { intros B0 x. unfold of_thread. cbn. rewrite Nat.eqb_refl. reflexivity. }
    cases H; cbn [fst q_hist q_rets pending set_hlock set_tlock set_node set_tail set_head event alloc returns shared] in *;
    unfold pending in *; cbn [fst q_heap q_head set_hlock set_tlock set_node set_tail set_head event alloc returns] in *;
    rewrite ?of_thread_app, ?answers_app, ?map_app, ?ME, ?E; cbn [answers flat_map map ret_event app]; rewrite ?app_nil_r; try reflexivity.
    + (* Take2 *)
      destruct (Nat.eqb_spec (q_tail s) (q_head s)) as [X|X]; cbn [event q_hist q_rets q_head];
      rewrite ?of_thread_app, ?answers_app, ?ME, ?E; cbn [answers flat_map app]; rewrite ?app_nil_r.
      * rewrite X, Nat.eqb_refl. reflexivity.
      * destruct (Nat.eqb_spec (q_head s) (q_tail s)); [congruence|]. now rewrite app_nil_r.
    + destruct (q_head s =? t); [reflexivity|]. destruct b; reflexivity.
    + destruct LT as (LT1 & LT2). destruct (Nat.eqb_spec (q_head s) t); [congruence|now rewrite app_nil_r].
    + rewrite Nat.eqb_refl. cbn. reflexivity.
    + destruct LT as (d & X & [Y|Y]); [discriminate Y|]. injection Y as <-. rewrite X. reflexivity.
    + destruct LT as (d & X & [Y|Y]); [|discriminate Y]. rewrite Heqo0. reflexivity.
    + rewrite (Nat.eqb_sym (q_head s)). destruct (q_tail s =? q_head s); reflexivity.
  - destruct (log_step _ _ _ _ _ H) as ((e1 & -> & Z1) & (e2 & -> & Z2)). rewrite !of_thread_app, Z1, Z2, !app_nil_r by exact NE.
    pose proof (AN i u (Q t)) as E. cbn [shared] in E. rewrite E. f_equal.
    pose proof (L i u (Q t)) as LU. unfold local in LU.
    pose proof (inv_step _ _ _ _ _ _ I H) as (_ & _ & q' & ns' & _ & _ & _ & _ & L' & _). cbn [shared threads] in *.
    pose proof (L' i u U) as LU'. unfold local in LU'.
    assert (HD : head_cs (fst u) = true -> q_head s' = q_head s).
    { intros X. assert (head_cs (fst t) = false).
      { destruct (head_cs (fst t)) eqn:Y; [|reflexivity]. rewrite (mutex_other _ _ _ _ _ _ _ _ MH NE (Q t) Y) in X. discriminate. }
      clear - H H0. cases H; try discriminate H0; reflexivity. }
    unfold pending. destruct (fst u) eqn:EU; try reflexivity; cbn in HD; try (rewrite HD by reflexivity; reflexivity).
    all: destruct LU as (d1 & X1 & _), LU' as (d2 & X2 & _).
    all: assert (q_heap s' old = q_heap s old); [|rewrite H0; reflexivity].
    all: apply (heap_step _ _ _ _ _ H old).
    all: assert (IO : In old (owned u)) by (unfold owned; rewrite EU; left; reflexivity).
    1,5: exact (proj1 (owned_out (Sys s (l ++ t :: r)) i u old q ns (Q t) IO C N)).
    1,4: exact (proj2 (owned_out (Sys s (l ++ t :: r)) i u old q ns (Q t) IO C N)).
    all: destruct (split_two l t r i u NE (Q t)) as (o & P); rewrite P in N, B; unfold owned in N at 1; unfold owned in B at 1;
      rewrite EU in N, B; cbn [app] in N, B; inversion N as [|? ? N1 _]; inversion B; subst.
    1,3: intros X; apply N1; apply in_or_app; left; apply in_or_app; left; exact X.
    all: assumption.
Qed.
Lemma answered_exec (progs : list (list (@qop A))) sched : answered (qexec progs sched).
Proof.
  enough (X : inv (qexec progs sched) /\ answered (qexec progs sched)) by apply X.
  apply (run_inv qstep (fun w => inv w /\ answered w)).
  - split; [apply inv_begin|]. intros i t H. cbn in *. apply nth_error_In, in_map_iff in H as (p & <- & _). reflexivity.
  - intros l t r s s' t' (I & AN) H. split; [eapply inv_step; eassumption|eapply answered_step; eassumption].
Qed.
(** Every push of the program is in the history, under way, or still to come. *)
Definition pushes (ops : list (@qop A)) : list A := flat_map (fun o => match o with QPush v => [v] | _ => [] end) ops.
Definition pushing (t : thread) : list A :=
  match fst t with Push0 v | Push1 v _ | Push2 v _ | Push3 v _ | Push4 v _ => [v] | _ => [] end.
Definition accounted (progs : list (list (@qop A))) (w : @sys state thread) : Prop :=
  forall i t, nth_error (threads w) i = Some t ->
    exists ops, nth_error progs i = Some ops /\
      puts (of_thread i (q_hist (shared w))) ++ pushing t ++ pushes (snd t) = pushes ops.
Lemma accounted_step progs l t r s s' t' :
  accounted progs (Sys s (l ++ t :: r)) -> qstep (length l) s t = Some (s', t') ->
  accounted progs (Sys s' (l ++ t' :: r)).
Proof.
  intros AN H i u U. cbn [shared threads] in *.
  destruct (nth_mid _ _ _ _ _ U) as [(-> & ->)|(NE & Q)].
  - destruct (AN _ _ (nth_here l r t)) as (o & EO & E). cbn [shared] in E. exists o. split; [exact EO|]. rewrite <- E. clear E AN U.
    assert (ME : forall {B} (x : B), of_thread (length l) [(length l, x)] = [x]).
    { intros B0 x. unfold of_thread. cbn. rewrite Nat.eqb_refl. reflexivity. }
    cases H; repeat match goal with |- context [if ?b then event _ _ else _] => destruct b end;
    cbn [fst snd q_hist q_rets pending set_hlock set_tlock set_node set_tail set_head event alloc returns shared] in *;
    unfold pushing; cbn [fst snd]; rewrite ?of_thread_app, ?puts_app, ?ME; cbn [puts app]; rewrite ?app_nil_r; try reflexivity;
    repeat match goal with |- context [if ?b then _ else _] => destruct b end; cbn [puts app]; rewrite ?app_nil_r; try reflexivity.
    rewrite <- app_assoc. reflexivity.
  - destruct (log_step _ _ _ _ _ H) as ((e1 & -> & Z1) & _). rewrite of_thread_app, Z1, app_nil_r by exact NE.
    exact (AN i u (Q t)).
Qed.
Lemma accounted_exec (progs : list (list (@qop A))) sched : accounted progs (qexec progs sched).
Proof.
  apply (run_inv qstep (accounted progs)).
  - intros i t H. cbn in *. rewrite nth_error_map in H. destruct (nth_error progs i) as [ops|]; [|discriminate].
    injection H as <-. exists ops. split; reflexivity.
  - intros. eapply accounted_step; eassumption.
Qed.
(** ** No deadlock and no null pointer: while a thread has something to do, some
    thread can act; a thread that does not wait for a lock can act itself. *)
Definition waiting (t : thread) : Prop :=
  match fst t with Push1 _ _ | Take0 _ | Take1 _ | Take6 _ | Empty0 | Empty1 => True | _ => False end.
Lemma never_stuck w i t :
  inv w -> nth_error (threads w) i = Some t -> t <> (QIdle, []) -> ~ waiting t ->
  exists s' t', qstep i (shared w) t = Some (s', t').
Proof.
  intros (MH & MT & q & ns & C & F & ND & B & L & T) N NE NW. specialize (L i t N). unfold local in L.
  destruct t as [p ops]. destruct p; cbn in *; try (destruct NW; exact I); try (eexists; eexists; reflexivity).
  - destruct ops as [|[] ops]; [congruence|..]; eexists; eexists; reflexivity.
  - destruct L as (x & q1 & ->). inversion C as [|? ? ? ? ? E C']; subst. rewrite E. cbn. eexists; eexists; reflexivity.
  - assert (X : exists x q1, q = x :: q1) by (destruct v; cbn in L; [destruct L as (q1 & L); eauto|exact L]).
    destruct X as (x & q1 & ->). inversion C as [|? ? ? ? ? E C']; subst. rewrite E. cbn. eexists; eexists; reflexivity.
  - destruct L as (d & X & [-> | ->]); rewrite ?X; cbn; eexists; eexists; reflexivity.
Qed.
Lemma lock_held cs lock (progs : list (list (@qop A))) sched k :
  (forall me s t s' t', qstep me s t = Some (s', t') -> lock_change cs lock me s t s' t') -> lock qstate0 = None ->
  lock (shared (qexec progs sched)) = Some k -> exists t, nth_error (threads (qexec progs sched)) k = Some t.
Proof.
  intros LC L0. intros H. enough (X : k < length (threads (qexec progs sched))).
  { apply nth_error_Some in X. destruct (nth_error _ k); [eauto|congruence]. }
  revert H. apply (run_inv qstep (fun w => lock (shared w) = Some k -> k < length (threads w))).
  - cbn. rewrite L0. discriminate.
  - intros l t r s s' t' IH H. cbn in *. rewrite !app_length in *. cbn in *.
    destruct (LC _ _ _ _ _ H) as [(E1 & E2)|[(E1 & E2 & E3 & E4)|(E1 & E2 & E3)]].
    + now rewrite E1.
    + rewrite E2. intros X. assert (k = length l) by congruence. lia.
    + rewrite E1. discriminate.
Qed.
Lemma no_deadlock (progs : list (list (@qop A))) sched i t :
  let w := qexec progs sched in
  nth_error (threads w) i = Some t -> t <> (QIdle, []) ->
  exists j u s' u', nth_error (threads w) j = Some u /\ qstep j (shared w) u = Some (s', u').
Proof.
  cbv zeta. intros N NE. pose proof (inv_exec progs sched) as I. pose proof I as (MH & MT & _).
  set (w := qexec progs sched) in *.
  destruct (q_tlock (shared w)) as [k|] eqn:TL.
  - destruct (lock_held tail_cs q_tlock progs sched k (fun me s t s' t' => tail_step me s t s' t') eq_refl TL) as (u & U).
    assert (TC : tail_cs (fst u) = true) by (apply (MT k u U); exact TL).
    destruct (never_stuck w k u I U) as (s' & u' & E).
    + intros ->. discriminate TC.
    + unfold waiting. destruct (fst u); try discriminate TC; intros [].
    + exists k, u, s', u'. split; assumption.
  - destruct (q_hlock (shared w)) as [k|] eqn:HL.
    + destruct (lock_held head_cs q_hlock progs sched k (fun me s t s' t' => head_step me s t s' t') eq_refl HL) as (u & U).
      assert (HC : head_cs (fst u) = true) by (apply (MH k u U); exact HL).
      assert (X : exists s' u', qstep k (shared w) u = Some (s', u')).
      { assert (D : waiting u \/ ~ waiting u) by (unfold waiting; destruct (fst u); auto).
        destruct D as [D|D].
        - destruct u as [p ops]. cbn in *. destruct p; try discriminate HC; cbn in D; try contradiction; cbn; rewrite TL; eexists; eexists; reflexivity.
        - apply never_stuck; try assumption. intros ->. discriminate HC. }
      destruct X as (s' & u' & E). exists k, u, s', u'. split; assumption.
    + assert (X : exists s' u', qstep i (shared w) t = Some (s', u')).
      { assert (D : waiting t \/ ~ waiting t) by (unfold waiting; destruct (fst t); auto).
        destruct D as [D|D]; [|apply never_stuck; assumption].
        destruct t as [p ops]. cbn in *. destruct p; try contradiction; cbn; rewrite ?TL, ?HL; eexists; eexists; reflexivity. }
      destruct X as (s' & u' & E). exists i, t, s', u'. split; assumption.
Qed.
End Queue.
