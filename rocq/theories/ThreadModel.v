(** Interleaving semantics shared by the concurrent models.  No function of the
    repository is transcribed here: a system is a shared state and a list of
    threads, and a schedule is the list of threads that act, one step each.  A
    schedule that names a thread that is blocked or finished changes nothing.
    Simplification: memory is sequentially consistent; accesses that the C++
    memory model does not order are reported by the [race] predicates. *)
From Verif Require Import Base.
Open Scope nat_scope.

Definition upd {A} (l : list A) (i : nat) (x : A) : list A :=
  firstn i l ++ match skipn i l with [] => [] | _ :: t => x :: t end.

Section Sys.
Context {S T : Type} (tstep : nat -> S -> T -> option (S * T)).
Record sys := Sys { shared : S; threads : list T }.
Definition sys_step (w : sys) (i : nat) : sys :=
  match nth_error (threads w) i with
  | None => w
  | Some t => match tstep i (shared w) t with
              | None => w
              | Some (s, t') => Sys s (upd (threads w) i t')
              end
  end.
Definition run (w : sys) (sched : list nat) : sys := fold_left sys_step sched w.

Lemma upd_mid {A} (l r : list A) t x : upd (l ++ t :: r) (length l) x = l ++ x :: r.
Proof.
  unfold upd. rewrite firstn_app, firstn_all, Nat.sub_diag, skipn_app, skipn_all, Nat.sub_diag. cbn.
  now rewrite app_nil_r.
Qed.
(** What holds at first and is kept by every step of every thread holds always. *)
Lemma step_inv (P : sys -> Prop) w i :
  (forall l t r s s' t', P (Sys s (l ++ t :: r)) -> tstep (length l) s t = Some (s', t') ->
     P (Sys s' (l ++ t' :: r))) ->
  P w -> P (sys_step w i).
Proof.
  intros H HP. unfold sys_step. destruct (nth_error (threads w) i) as [t|] eqn:E; [|exact HP].
  destruct (tstep i (shared w) t) as [[s' t']|] eqn:F; [|exact HP].
  destruct (nth_error_split _ _ E) as (l & r & EL & <-). destruct w as [s ts]. cbn in *. subst ts.
  rewrite upd_mid. eapply H; eassumption.
Qed.
Lemma run_inv (P : sys -> Prop) w sched :
  P w ->
  (forall l t r s s' t', P (Sys s (l ++ t :: r)) -> tstep (length l) s t = Some (s', t') ->
     P (Sys s' (l ++ t' :: r))) ->
  P (run w sched).
Proof.
  intros H0 H. revert w H0. induction sched as [|i sched IH]; intros w H0; [exact H0|].
  cbn. apply IH. apply step_inv; assumption.
Qed.
Lemma run_app w a b : run w (a ++ b) = run (run w a) b.
Proof. apply fold_left_app. Qed.
(** A step that happens. *)
Lemma step_some l t r s s' t' : tstep (length l) s t = Some (s', t') ->
  sys_step (Sys s (l ++ t :: r)) (length l) = Sys s' (l ++ t' :: r).
Proof.
  intros H. unfold sys_step. cbn. rewrite nth_error_app2, Nat.sub_diag by lia. cbn. rewrite H, upd_mid. reflexivity.
Qed.
End Sys.
Arguments Sys {S T}.
Arguments shared {S T}.
Arguments threads {S T}.
