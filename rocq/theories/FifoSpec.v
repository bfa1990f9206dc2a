(** Specification of a first-in first-out buffer by its history, independent of any
    implementation. *)
From Verif Require Import Base.
Open Scope nat_scope.

Inductive qev (A : Type) :=
| Put (a : A)        (* an item enters *)
| Got (a : A)        (* a consumer receives an item *)
| Missed             (* a caller is told that there is none *)
| Seen               (* a caller is told that there is one *)
| Dropped (a : A).   (* an item is discarded *)
Arguments Put {A} a.
Arguments Got {A} a.
Arguments Missed {A}.
Arguments Seen {A}.
Arguments Dropped {A} a.

(** [fifo h q]: the history [h] is allowed and leaves the items [q], oldest first. *)
Inductive fifo {A} : list (qev A) -> list A -> Prop :=
| fifo_nil : fifo [] []
| fifo_put h q a : fifo h q -> fifo (h ++ [Put a]) (q ++ [a])
| fifo_got h q a : fifo h (a :: q) -> fifo (h ++ [Got a]) q
| fifo_missed h : fifo h [] -> fifo (h ++ [Missed]) []
| fifo_seen h a q : fifo h (a :: q) -> fifo (h ++ [Seen]) (a :: q)
| fifo_dropped h q a : fifo h (a :: q) -> fifo (h ++ [Dropped a]) q.

Fixpoint puts {A} (h : list (qev A)) : list A :=
  match h with [] => [] | Put a :: t => a :: puts t | _ :: t => puts t end.
Fixpoint gots {A} (h : list (qev A)) : list A :=
  match h with [] => [] | Got a :: t => a :: gots t | _ :: t => gots t end.
(** Items that left, received or discarded. *)
Fixpoint outs {A} (h : list (qev A)) : list A :=
  match h with [] => [] | Got a :: t => a :: outs t | Dropped a :: t => a :: outs t | _ :: t => outs t end.
(** [sub l m]: [l] is [m] with some elements left out. *)
Inductive sub {A} : list A -> list A -> Prop :=
| sub_nil : sub [] []
| sub_keep a l m : sub l m -> sub (a :: l) (a :: m)
| sub_skip a l m : sub l m -> sub l (a :: m).

Lemma puts_app {A} (h k : list (qev A)) : puts (h ++ k) = puts h ++ puts k.
Proof. induction h as [|[] h IH]; cbn; rewrite ?IH; reflexivity. Qed.
Lemma gots_app {A} (h k : list (qev A)) : gots (h ++ k) = gots h ++ gots k.
Proof. induction h as [|[] h IH]; cbn; rewrite ?IH; reflexivity. Qed.
Lemma outs_app {A} (h k : list (qev A)) : outs (h ++ k) = outs h ++ outs k.
Proof. induction h as [|[] h IH]; cbn; rewrite ?IH; reflexivity. Qed.
(** Nothing is lost, invented or reordered. *)
Lemma fifo_conserves {A} (h : list (qev A)) q : fifo h q -> puts h = outs h ++ q.
Proof.
  induction 1 as [|h q a F IH|h q a F IH|h F IH|h a q F IH|h q a F IH]; [reflexivity| | | | |];
  rewrite puts_app, outs_app; cbn; rewrite ?app_nil_r, IH, ?app_nil_r, <- ?app_assoc; reflexivity.
Qed.
Lemma gots_outs {A} (h : list (qev A)) : sub (gots h) (outs h).
Proof. induction h as [|[] h IH]; cbn; try assumption; constructor; assumption. Qed.
Lemma sub_app_r {A} (l m k : list A) : sub l m -> sub l (m ++ k).
Proof.
  induction 1 as [|a l m H IH|a l m H IH]; cbn; try (constructor; assumption).
  induction k; constructor; assumption.
Qed.
Lemma fifo_gots {A} (h : list (qev A)) q : fifo h q -> sub (gots h) (puts h).
Proof. intros F. rewrite (fifo_conserves _ _ F). apply sub_app_r, gots_outs. Qed.
Lemma sub_in {A} (l m : list A) x : sub l m -> In x l -> In x m.
Proof. induction 1; cbn; intuition. Qed.
Lemma sub_nodup {A} (l m : list A) : sub l m -> NoDup m -> NoDup l.
Proof.
  induction 1 as [|a l m H IH|a l m H IH]; intros N; [constructor| |]; inversion N; subst; [|auto].
  constructor; auto. intros I. apply (sub_in _ _ a H) in I. contradiction.
Qed.
Lemma fifo_prefix {A} (h k : list (qev A)) q : fifo (h ++ k) q -> exists p, fifo h p.
Proof.
  revert q. induction k as [|e k IH] using rev_ind; intros q F; [rewrite app_nil_r in F; now exists q|].
  rewrite app_assoc in F. inversion F; subst;
  match goal with
  | H : [] = _ ++ [_] |- _ => destruct (h ++ k); discriminate
  | H : _ ++ [_] = _ ++ [_] |- _ => apply app_inj_tail in H as [-> <-]; eapply IH; eassumption
  | _ => idtac
  end.
Qed.
(** A miss happens only when every item put before has left. *)
Lemma fifo_missed_empty {A} (h k : list (qev A)) q : fifo (h ++ Missed :: k) q -> puts h = outs h.
Proof.
  intros F. change (Missed :: k) with ([Missed] ++ k) in F. rewrite app_assoc in F. apply fifo_prefix in F as (p & F).
  inversion F; subst; match goal with
  | H : [] = _ ++ [_] |- _ => destruct h; discriminate
  | H : _ ++ [_] = _ ++ [_] |- _ => apply app_inj_tail in H as [<- X]; try discriminate
  end.
  match goal with H : fifo _ [] |- _ => apply fifo_conserves in H; now rewrite app_nil_r in H end.
Qed.
