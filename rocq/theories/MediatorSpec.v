(** What callers of one encryption mediator from several threads rely on, independently of
    MediatorModel.v.  Of PropBallot.v this uses [link], the seed and the code of a ballot that
    was returned, and [chained], the chain that the mediator's comments promise. *)
From Verif Require Import Base EncryptModel PropBallot.
Open Scope Z_scope.

(** What came back, in order of return: the thread, its request and the answer. *)
Definition history := list (nat * request * response).
(** The requests of thread [i] that were answered. *)
Definition requests_of (i : nat) (h : history) : list request :=
  map (fun e => snd (fst e)) (filter (fun e => (fst (fst e) =? i)%nat) h).
Definition requests (h : history) : list request := map (fun e => snd (fst e)) h.
Definition answers (h : history) : list response := map snd h.
Definition links (h : history) : list (Z * Z) := flat_map link (answers h).

(** Every thread's requests are answered in its order and none is invented. *)
Definition in_order (todo : list (list request)) (h : history) : Prop :=
  Forall (fun e => (fst (fst e) < length todo)%nat) h /\
  forall i l, nth_error todo i = Some l -> exists rest, l = requests_of i h ++ rest.
(** All requests are answered. *)
Definition complete (todo : list (list request)) (h : history) : Prop :=
  Forall (fun e => (fst (fst e) < length todo)%nat) h /\
  forall i l, nth_error todo i = Some l -> l = requests_of i h.

(** Less than a chain: every seed is one of [known] or the code of an earlier ballot. *)
Fixpoint rooted (known : list Z) (l : list (Z * Z)) : Prop :=
  match l with
  | [] => True
  | (seed, code) :: t => In seed known /\ rooted (code :: known) t
  end.

(** A ballot that is not the last one is left out of the record: (s, c) is the one. *)
Inductive gap : list (Z * Z) -> Z * Z -> list (Z * Z) -> Prop :=
| gap_at a x y b : gap (a ++ x :: y :: b) x (a ++ y :: b).
