(** What the C lists are: named sequences of pairs of strings.  Independent of
    CollModel's memory; only the calls and answers are shared. *)
From Verif Require Import Base CollModel.
Open Scope Z_scope.

(** An element whose string could not be copied holds [None]. *)
Definition elements := list (option bytes * option bytes).
Definition world := nat -> option elements.
Definition nothing : world := fun _ => None.
Definition changed (w w' : world) (h : nat) (x : option elements) : Prop :=
  forall y, w' y = if (y =? h)%nat then x else w y.
Definition same_world (w w' : world) : Prop := forall y, w' y = w y.

(** Calls a client may make: on a live list, with strings, at a uint64_t position. *)
Definition live (w : world) (h : ptr) : Prop := match h with None => False | Some a => w a <> None end.
Definition permitted (w : world) (c : call) : Prop :=
  match c with
  | New _ => True
  | Free h => h = None \/ live w h
  | Append h k v ok _ _ => ok = true -> live w h /\ k <> None /\ v <> None
  | DeleteLast h | GetCount h => live w h
  | ElementAt h i | ValueAt h i => live w h
  end.

Definition copy (s : option bytes) (ok : bool) : option bytes := if ok then s else None.
(** What the call does. *)
Definition effect (w : world) (c : call) (a : answer) (w' : world) : Prop :=
  match c with
  | New true => exists h, a = Handle Success (Some h) /\ w h = None /\ changed w w' h (Some [])
  | New false => a = Handle BadAllocStatus None /\ same_world w w'
  | Free None => a = Done Success /\ same_world w w'
  | Free (Some h) => a = Done Success /\ changed w w' h None
  | Append _ _ _ false _ _ => a = Done BadAllocStatus /\ same_world w w'
  | Append (Some h) k v true ok_k ok_v =>
      exists l, w h = Some l /\ a = Done Success /\
                changed w w' h (Some (l ++ [(copy k ok_k, copy v ok_v)]))
  | DeleteLast (Some h) =>
      exists l, w h = Some l /\ a = Done Success /\ changed w w' h (Some (removelast l))
  | GetCount (Some h) => exists l, w h = Some l /\ a = Count (Z.of_nat (length l)) /\ same_world w w'
  | ElementAt (Some h) i =>
      exists l, w h = Some l /\ same_world w w' /\
        a = match (if i <? Z.of_nat (length l) then nth_error l (Z.to_nat i) else None) with
            | Some (k, v) => Element k v
            | None => Done OutOfRangeStatus
            end
  | ValueAt (Some h) i =>
      exists l, w h = Some l /\ same_world w w' /\
        a = match (if i <? Z.of_nat (length l) then nth_error l (Z.to_nat i) else None) with
            | Some (_, v) => Value v
            | None => Done OutOfRangeStatus
            end
  | _ => False
  end.
Fixpoint history (w : world) (l : list call) (a : list answer) (w' : world) : Prop :=
  match l, a with
  | [], [] => same_world w w'
  | c :: l, x :: a => permitted w c /\ exists w1, effect w c x w1 /\ history w1 l a w'
  | _, _ => False
  end.
