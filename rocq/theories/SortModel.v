(** std::sort with a "less than on sequence order" comparator, as used by every
    getSelections / getContests / getPlaceholders of manifest.cpp and ballot.cpp
    (manifest.cpp:1227-1232, 1404-1409, 1629-1634, 1905-1910, 1955-1960;
    ballot.cpp:610-615, 664-669, 968-973). *)
From Verif Require Import Base.
Open Scope Z_scope.

(** Modelled by a stable insertion sort.  std::sort leaves the order of elements
    with equal keys unspecified; [SortProofs.sorted_unique] shows that for distinct keys
    every sorted permutation is this one. *)
Section Sort.
Context {A : Type} (key : A -> Z).

Fixpoint insert_by (x : A) (l : list A) : list A :=
  match l with
  | [] => [x]
  | y :: t => if key x <=? key y then x :: y :: t else y :: insert_by x t
  end.
Fixpoint sort_by (l : list A) : list A :=
  match l with
  | [] => []
  | x :: t => insert_by x (sort_by t)
  end.
End Sort.
