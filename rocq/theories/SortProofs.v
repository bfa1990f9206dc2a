(** Facts about the sorting used by the getters. *)
From Coq Require Import Permutation Sorting.Sorted.
From Verif Require Import Base SortModel.
Open Scope Z_scope.

(** Specification: ascending in the key (adjacent form is implied). *)
Definition ascending {A} (key : A -> Z) (l : list A) : Prop :=
  StronglySorted (fun a b => key a <= key b) l.

Section S.
Context {A : Type} (key : A -> Z).

Lemma insert_perm x l : Permutation (x :: l) (insert_by key x l).
Proof.
  induction l as [|y t IH]; cbn; [constructor; constructor|].
  destruct (key x <=? key y); [reflexivity|].
  rewrite perm_swap. now constructor.
Qed.

Lemma sort_perm l : Permutation l (sort_by key l).
Proof.
  induction l as [|x t IH]; cbn; [constructor|].
  rewrite <- insert_perm. now constructor.
Qed.

Lemma insert_sorted x l : ascending key l -> ascending key (insert_by key x l).
Proof.
  unfold ascending. induction 1 as [|y t Hs IH Hy]; cbn.
  - constructor; constructor.
  - destruct (key x <=? key y) eqn:E.
    + constructor; [now constructor|].
      constructor; [lia|].
      rewrite Forall_forall in Hy |- *. intros z Hz. specialize (Hy z Hz). lia.
    + constructor; [assumption|].
      rewrite Forall_forall in Hy |- *. intros z Hz.
      apply (Permutation_in _ (Permutation_sym (insert_perm x t))) in Hz.
      destruct Hz as [<-|Hz]; [lia|auto].
Qed.

Lemma sort_sorted l : ascending key (sort_by key l).
Proof.
  induction l as [|x t IH]; cbn; [constructor|]. now apply insert_sorted.
Qed.

Lemma sort_length l : length (sort_by key l) = length l.
Proof. symmetry. apply Permutation_length, sort_perm. Qed.

Lemma sort_in x l : In x (sort_by key l) <-> In x l.
Proof.
  split; intros H.
  - eapply Permutation_in; [symmetry; apply sort_perm|exact H].
  - eapply Permutation_in; [apply sort_perm|exact H].
Qed.

(** With pairwise distinct keys there is only one ascending arrangement, so the
    unspecified treatment of ties by std::sort cannot be observed. *)
Lemma sorted_unique l l' :
  NoDup (map key l) -> Permutation l l' -> ascending key l -> ascending key l' -> l = l'.
Proof.
  unfold ascending. revert l'. induction l as [|x t IH]; intros l' ND P S1 S2.
  - apply Permutation_nil in P. now subst.
  - destruct l' as [|y t'].
    { symmetry in P. apply Permutation_nil in P. discriminate. }
    inversion S1 as [|? ? S1t F1]; subst. inversion S2 as [|? ? S2t F2]; subst.
    cbn in ND. inversion ND as [|? ? Nx NDt]; subst.
    assert (Hxy : x = y).
    { assert (Hx : In x (y :: t')) by (eapply Permutation_in; [exact P|left; reflexivity]).
      assert (Hy : In y (x :: t)) by (eapply Permutation_in; [symmetry; exact P|left; reflexivity]).
      destruct Hx as [->|Hx]; [reflexivity|].
      destruct Hy as [->|Hy]; [reflexivity|].
      rewrite Forall_forall in F1, F2. specialize (F1 y Hy). specialize (F2 x Hx). cbn in F1, F2.
      exfalso. apply Nx. replace (key x) with (key y) by lia. now apply in_map. }
    subst y. f_equal. apply IH; auto.
    now apply Permutation_cons_inv in P.
Qed.

Lemma sort_by_unique l l' :
  NoDup (map key l) -> Permutation l l' -> ascending key l' -> sort_by key l = l'.
Proof.
  intros ND P S. apply sorted_unique; auto using sort_sorted.
  - eapply Permutation_NoDup; [apply Permutation_map, sort_perm|exact ND].
  - rewrite <- P. symmetry. apply sort_perm.
Qed.

Lemma sort_by_sorted_id l : ascending key l -> sort_by key l = l.
Proof.
  unfold ascending. induction 1 as [|x t Hs IH F]; cbn; [reflexivity|].
  rewrite IH. destruct t as [|y t]; cbn; [reflexivity|].
  inversion F; subst. replace (key x <=? key y) with true by (symmetry; apply Z.leb_le; assumption).
  reflexivity.
Qed.

Lemma sort_by_idem l : sort_by key (sort_by key l) = sort_by key l.
Proof. apply sort_by_sorted_id, sort_sorted. Qed.

Lemma sort_by_perm l l' :
  NoDup (map key l) -> Permutation l l' -> sort_by key l = sort_by key l'.
Proof.
  intros ND P. apply sort_by_unique; auto using sort_sorted.
  rewrite P. apply sort_perm.
Qed.
End S.

Lemma insert_by_map {A B} (f : A -> B) (ka : A -> Z) (kb : B -> Z) x l :
  (forall a, kb (f a) = ka a) -> insert_by kb (f x) (map f l) = map f (insert_by ka x l).
Proof.
  intros H. induction l as [|y t IH]; cbn; [reflexivity|].
  rewrite !H. destruct (ka x <=? ka y); cbn; [reflexivity|]. now rewrite IH.
Qed.
Lemma sort_by_map {A B} (f : A -> B) (ka : A -> Z) (kb : B -> Z) l :
  (forall a, kb (f a) = ka a) -> sort_by kb (map f l) = map f (sort_by ka l).
Proof.
  intros H. induction l as [|x t IH]; cbn; [reflexivity|].
  rewrite IH. now apply insert_by_map.
Qed.
