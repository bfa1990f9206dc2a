From Coq Require Import PArith.
From Verif Require Import Base CApiClass CApiNames CApiModel CApiSpec CApiTable CHeaderTable.
Import ListNotations.
Open Scope nat_scope.

Lemma class_eqb_true a b : class_beq a b = true <-> a = b.
Proof. split; [apply internal_class_dec_bl | apply internal_class_dec_lb]. Qed.

(** ** The book a heap corresponds to *)
Definition abs_home (h : home) : hold :=
  match h with
  | Allocated Intact k => Mine Good k
  | Allocated MovedFrom k => Mine Emptied k
  | Allocated Deleted k => Mine Gone k
  | Within r => PartOf r
  | Global => Constant
  end.
Definition abs_object (o : object) : entry := {| etype := oclass o; ehold := abs_home (ohome o) |}.
Definition abs (h : heap) : book := map abs_object h.

Lemma abs_nth h n : nth_error (abs h) n = option_map abs_object (nth_error h n).
Proof. unfold abs. revert n. induction h as [|o t IH]; intros [|n]; cbn; auto. Qed.
Lemma abs_inv h n e : nth_error (abs h) n = Some e -> exists o, nth_error h n = Some o /\ e = abs_object o.
Proof.
  rewrite abs_nth. destruct (nth_error h n) as [o|] eqn:E; cbn; [|discriminate].
  intros H. exists o. split; congruence.
Qed.
Lemma good_intact h m : good (abs h) m -> intact h m = true.
Proof.
  intros (c & k & [H|H]); apply abs_inv in H; destruct H as ([oc oh] & Ho & He);
    unfold intact; rewrite Ho; unfold abs_object in He; cbn in He;
    destruct oh as [[]| |]; cbn in He; congruence || reflexivity.
Qed.
Lemma intact_good h m : intact h m = true -> good (abs h) m.
Proof.
  unfold intact, good. destruct (nth_error h m) as [[oc oh]|] eqn:E; [|discriminate].
  destruct oh as [[] k| |]; try discriminate; intros _.
  - exists oc, k. left. rewrite abs_nth, E. reflexivity.
  - exists oc, []. right. rewrite abs_nth, E. reflexivity.
Qed.
Lemma access_ok h n c : typed (abs h) n c -> usable (abs h) n -> access h n c = true.
Proof.
  intros (hd & Ht) Hu. apply abs_inv in Ht. destruct Ht as (o & Ho & He).
  unfold access. rewrite Ho. destruct o as [oc oh]. unfold abs_object in He. cbn in He.
  assert (oc = c) by congruence. subst oc. cbn [oclass].
  unfold derives. rewrite (proj2 (class_eqb_true c c) eq_refl). cbn [orb andb].
  unfold owner_of. rewrite Ho. cbn [ohome].
  destruct oh as [cd k|r|]; [| |reflexivity].
  - assert (Hn : nth_error (abs h) n = Some {| etype := c; ehold := abs_home (Allocated cd k) |})
      by (rewrite abs_nth, Ho; reflexivity).
    assert (Hm : exists s, nth_error (abs h) n = Some {| etype := c; ehold := Mine s k |})
      by (rewrite Hn; destruct cd; cbn; eauto).
    destruct Hm as (s & Hm).
    apply andb_true_intro; split.
    + apply good_intact, Hu. eapply rests_self; eauto.
    + unfold references. rewrite Ho. cbn [ohome]. apply forallb_forall. intros m Hin.
      apply good_intact, Hu. eapply rests_need; eauto.
  - assert (Hn : nth_error (abs h) n = Some {| etype := c; ehold := PartOf r |})
      by (rewrite abs_nth, Ho; reflexivity).
    apply andb_true_intro; split.
    + apply good_intact, Hu. eapply rests_owner; eauto.
    + unfold references. destruct (nth_error h r) as [[rc rh]|] eqn:Er; [|reflexivity].
      cbn [ohome]. destruct rh as [cd k| |]; try reflexivity.
      apply forallb_forall. intros m Hin. apply good_intact, Hu.
      assert (Hm : exists s, nth_error (abs h) r = Some {| etype := rc; ehold := Mine s k |})
        by (rewrite abs_nth, Er; unfold abs_object; destruct cd; cbn; eauto).
      destruct Hm as (s & Hm). eapply rests_owner_need; eauto.
Qed.

(** ** Changing the condition of one allocation *)
Definition with_condition (c : condition) (o : object) : object :=
  match ohome o with
  | Allocated _ k => {| oclass := oclass o; ohome := Allocated c k |}
  | _ => o
  end.
Lemma nth_set h n c i :
  nth_error (set_condition h n c) i =
  if i =? n then option_map (with_condition c) (nth_error h i) else nth_error h i.
Proof.
  revert n i. induction h as [|o t IH]; intros n i; cbn [set_condition].
  - destruct (i =? n), i; reflexivity.
  - destruct n as [|n], i as [|i]; cbn [nth_error Nat.eqb option_map].
    + unfold with_condition. destruct (ohome o); reflexivity.
    + destruct (ohome o); reflexivity.
    + reflexivity.
    + apply IH.
Qed.
Lemma set_length h n c : length (set_condition h n c) = length h.
Proof.
  revert n. induction h as [|o t IH]; intros [|n]; cbn [set_condition length]; auto.
  destruct (ohome o); reflexivity.
Qed.
Lemma set_mine h n c i e :
  nth_error (abs (set_condition h n c)) i = Some e ->
  exists e0, nth_error (abs h) i = Some e0 /\ etype e = etype e0 /\
    (i <> n -> e = e0) /\
    match ehold e0 with
    | Mine s k => exists s', ehold e = Mine s' k
    | x => ehold e = x
    end.
Proof.
  intros H. apply abs_inv in H. destruct H as (o & Ho & ->). rewrite nth_set in Ho.
  destruct (i =? n) eqn:Ei.
  - destruct (nth_error h i) as [o0|] eqn:E0; cbn in Ho; [|discriminate].
    assert (o = with_condition c o0) by congruence. subst o.
    exists (abs_object o0). rewrite abs_nth, E0. apply Nat.eqb_eq in Ei.
    split; [reflexivity|]. destruct o0 as [oc oh]. unfold with_condition, abs_object. cbn.
    destruct oh as [cd k|r|]; cbn; (split; [reflexivity|]); (split; [congruence|]); try reflexivity.
    destruct cd, c; cbn; eauto.
  - exists (abs_object o). rewrite abs_nth, Ho. split; [reflexivity|]. split; [reflexivity|].
    split; [reflexivity|]. destruct (ehold (abs_object o)); eauto.
Qed.
Lemma set_back h n c i e0 :
  nth_error (abs h) i = Some e0 ->
  exists e, nth_error (abs (set_condition h n c)) i = Some e /\ etype e = etype e0 /\ (i <> n -> e = e0).
Proof.
  intros H. apply abs_inv in H. destruct H as (o & Ho & ->).
  rewrite abs_nth, nth_set, Ho. destruct (i =? n) eqn:Ei.
  - apply Nat.eqb_eq in Ei. eexists. split; [reflexivity|]. split; [|congruence].
    unfold with_condition. destruct (ohome o); reflexivity.
  - eexists. split; [reflexivity|]. split; reflexivity.
Qed.
Lemma rests_set h n c x m : rests (abs (set_condition h n c)) x m -> rests (abs h) x m.
Proof.
  intros H. destruct H as [cl s k H|cl s k m H Hin|cl r H|cl r cl' s k m H H' Hin].
  - apply set_mine in H. destruct H as ([t0 h0] & H0 & _ & _ & Hk). cbn in Hk.
    destruct h0 as [s0 k0| |]; try discriminate. eapply rests_self; eauto.
  - apply set_mine in H. destruct H as ([t0 h0] & H0 & _ & _ & Hk). cbn in Hk.
    destruct h0 as [s0 k0| |]; try discriminate. destruct Hk as (s' & Hk).
    assert (k = k0) by congruence. subst. eapply rests_need; eauto.
  - apply set_mine in H. destruct H as ([t0 h0] & H0 & _ & _ & Hk). cbn in Hk.
    destruct h0 as [s0 k0|r0|]; [destruct Hk as (?&Hk); discriminate| |discriminate].
    assert (r0 = r) by congruence. subst. eapply rests_owner; eauto.
  - apply set_mine in H. destruct H as ([t0 h0] & H0 & _ & _ & Hk). cbn in Hk.
    destruct h0 as [s0 k0|r0|]; [destruct Hk as (?&Hk); discriminate| |discriminate].
    assert (r0 = r) by congruence. subst.
    apply set_mine in H'. destruct H' as ([t1 h1] & H1 & _ & _ & Hk'). cbn in Hk'.
    destruct h1 as [s1 k1| |]; try discriminate. destruct Hk' as (s' & Hk').
    assert (k = k1) by congruence. subst. eapply rests_owner_need; eauto.
Qed.
Lemma good_set h n c m : m <> n -> good (abs h) m -> good (abs (set_condition h n c)) m.
Proof.
  intros Hn (cl & k & Hg). exists cl, k.
  destruct Hg as [H|H]; [left|right]; apply (set_back h n c) in H;
    destruct H as (e & He & _ & Hs); rewrite He, (Hs Hn); reflexivity.
Qed.
Lemma typed_set h n c i k : typed (abs h) i k -> typed (abs (set_condition h n c)) i k.
Proof.
  intros (x & H). apply (set_back h n c) in H. destruct H as ([t hd] & He & Ht & _).
  cbn in Ht. subst. exists hd. exact He.
Qed.
Lemma held_set_other h n c i : i <> n -> held (abs h) i -> held (abs (set_condition h n c)) i.
Proof.
  intros Hn (cl & s & k & H & Hs). apply (set_back h n c) in H. destruct H as (e & He & _ & Hx).
  exists cl, s, k. rewrite He, (Hx Hn). auto.
Qed.
Lemma held_alloc h n : held (abs h) n ->
  exists cl cd k, nth_error h n = Some {| oclass := cl; ohome := Allocated cd k |} /\ cd <> Deleted.
Proof.
  intros (cl & s & k & H & Hs). apply abs_inv in H. destruct H as ([oc oh] & Ho & He).
  unfold abs_object in He. cbn in He. destruct oh as [cd k'| |]; cbn in He; try discriminate.
  exists oc, cd, k'. split; [exact Ho|]. intros ->. cbn in He. congruence.
Qed.
Lemma held_moved h n i : held (abs h) i -> held (abs (set_condition h n MovedFrom)) i.
Proof.
  intros Hh. destruct (Nat.eq_dec i n) as [->|Hn]; [|apply held_set_other; auto].
  apply held_alloc in Hh. destruct Hh as (cl & cd & k & Ho & _).
  exists cl, Emptied, k. rewrite abs_nth, nth_set, Nat.eqb_refl, Ho. split; [reflexivity|discriminate].
Qed.

(** ** The arguments of one call *)
Definition effect_of (t : terms) : effect :=
  match t with Borrow => Use | Empty => Move | GiveUp => Take | Free => Delete | Outlive => Keep end.
Definition agrees (p : param) (x : class * terms * bool) : bool :=
  match x with
  | (c, t, a) =>
      class_beq (pdeclared p) c && class_beq (pcast p) c && Bool.eqb (parray p) a &&
      match peffect p, t with
      | Use, Borrow | Move, Empty | Take, GiveUp | Delete, Free | Keep, Outlive => true
      | _, _ => false
      end
  end.
Definition step_arg (h : heap) (x : class * terms * nat) : heap :=
  match x with (_, Empty, n) => set_condition h n MovedFrom | _ => h end.
Definition end_arg (h : heap) (x : class * terms * nat) : heap :=
  match x with
  | (_, GiveUp, n) | (_, Free, n) => set_condition h n Deleted
  | _ => h
  end.
Definition matches (y : param * option nat) (x : class * terms * nat) : Prop :=
  match y, x with
  | (p, o), (c, t, n) => o = Some n /\ pcast p = c /\ peffect p = effect_of t
  end.

Definition ready (b : book) (u : list (class * terms * nat)) : Prop :=
  (forall k t n, In (k, t, n) u ->
     typed b n k /\ (t <> Free -> usable b n) /\ (consumes t = true -> held b n)) /\
  (forall before k t n after, u = before ++ (k, t, n) :: after -> consumes t = true ->
     forall k' t' n', In (k', t', n') (before ++ after) -> n' <> n /\ ~ rests b n' n).

Lemma ready_tail b x u : ready b (x :: u) -> ready b u.
Proof.
  intros [H1 H2]. split.
  - intros. apply H1. right; auto.
  - intros before k t n after -> Hc k' t' n' Hin.
    apply (H2 (x :: before) k t n after eq_refl Hc k' t' n'). right. exact Hin.
Qed.
Lemma ready_step h x u : ready (abs h) (x :: u) -> ready (abs (step_arg h x)) u.
Proof.
  intros R. pose proof (ready_tail _ _ _ R) as Rt. destruct x as [[k t] n].
  destruct t; try exact Rt. cbn [step_arg].
  destruct R as [_ H2]. specialize (H2 [] k Empty n u eq_refl eq_refl). cbn [app] in H2.
  destruct Rt as [Ha Hb]. split.
  - intros k' t' n' Hin. destruct (Ha _ _ _ Hin) as (Ht & Hu & Hh).
    destruct (H2 _ _ _ Hin) as (Hne & Hnr).
    split; [apply typed_set; exact Ht|]. split.
    + intros Hf m Hm. apply rests_set in Hm. apply good_set; [congruence|].
      apply (Hu Hf). exact Hm.
    + intros Hc. apply held_set_other; auto.
  - intros before k' t' n' after E Hc k'' t'' n'' Hin.
    destruct (Hb before k' t' n' after E Hc k'' t'' n'' Hin) as (A & B).
    split; [exact A|]. intros Hr. apply B. eapply rests_set; eauto.
Qed.
Lemma touch_ok h y x u : matches y x -> ready (abs h) (x :: u) -> touch h y = Ok (step_arg h x).
Proof.
  destruct y as [p o], x as [[c t] n]. intros (-> & Hc & He) [H1 _].
  destruct (H1 c t n (or_introl eq_refl)) as (Ht & Hu & Hh).
  cbn [touch]. rewrite He, Hc.
  destruct t; cbn [effect_of step_arg];
    try (rewrite access_ok; [reflexivity|exact Ht|apply Hu; discriminate]); try reflexivity.
  rewrite access_ok; [|exact Ht|apply Hu; discriminate].
  destruct (held_alloc h n (Hh eq_refl)) as (cl & cd & k & Ho & _).
  unfold owner_of. rewrite Ho. reflexivity.
Qed.
Lemma touches_ok : forall l u h, Forall2 matches l u -> ready (abs h) u ->
  foldM touch l h = Ok (fold_left step_arg u h).
Proof.
  intros l u h H. revert h. induction H as [|y x l u Hm _ IH]; intros h R; [reflexivity|].
  cbn [foldM fold_left]. rewrite (touch_ok h y x u Hm R). cbn [bind].
  apply IH. apply ready_step. exact R.
Qed.

(** The second pass needs less. *)
Definition endable (h : heap) (u : list (class * terms * nat)) : Prop :=
  (forall k t n, In (k, t, n) u -> consumes t = true -> typed (abs h) n k /\ held (abs h) n) /\
  (forall before k t n after, u = before ++ (k, t, n) :: after -> consumes t = true ->
     forall k' t' n', In (k', t', n') (before ++ after) -> n' <> n).
Lemma ready_endable h u : ready (abs h) u -> endable h u.
Proof.
  intros [H1 H2]. split.
  - intros k t n Hin Hc. destruct (H1 _ _ _ Hin) as (A & _ & B). auto.
  - intros before k t n after E Hc k' t' n' Hin. apply (H2 before k t n after E Hc k' t' n' Hin).
Qed.
Lemma endable_step h v u : endable h u -> endable (step_arg h v) u.
Proof.
  destruct v as [[c t] n]. destruct t; auto. cbn. intros [H1 H2]. split; [|exact H2].
  intros k t n' Hin Hc. destruct (H1 _ _ _ Hin Hc). split; [apply typed_set|apply held_moved]; auto.
Qed.
Lemma endable_steps v : forall h u, endable h u -> endable (fold_left step_arg v h) u.
Proof. induction v as [|x v IH]; intros h u H; [exact H|]. cbn. apply IH, endable_step, H. Qed.
Lemma endable_end h x u : endable h (x :: u) -> endable (end_arg h x) u.
Proof.
  intros [H1 H2].
  assert (T : endable h u).
  { split.
    - intros; apply (H1 k t n); auto. right; auto.
    - intros before k t n after -> Hc k' t' n' Hin.
      apply (H2 (x :: before) k t n after eq_refl Hc k' t' n'). right; exact Hin. }
  destruct x as [[c t] n]. destruct t; try exact T; cbn [end_arg]; destruct T as [T1 T2].
  all: split; [|exact T2].
  all: intros k' t' n' Hin Hc; destruct (T1 _ _ _ Hin Hc) as (A & B).
  all: split; [apply typed_set, A|apply held_set_other; [|exact B]].
  - apply (H2 [] c GiveUp n u eq_refl eq_refl k' t' n'). exact Hin.
  - apply (H2 [] c Free n u eq_refl eq_refl k' t' n'). exact Hin.
Qed.
Lemma release_ok h n k : typed (abs h) n k -> held (abs h) n ->
  release_object h n k = Ok (set_condition h n Deleted).
Proof.
  intros (x & Ht) Hh. apply held_alloc in Hh. destruct Hh as (cl & cd & kk & Ho & Hd).
  rewrite abs_nth, Ho in Ht. cbn in Ht. unfold abs_object in Ht. cbn in Ht.
  assert (cl = k) by congruence. subst cl.
  unfold release_object. rewrite Ho. rewrite (proj2 (class_eqb_true k k) eq_refl).
  destruct cd; congruence.
Qed.
Lemma reclaims_ok : forall l u h, Forall2 matches l u -> endable h u ->
  foldM reclaim l h = Ok (fold_left end_arg u h).
Proof.
  intros l u h H. revert h. induction H as [|y x l u Hm _ IH]; intros h R; [reflexivity|].
  cbn [foldM fold_left].
  assert (E : reclaim h y = Ok (end_arg h x)).
  { destruct y as [p o], x as [[c t] n]. destruct Hm as (-> & Hc & He). cbn [reclaim].
    rewrite He, Hc. destruct R as [R1 _]. specialize (R1 c t n (or_introl eq_refl)).
    destruct t; cbn [effect_of end_arg]; try reflexivity;
      destruct (R1 eq_refl); apply release_ok; auto. }
  rewrite E. cbn [bind]. apply IH. apply endable_end. exact R.
Qed.

(** ** The book afterwards *)
Lemma steps_nth u : forall h i,
  nth_error (fold_left step_arg u h) i =
  if ends u i Empty then option_map (with_condition MovedFrom) (nth_error h i) else nth_error h i.
Proof.
  induction u as [|[[c t] n] u IH]; intros h i; [reflexivity|].
  cbn [fold_left]. rewrite IH. unfold ends. cbn [existsb]. fold (ends u i Empty).
  destruct t; cbn [step_arg orb]; try reflexivity.
  rewrite nth_set. rewrite (Nat.eqb_sym i n). destruct (n =? i), (ends u i Empty); cbn; try reflexivity.
  destruct (nth_error h i) as [[oc [cd k| |]]|]; reflexivity.
Qed.
Lemma ends_nth u : forall h i,
  nth_error (fold_left end_arg u h) i =
  if ends u i GiveUp || ends u i Free then option_map (with_condition Deleted) (nth_error h i)
  else nth_error h i.
Proof.
  induction u as [|[[c t] n] u IH]; intros h i; [reflexivity|].
  cbn [fold_left]. rewrite IH. unfold ends. cbn [existsb].
  fold (ends u i GiveUp). fold (ends u i Free).
  destruct t; cbn [end_arg orb]; try reflexivity;
    rewrite nth_set, (Nat.eqb_sym i n); destruct (n =? i), (ends u i GiveUp), (ends u i Free); cbn;
    try reflexivity; destruct (nth_error h i) as [[oc [cd k| |]]|]; reflexivity.
Qed.
Lemma nth_map_from {A} (f : nat -> A -> A) l : forall s i,
  nth_error (map_from f s l) i = option_map (f (s + i)) (nth_error l i).
Proof.
  induction l as [|x t IH]; intros s [|i]; cbn; try reflexivity.
  - rewrite Nat.add_0_r. reflexivity.
  - rewrite IH. f_equal. f_equal. lia.
Qed.
Lemma nth_ext {A} (l l' : list A) : (forall i, nth_error l i = nth_error l' i) -> l = l'.
Proof.
  revert l'. induction l as [|x t IH]; intros [|y t'] H; auto.
  - specialize (H 0); discriminate.
  - specialize (H 0); discriminate.
  - f_equal; [specialize (H 0); cbn in H; congruence|]. apply IH. intros i. apply (H (S i)).
Qed.
Lemma after_abs u h :
  abs (fold_left end_arg u (fold_left step_arg u h)) = map_from (entry_after u) 0 (abs h).
Proof.
  apply nth_ext. intros i. rewrite nth_map_from, !abs_nth, ends_nth, steps_nth. cbn [Nat.add].
  destruct (nth_error h i) as [[oc [cd k| |]]|]; unfold entry_after, abs_object, with_condition; cbn;
    try (destruct cd; cbn); destruct (ends u i GiveUp || ends u i Free), (ends u i Empty); reflexivity.
Qed.
Lemma steps_length u : forall h, length (fold_left step_arg u h) = length h.
Proof.
  induction u as [|[[c t] n] u IH]; intros h; [reflexivity|]. cbn [fold_left]. rewrite IH.
  destruct t; cbn [step_arg]; try reflexivity. apply set_length.
Qed.

(** ** Functions that do what their contract says *)
Definition returns_as (ps : list param) (r : result) (x : class * title) : bool :=
  match r, x with
  | Fresh d a, (c, Owned) => class_beq d c && class_beq a c
  | Inner d a, (c, Reference) =>
      class_beq d c && class_beq a c && match ps with p :: _ => negb (parray p) | [] => false end
  | Static d a, (c, Reference) =>
      class_beq d c && class_beq a c && match ps with [] => true | _ => false end
  | _, _ => false
  end.
Fixpoint all2 {A B} (f : A -> B -> bool) (l : list A) (m : list B) : bool :=
  match l, m with
  | [], [] => true
  | x :: l', y :: m' => f x y && all2 f l' m'
  | _, _ => false
  end.
Definition honours (f : func) (c : contract) : bool :=
  Pos.eqb (fname f) (cname c) && all2 agrees (fparams f) (cgiven c) &&
  all2 (returns_as (fparams f)) (fresults f) (cresults c).

Lemma agrees_matches p c t a n : agrees p (c, t, a) = true -> matches (p, Some n) (c, t, n).
Proof.
  unfold agrees. rewrite !andb_true_iff. intros (((A & B) & _) & D).
  apply class_eqb_true in B. cbn. split; [reflexivity|]. split; [exact B|].
  destruct (peffect p), t; try discriminate; reflexivity.
Qed.
Definition given_args (args : list (list nat)) : list (list (option nat)) := map (map Some) args.
Lemma shape_ok ps : forall g args, all2 agrees ps g = true -> well_shaped g args ->
  shaped ps (given_args args) = true.
Proof.
  induction ps as [|p ps IH]; intros [|[[c t] a] g] [|x args] H W; cbn in *; try discriminate; try tauto.
  rewrite !andb_true_iff in H. destruct H as ((((A & B) & C) & D) & R).
  destruct W as (W & W'). apply andb_true_intro. split; [|eapply IH; eauto].
  apply Bool.eqb_prop in C. rewrite C, map_length. destruct W as [->| ->]; [reflexivity|].
  rewrite Nat.eqb_refl, orb_true_r. reflexivity.
Qed.
Lemma flatten_matches ps : forall g args, all2 agrees ps g = true ->
  Forall2 matches (flatten ps (given_args args)) (uses g args).
Proof.
  induction ps as [|p ps IH]; intros [|[[c t] a] g] args H; cbn in H; try discriminate; try (constructor).
  apply andb_true_iff in H. destruct H as (A & R).
  destruct args as [|x args]; cbn; [constructor|].
  apply Forall2_app; [|apply IH; exact R].
  induction x as [|n x IHx]; cbn; [constructor|]. constructor; [|exact IHx].
  eapply agrees_matches; eauto.
Qed.
Lemma no_nulls ps args :
  existsb (fun x : param * option nat => match x with (p, None) => pnull p | _ => false end)
          (flatten ps (given_args args)) = false.
Proof.
  revert args. induction ps as [|p ps IH]; intros [|x args]; cbn; try reflexivity.
  rewrite existsb_app, IH, orb_false_r.
  induction x as [|n x IHx]; cbn; auto.
Qed.
Lemma kept_needed l u : Forall2 matches l u -> kept l = needed u.
Proof.
  induction 1 as [|[p o] [[c t] n] l u (-> & _ & He) _ IH]; [reflexivity|].
  unfold kept, needed in *. cbn [flat_map]. rewrite IH, He. destruct t; reflexivity.
Qed.
Lemma results_ok h ps g args : forall rs cs, all2 agrees ps g = true -> well_shaped g args ->
  all2 (returns_as ps) rs cs = true ->
  exists os, mapM (new_object h (flatten ps (given_args args))) rs = Ok os /\
             map abs_object os = map (received (abs h) (uses g args)) cs.
Proof.
  intros rs cs Ha Hw. pose proof (flatten_matches ps g args Ha) as HF.
  assert (HK : kept (flatten ps (given_args args)) = needed (uses g args)) by (apply kept_needed; auto).
  revert cs. induction rs as [|r rs IH]; intros [|[c t] cs] H; cbn [all2] in H; try discriminate.
  - exists []. split; reflexivity.
  - apply andb_true_iff in H. destruct H as (A & R). destruct (IH cs R) as (os & E & M).
    assert (O : exists o, new_object h (flatten ps (given_args args)) r = Ok o /\
                          abs_object o = received (abs h) (uses g args) (c, t)).
    { destruct r as [d a|d a|d a], t; cbn [returns_as] in A; try discriminate;
        rewrite ?andb_true_iff in A.
      - destruct A as (_ & A). apply class_eqb_true in A. subst a. cbn [new_object].
        eexists. split; [reflexivity|]. rewrite HK. reflexivity.
      - destruct A as ((_ & A) & P). apply class_eqb_true in A. subst a. cbn [new_object].
        destruct ps as [|p ps]; [discriminate|].
        destruct g as [|[[gc gt] ga] g]; [discriminate|].
        destruct args as [|x args]; [destruct Hw|].
        cbn in Ha. rewrite !andb_true_iff in Ha. destruct Ha as ((((_ & _) & E1) & _) & _).
        apply Bool.eqb_prop in E1. cbn in Hw. destruct Hw as ([Hw|Hw] & _).
        { rewrite E1, Hw in P. discriminate. }
        destruct x as [|n [|? ?]]; try discriminate. cbn.
        eexists. split; [reflexivity|]. unfold abs_object. cbn [oclass ohome]. f_equal.
        rewrite abs_nth. unfold owner_of. destruct (nth_error h n) as [[oc [cd k| |]]|]; cbn; try reflexivity.
        destruct cd; reflexivity.
      - destruct A as ((_ & A) & P). apply class_eqb_true in A. subst a. cbn [new_object].
        destruct ps; [|discriminate]. destruct g; [|discriminate].
        eexists. split; [reflexivity|]. reflexivity. }
    destruct O as (o & Eo & Mo). exists (o :: os). cbn [mapM]. rewrite Eo. cbn [bind].
    rewrite E. cbn [bind]. split; [reflexivity|]. cbn [map]. rewrite Mo, M. reflexivity.
Qed.

Definition receives (e : ending) : bool := match e with Returned => true | _ => false end.
(** One call by the rules of a contract the function honours. *)
Lemma call_ok h f c args e :
  honours f c = true -> allowed (abs h) c args ->
  exists h' a, call h f (given_args args) e = Ok (h', a) /\
               abs h' = book_after (abs h) c args (receives e) /\
               (e = Returned -> a = Handles (map Some (seq (length h) (length (cresults c))))).
Proof.
  unfold honours. rewrite !andb_true_iff. intros ((_ & Ha) & Hr) (Hw & R1 & R2).
  assert (R : ready (abs h) (uses (cgiven c) args)) by (split; [exact R1|exact R2]).
  pose proof (flatten_matches _ _ args Ha) as HF.
  unfold call. rewrite (shape_ok _ _ _ Ha Hw). cbn [negb].
  rewrite no_nulls.
  rewrite (touches_ok _ _ h HF R). cbn [bind].
  rewrite (reclaims_ok _ _ _ HF); [|apply endable_steps, ready_endable, R]. cbn [bind].
  set (h2 := fold_left end_arg _ _).
  assert (A2 : abs h2 = map_from (entry_after (uses (cgiven c) args)) 0 (abs h)) by apply after_abs.
  assert (L2 : length h2 = length h).
  { assert (length (abs h2) = length (abs h)) as L.
    { rewrite A2. clear. generalize 0. induction (abs h); intros; cbn; auto. }
    unfold abs in L. rewrite !map_length in L. exact L. }
  unfold book_after.
  destruct e; cbn [receives].
  - exists h2, Error. split; [reflexivity|]. split; [rewrite app_nil_r; exact A2|discriminate].
  - destruct (returns_parts f); eexists; eexists;
      (split; [reflexivity|]); (split; [rewrite app_nil_r; exact A2|discriminate]).
  - destruct (results_ok h _ _ args _ _ Ha Hw Hr) as (os & E & M).
    rewrite E. cbn [bind]. eexists; eexists. split; [reflexivity|]. split.
    + unfold abs. rewrite map_app, M. fold (abs h2). rewrite A2. reflexivity.
    + intros _. rewrite L2. f_equal. f_equal. f_equal.
      apply (f_equal (@length _)) in M. rewrite !map_length in M. exact M.
Qed.

(** ** Histories *)
Definition plays (x : name * list (list nat) * bool) (e : event) : Prop :=
  match x with
  | (name, args, r) => ecall e = name /\ eargs e = given_args args /\ receives (eending e) = r
  end.
Lemma run_ok fs cs : forall b l b', by_the_rules cs b l b' ->
  (forall fname args r c, In (fname, args, r) l -> find_contract cs fname = Some c ->
     exists f, lookup fs fname = Some f /\ honours f c = true) ->
  forall h es, abs h = b -> Forall2 plays l es ->
  exists h' a, run fs h es = Ok (h', a) /\ abs h' = b'.
Proof.
  intros b l b' B. induction B as [b|b c name args r l b' Hc Al B IH]; intros Hs h es Ab F.
  - inversion F. subst. exists h, []. split; reflexivity.
  - inversion F as [|? e ? es' P F']. subst. destruct P as (P1 & P2 & P3).
    destruct (Hs name args r c (or_introl eq_refl) Hc) as (f & Lf & Hh).
    destruct (call_ok h f c args (eending e) Hh Al) as (h1 & a & Ec & A1 & _).
    destruct (IH (fun n a r0 c0 Hin => Hs n a r0 c0 (or_intror Hin)) h1 es') as (h2 & a2 & Er & A2).
    + rewrite A1, P3. reflexivity.
    + exact F'.
    + cbn [run]. rewrite P1, Lf, P2, Ec. cbn [bind]. rewrite Er. cbn [bind].
      exists h2, (a :: a2). split; [reflexivity|exact A2].
Qed.
Lemma nothing_allocated h : nothing_held (abs h) -> allocated h = [].
Proof.
  intros N. unfold allocated.
  assert (forall l, filter (fun n => match nth_error h n with
                   | Some {| ohome := Allocated Deleted _ |} => false
                   | Some {| ohome := Allocated _ _ |} => true
                   | _ => false end) l = []) as H; [|apply H].
  induction l as [|n l IH]; [reflexivity|]. cbn [filter]. rewrite IH.
  destruct (nth_error h n) as [[oc [cd k| |]]|] eqn:E; try reflexivity.
  destruct cd; try reflexivity; exfalso; apply (N n).
  - exists oc, Good, k. rewrite abs_nth, E. split; [reflexivity|discriminate].
  - exists oc, Emptied, k. rewrite abs_nth, E. split; [reflexivity|discriminate].
Qed.

(** ** A decision procedure for the rules, to check the examples *)
Definition restsb (b : book) (n : nat) : list nat :=
  match nth_error b n with
  | Some {| ehold := Mine _ k |} => n :: k
  | Some {| ehold := PartOf r |} =>
      r :: match nth_error b r with Some {| ehold := Mine _ k |} => k | _ => [] end
  | _ => []
  end.
Lemma rests_in b n m : rests b n m -> In m (restsb b n).
Proof.
  intros H. unfold restsb.
  destruct H as [cl s k H|cl s k m H Hin|cl r H|cl r cl' s k m H H' Hin]; rewrite H; cbn; auto.
  rewrite H'. auto.
Qed.
Definition goodb (b : book) (n : nat) : bool :=
  match nth_error b n with
  | Some {| ehold := Mine Good _ |} | Some {| ehold := Constant |} => true
  | _ => false
  end.
Lemma goodb_good b n : goodb b n = true -> good b n.
Proof.
  unfold goodb, good. destruct (nth_error b n) as [[c [[] k| |]]|]; try discriminate; intros _.
  - exists c, k. auto.
  - exists c, []. auto.
Qed.
Definition usableb b n := forallb (goodb b) (restsb b n).
Lemma usableb_usable b n : usableb b n = true -> usable b n.
Proof.
  intros H m Hm. apply goodb_good. unfold usableb in H. rewrite forallb_forall in H.
  apply H, rests_in, Hm.
Qed.
Definition heldb (b : book) (n : nat) : bool :=
  match nth_error b n with
  | Some {| ehold := Mine Gone _ |} => false
  | Some {| ehold := Mine _ _ |} => true
  | _ => false
  end.
Lemma heldb_held b n : heldb b n = true <-> held b n.
Proof.
  unfold heldb, held. split.
  - destruct (nth_error b n) as [[c [[] k| |]]|]; try discriminate; intros _;
      eexists _, _, _; (split; [reflexivity|discriminate]).
  - intros (c & s & k & -> & Hs). destruct s; congruence.
Qed.
Definition typedb (b : book) (n : nat) (c : class) : bool :=
  match nth_error b n with Some e => class_beq (etype e) c | None => false end.
Lemma typedb_typed b n c : typedb b n c = true -> typed b n c.
Proof.
  unfold typedb, typed. destruct (nth_error b n) as [[t h]|]; [|discriminate]. cbn.
  intros H. apply class_eqb_true in H. subst. eauto.
Qed.
Definition terms_free (t : terms) := match t with Free => true | _ => false end.
Fixpoint well_shapedb (g : list (class * terms * bool)) (args : list (list nat)) : bool :=
  match g, args with
  | [], [] => true
  | (_, _, array) :: g', a :: args' => (array || (length a =? 1)) && well_shapedb g' args'
  | _, _ => false
  end.
Lemma well_shapedb_ok g : forall args, well_shapedb g args = true -> well_shaped g args.
Proof.
  induction g as [|[[c t] a] g IH]; intros [|x args] H; cbn in *; try discriminate; auto.
  apply andb_true_iff in H. destruct H as (A & B). split; [|auto].
  apply orb_true_iff in A. destruct A as [A|A]; [auto|]. right. apply Nat.eqb_eq. exact A.
Qed.
Fixpoint clearb (b : book) (before u : list (class * terms * nat)) : bool :=
  match u with
  | [] => true
  | (k, t, n) :: after =>
      (negb (consumes t) ||
       forallb (fun x => match x with (_, _, n') =>
                  negb (n' =? n) && negb (existsb (Nat.eqb n) (restsb b n')) end) (before ++ after)) &&
      clearb b (before ++ [(k, t, n)]) after
  end.
Lemma clearb_ok b : forall u pre, clearb b pre u = true ->
  forall before k t n after, u = before ++ (k, t, n) :: after -> consumes t = true ->
  forall k' t' n', In (k', t', n') (pre ++ before ++ after) -> n' <> n /\ ~ rests b n' n.
Proof.
  induction u as [|[[k0 t0] n0] u IH]; intros pre H before k t n after E Hc k' t' n' Hin.
  - destruct before; discriminate.
  - cbn [clearb] in H. apply andb_true_iff in H. destruct H as (A & B).
    destruct before as [|x before]; cbn [app] in E.
    + assert (k0 = k /\ t0 = t /\ n0 = n /\ u = after) as (-> & -> & -> & ->) by (repeat split; congruence).
      rewrite Hc in A. cbn [negb orb] in A. rewrite forallb_forall in A.
      specialize (A _ Hin). cbn in A. apply andb_true_iff in A. destruct A as (A1 & A2).
      apply negb_true_iff in A1. apply negb_true_iff in A2.
      split; [apply Nat.eqb_neq; exact A1|]. intros Hr. apply rests_in in Hr.
      assert (existsb (Nat.eqb n) (restsb b n') = true) by (apply existsb_exists; exists n; rewrite Nat.eqb_refl; auto).
      congruence.
    + assert (x = (k0, t0, n0) /\ u = before ++ (k, t, n) :: after) as (-> & Eu) by (split; congruence).
      apply (IH (pre ++ [(k0, t0, n0)]) B before k t n after Eu Hc k' t' n').
      rewrite <- app_assoc. exact Hin.
Qed.
Definition allowedb (b : book) (c : contract) (args : list (list nat)) : bool :=
  let u := uses (cgiven c) args in
  well_shapedb (cgiven c) args &&
  forallb (fun x => match x with (k, t, n) =>
             typedb b n k && (terms_free t || usableb b n) && (negb (consumes t) || heldb b n) end) u &&
  clearb b [] u.
Lemma allowedb_ok b c args : allowedb b c args = true -> allowed b c args.
Proof.
  unfold allowedb. rewrite !andb_true_iff. intros ((A & B) & C).
  split; [apply well_shapedb_ok; exact A|]. split.
  - intros k t n Hin. rewrite forallb_forall in B. specialize (B _ Hin). cbn in B.
    rewrite !andb_true_iff in B. destruct B as ((B1 & B2) & B3).
    split; [apply typedb_typed; exact B1|]. split.
    + intros Hf. apply usableb_usable. destruct t; cbn in B2; congruence || exact B2.
    + intros Hc. apply heldb_held. rewrite Hc in B3. exact B3.
  - intros before k t n after E Hc k' t' n' Hin. exact (clearb_ok b _ [] C before k t n after E Hc k' t' n' Hin).
Qed.
Fixpoint rulesb (cs : list contract) (b : book) (l : list (name * list (list nat) * bool)) : option book :=
  match l with
  | [] => Some b
  | (name, args, r) :: t =>
      match find_contract cs name with
      | Some c => if allowedb b c args then rulesb cs (book_after b c args r) t else None
      | None => None
      end
  end.
Lemma rulesb_ok cs : forall l b b', rulesb cs b l = Some b' -> by_the_rules cs b l b'.
Proof.
  induction l as [|[[name args] r] t IH]; intros b b' H; cbn in H.
  - assert (b = b') by congruence. subst. constructor.
  - destruct (find_contract cs name) as [c|] eqn:E; [|discriminate].
    destruct (allowedb b c args) eqn:A; [|discriminate].
    econstructor; [exact E|apply allowedb_ok; exact A|apply IH; exact H].
Qed.
Definition nothing_heldb (b : book) : bool := forallb (fun n => negb (heldb b n)) (seq 0 (length b)).
Lemma nothing_heldb_ok b : nothing_heldb b = true -> nothing_held b.
Proof.
  unfold nothing_heldb. rewrite forallb_forall. intros H n Hn.
  assert (n < length b) as L.
  { destruct Hn as (c & s & k & E & _). apply nth_error_Some. congruence. }
  apply heldb_held in Hn. specialize (H n). rewrite in_seq in H.
  assert (negb (heldb b n) = true) by (apply H; lia). rewrite Hn in *. discriminate.
Qed.

(** ** A library against a set of contracts *)
Definition linked_in (fs : list func) (n : name) : bool :=
  match lookup fs n with Some _ => true | None => false end.
Definition honoured_in (fs : list func) (c : contract) : bool :=
  match lookup fs (cname c) with Some f => honours f c | None => false end.
Definition mem (s : name) (l : list name) : bool := existsb (Pos.eqb s) l.
Definition exact_list (fs : list func) (cs : list contract) (excluded : list name) : bool :=
  forallb (fun c => negb (linked_in fs (cname c)) ||
                    Bool.eqb (honoured_in fs c) (negb (mem (cname c) excluded))) cs.
Lemma mem_in s l : mem s l = true <-> In s l.
Proof.
  unfold mem. rewrite existsb_exists. split.
  - intros (x & H & E). apply Pos.eqb_eq in E. subst. exact H.
  - intros H. exists s. split; [exact H|apply Pos.eqb_refl].
Qed.
Lemma find_contract_in cs n c : find_contract cs n = Some c -> In c cs /\ cname c = n.
Proof. intros H. apply find_some in H. destruct H as (A & B). apply Pos.eqb_eq in B. auto. Qed.
Lemma safe_by fs cs excluded : exact_list fs cs excluded = true ->
  forall l b es,
  by_the_rules cs [] l b ->
  (forall f args r, In (f, args, r) l -> (exists g, lookup fs f = Some g) /\ ~ In f excluded) ->
  Forall2 plays l es ->
  exists h answers, run fs [] es = Ok (h, answers) /\
    map abs_object h = b /\ (nothing_held b -> allocated h = []).
Proof.
  unfold exact_list. intros Hex l b es B Hok F.
  destruct (run_ok fs cs [] l b B) with (h := @nil object) (es := es) as (h & a & Hr & Ha).
  - intros f args r c Hin Hc. destruct (Hok _ _ _ Hin) as ((g & Hl) & Hn).
    apply find_contract_in in Hc. destruct Hc as (Hc & <-).
    rewrite forallb_forall in Hex. specialize (Hex c Hc).
    unfold linked_in, honoured_in in Hex. rewrite Hl in *. cbn [negb orb] in Hex.
    apply Bool.eqb_prop in Hex. exists g. split; [reflexivity|]. rewrite Hex. apply negb_true_iff.
    destruct (mem (cname c) excluded) eqn:E; [|reflexivity]. apply mem_in in E. contradiction.
  - reflexivity.
  - exact F.
  - exists h, a. split; [exact Hr|]. split; [exact Ha|].
    intros N. apply nothing_allocated. unfold abs. unfold abs in Ha. rewrite Ha. exact N.
Qed.

(** ** Checking a history against the hypotheses of [safe_by] *)
Definition history := list (name * list (list nat) * bool).
Definition ok (n : name) (args : list (list nat)) : name * list (list nat) * bool := (n, args, true).
Definition played (l : history) : list event :=
  map (fun x : name * list (list nat) * bool => match x with (n, a, r) =>
         {| ecall := n; eargs := given_args a; eending := if (r : bool) then Returned else Failed |} end) l.
Lemma played_plays l : Forall2 plays l (played l).
Proof.
  induction l as [|[[n a] r] l IH]; cbn; constructor; auto.
  cbn. repeat split. destruct r; reflexivity.
Qed.
Definition case_check (fs : list func) (cs : list contract) (excluded : list name) (l : history) : bool :=
  match rulesb cs [] l with
  | None => false
  | Some b => nothing_heldb b &&
              forallb (fun y : name * list (list nat) * bool =>
                         linked_in fs (fst (fst y)) && negb (mem (fst (fst y)) excluded)) l
  end.
Lemma case_ok fs cs excluded l : case_check fs cs excluded l = true ->
  exists b, by_the_rules cs [] l b /\ nothing_held b /\ Forall2 plays l (played l) /\
    forall f args r, In (f, args, r) l -> (exists g, lookup fs f = Some g) /\ ~ In f excluded.
Proof.
  unfold case_check. destruct (rulesb cs [] l) as [b|] eqn:E; [|discriminate].
  intros H. apply andb_true_iff in H. destruct H as (A & B).
  exists b. split; [apply rulesb_ok; exact E|]. split; [apply nothing_heldb_ok; exact A|].
  split; [apply played_plays|].
  rewrite forallb_forall in B. intros f args r Hin. specialize (B _ Hin). cbn [fst] in B.
  apply andb_true_iff in B. destruct B as (B1 & B2). split.
  - unfold linked_in in B1. destruct (lookup fs f) as [g|]; [eauto|discriminate].
  - intros M. apply mem_in in M. rewrite M in B2. discriminate.
Qed.
Definition wrong_check (fs : list func) (cs : list contract) (special : list name) (x : name * history) : bool :=
  match x with
  | (f, l) =>
      match rulesb cs [] l with
      | None => false
      | Some b =>
          existsb (fun y => Pos.eqb (fst (fst y)) f) l &&
          forallb (fun y => match y with (g, args, _) =>
                     negb (mem g special) || Pos.eqb g f ||
                     match args with [[]] => true | _ => false end end) l &&
          match run fs [] (played l) with
          | UB => true
          | Ok (h, _) => nothing_heldb b && match allocated h with [] => false | _ => true end
          | _ => false
          end
      end
  end.
Lemma wrong_ok fs cs special f l : wrong_check fs cs special (f, l) = true ->
  exists b, by_the_rules cs [] l b /\
    (exists args r, In (f, args, r) l) /\
    (forall g args r, In (g, args, r) l -> In g special -> g = f \/ args = [[]]) /\
    (run fs [] (played l) = UB \/
     (nothing_held b /\ exists h a, run fs [] (played l) = Ok (h, a) /\ allocated h <> [])).
Proof.
  unfold wrong_check. destruct (rulesb cs [] l) as [b|] eqn:R; [|discriminate].
  rewrite !andb_true_iff. intros ((A & B) & C).
  exists b. split; [apply rulesb_ok; exact R|]. split; [|split].
  - apply existsb_exists in A. destruct A as ([[g args] r] & Hg & E). cbn in E.
    apply Pos.eqb_eq in E. subst. eauto.
  - intros g args r Hg Hm. rewrite forallb_forall in B. specialize (B _ Hg). cbv beta iota in B.
    apply mem_in in Hm. rewrite Hm in B. cbn [negb orb] in B.
    apply orb_true_iff in B. destruct B as [B|B]; [left; apply Pos.eqb_eq; exact B|].
    right. destruct args as [|[|? ?] [|? ?]]; discriminate || reflexivity.
  - destruct (run fs [] (played l)) as [[h a]|e|]; [|discriminate|left; reflexivity].
    right. apply andb_true_iff in C. destruct C as (C1 & C2). split; [apply nothing_heldb_ok; exact C1|].
    exists h, a. split; [reflexivity|]. intros E. rewrite E in C2. discriminate.
Qed.
Lemma wrongs_ok fs cs special skip (table : list (name * history)) :
  forallb (wrong_check fs cs special) table = true ->
  forallb (fun f => Pos.eqb f skip || existsb (fun x => Pos.eqb (fst x) f) table) special = true ->
  forall f, In f special -> f <> skip ->
  exists l b, by_the_rules cs [] l b /\
    (exists args r, In (f, args, r) l) /\
    (forall g args r, In (g, args, r) l -> In g special -> g = f \/ args = [[]]) /\
    (run fs [] (played l) = UB \/
     (nothing_held b /\ exists h a, run fs [] (played l) = Ok (h, a) /\ allocated h <> [])).
Proof.
  intros H1 H2 f Hf Hd. rewrite forallb_forall in H1, H2. specialize (H2 f Hf).
  apply orb_true_iff in H2. destruct H2 as [H2|H2]; [apply Pos.eqb_eq in H2; contradiction|].
  apply existsb_exists in H2. destruct H2 as ([f' l] & Hin & E). cbn in E. apply Pos.eqb_eq in E. subst f'.
  exists l. eapply wrong_ok. apply H1. exact Hin.
Qed.
Definition ub_check (fs : list func) (cs : list contract) (l : history) : bool :=
  match rulesb cs [] l with
  | None => false
  | Some _ => match run fs [] (played l) with UB => true | _ => false end
  end.
Lemma ub_ok fs cs l : ub_check fs cs l = true ->
  exists b, by_the_rules cs [] l b /\ run fs [] (played l) = UB.
Proof.
  unfold ub_check. destruct (rulesb cs [] l) as [b|] eqn:R; [|discriminate].
  destruct (run fs [] (played l)); try discriminate. intros _.
  exists b. split; [apply rulesb_ok; exact R|reflexivity].
Qed.
(** Null in the only parameter of a function that frees. *)
Definition frees_check (f : func) : bool :=
  forallb (fun p => match peffect p with Delete => pnull p | _ => true end) (fparams f) &&
  (negb (existsb (fun p => match peffect p with Delete => true | _ => false end) (fparams f))
   || match fparams f with [p] => negb (parray p) | _ => false end).
Lemma free_null_ok fs : forallb frees_check fs = true ->
  forall f p h e, In f fs -> In p (fparams f) -> peffect p = Delete -> call h f [[None]] e = Ok (h, Error).
Proof.
  intros T f p h e Hf Hp He. rewrite forallb_forall in T.
  specialize (T f Hf). apply andb_true_iff in T. destruct T as (A & B).
  rewrite forallb_forall in A. pose proof (A p Hp) as Ap. cbv beta in Ap. rewrite He in Ap.
  assert (existsb (fun p => match peffect p with Delete => true | _ => false end) (fparams f) = true) as X.
  { apply existsb_exists. exists p. rewrite He. auto. }
  rewrite X in B. cbn [negb orb] in B.
  destruct (fparams f) as [|q [|q' t]] eqn:E; try discriminate.
  destruct Hp as [->|[]]. unfold call. rewrite E. cbn. rewrite Ap. rewrite orb_true_r. reflexivity.
Qed.

Lemma cast_ok : forall h n c base o, nth_error h n = Some o -> oclass o = c ->
  ohome o = Allocated Intact [] ->
  forall p, peffect p = Use -> pcast p = base ->
  (touch h (p, Some n) = Ok h /\ (c = base \/ (c = SubmittedBallot /\ base = CiphertextBallot) \/
      (c = ContestDescriptionWithPlaceholders /\ base = ContestDescription))) \/
  (touch h (p, Some n) = UB /\ c <> base /\ ~ (c = SubmittedBallot /\ base = CiphertextBallot) /\
      ~ (c = ContestDescriptionWithPlaceholders /\ base = ContestDescription)).
Proof.
  intros h n c base o N C O p E P. cbn. rewrite E, P. unfold access, owner_of, references, intact.
  rewrite N. destruct o as [c' ho]. cbn in C, O. subst c' ho. cbn. rewrite N, andb_true_r.
  destruct (derives c base) eqn:D.
  - left. split; [reflexivity|]. unfold derives in D. apply orb_true_iff in D. destruct D as [D|D].
    + left. apply internal_class_dec_bl. exact D.
    + right. destruct c; try discriminate; destruct base; discriminate || auto.
  - right. split; [reflexivity|]. unfold derives in D. apply orb_false_iff in D. destruct D as (D1 & D2).
    repeat split.
    + intros ->. rewrite (internal_class_dec_lb base base eq_refl) in D1. discriminate.
    + intros (-> & ->). discriminate.
    + intros (-> & ->). discriminate.
Qed.
