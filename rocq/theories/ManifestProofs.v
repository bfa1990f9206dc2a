(** Proofs about manifest validation, ballot styles and placeholders. *)
From Coq Require Import String Permutation Sorting.Sorted.
From Verif Require Import Base GroupModel CodecModel HashModel HashProofs SortModel SortProofs
  ManifestModel ManifestSpec.
Open Scope string_scope.
Open Scope list_scope.
Open Scope Z_scope.
Ltac Zify.zify_post_hook ::= idtac.

Lemma bytes_eqb_eq a b : bytes_eqb a b = true <-> a = b.
Proof. unfold bytes_eqb. destruct (list_eq_dec Z.eq_dec a b); split; auto; discriminate. Qed.
Lemma bytes_eqb_refl a : bytes_eqb a a = true.
Proof. now apply bytes_eqb_eq. Qed.
Lemma bytes_eqb_neq a b : bytes_eqb a b = false <-> a <> b.
Proof. unfold bytes_eqb. destruct (list_eq_dec Z.eq_dec a b); split; congruence. Qed.

(** ** Sets *)
Section Sets.
Context {A : Type} (eqb : A -> A -> bool) (eqb_eq : forall a b, eqb a b = true <-> a = b).

Lemma mem_In s x : existsb (eqb x) s = true <-> In x s.
Proof.
  rewrite existsb_exists. split.
  - intros (y & Hy & E). apply eqb_eq in E. now subst.
  - intros H. exists x. split; [assumption|]. now apply eqb_eq.
Qed.
Lemma mem_nIn s x : existsb (eqb x) s = false <-> ~ In x s.
Proof.
  rewrite <- mem_In. destruct (existsb (eqb x) s); split; congruence.
Qed.

Lemma set_fold_In l s x : In x (fold_left (set_insert eqb) l s) <-> In x s \/ In x l.
Proof.
  revert s. induction l as [|y l IH]; intros s; cbn [fold_left In]; [tauto|].
  rewrite IH. unfold set_insert. destruct (existsb (eqb y) s) eqn:E.
  - apply mem_In in E. split; [tauto|]. intros [H|[->|H]]; tauto.
  - cbn [In]. tauto.
Qed.
Lemma set_fold_len l s :
  (length (fold_left (set_insert eqb) l s) <= length s + length l)%nat /\
  (length (fold_left (set_insert eqb) l s) = (length s + length l)%nat
   <-> NoDup l /\ forall x, In x l -> ~ In x s).
Proof.
  revert s. induction l as [|y l IH]; intros s; cbn [fold_left length].
  - split; [lia|]. split; [|lia]. intros _. split; [constructor|]. intros x [].
  - destruct (IH (set_insert eqb s y)) as [L E]. unfold set_insert in L, E |- *.
    destruct (existsb (eqb y) s) eqn:M.
    + apply mem_In in M. split; [lia|]. split; [lia|].
      intros [ND D]. exfalso. apply (D y); [now left|assumption].
    + apply mem_nIn in M. cbn [length] in L, E. split; [lia|].
      assert (E' : length (fold_left (set_insert eqb) l (y :: s)) = (length s + S (length l))%nat
                   <-> length (fold_left (set_insert eqb) l (y :: s)) = (S (length s) + length l)%nat) by lia.
      rewrite E', E. split.
      * intros [ND D]. split.
        -- constructor; [|assumption]. intros H. apply (D y H). now left.
        -- intros x [<-|Hx]; [assumption|]. intros Hs. apply (D x Hx). now right.
      * intros [ND D]. inversion ND as [|? ? N1 N2]; subst. split; [assumption|].
        intros x Hx [<-|Hs]; [contradiction|]. apply (D x); [now right|assumption].
Qed.
End Sets.


Lemma seq_set_size l : length (seq_set l) = length l <-> NoDup l.
Proof.
  unfold seq_set. destruct (set_fold_len Z.eqb Z.eqb_eq l []) as [_ H]. cbn [length Nat.add] in H.
  rewrite H. split; [tauto|]. intros N. split; [assumption|]. intros x _ [].
Qed.

Lemma id_fold l s : fold_left set_insert_id l s
  = fold_left (set_insert bytes_eqb) (filter (fun x => negb (bytes_eqb x [])) l) s.
Proof.
  revert s. induction l as [|x l IH]; intros s; cbn [fold_left filter]; [reflexivity|].
  rewrite IH. destruct x as [|a x]; cbn; reflexivity.
Qed.
Lemma filter_len {A} (f : A -> bool) l : (length (filter f l) <= length l)%nat.
Proof. induction l as [|x l IH]; cbn; [lia|]. destruct (f x); cbn; lia. Qed.
Lemma filter_len_eq {A} (f : A -> bool) l : length (filter f l) = length l -> forall x, In x l -> f x = true.
Proof.
  induction l as [|x l IH]; cbn; intros H; [tauto|].
  pose proof (filter_len f l). destruct (f x) eqn:E; cbn in H; [|lia].
  intros y [<-|Hy]; [assumption|]. apply IH; [lia|assumption].
Qed.
Lemma filter_all {A} (f : A -> bool) l : (forall x, In x l -> f x = true) -> filter f l = l.
Proof.
  induction l as [|x l IH]; cbn; intros H; [reflexivity|].
  rewrite (H x) by now left. f_equal. apply IH. intros y Hy. apply H. now right.
Qed.

Lemma id_fold_size l s :
  length (fold_left set_insert_id l s) = (length s + length l)%nat
  <-> good_ids l /\ forall x, In x l -> ~ In x s.
Proof.
  rewrite id_fold. set (f := fun x => negb (bytes_eqb x [])).
  destruct (set_fold_len bytes_eqb bytes_eqb_eq (filter f l) s) as [L E].
  pose proof (filter_len f l) as FL.
  assert (Hf : forall x, f x = true <-> x <> []).
  { intros x. unfold f. rewrite negb_true_iff. apply bytes_eqb_neq. }
  split.
  - intros H. assert (HF : length (filter f l) = length l) by lia.
    pose proof (filter_all f l (filter_len_eq f l HF)) as FA. rewrite FA in *.
    apply E in H. destruct H as [ND D]. split; [|assumption]. split; [assumption|].
    intros Hn. apply (filter_len_eq f l) in Hn; [|now rewrite FA]. now apply Hf in Hn.
  - intros [[ND NE] D]. assert (FA : filter f l = l).
    { apply filter_all. intros x Hx. apply Hf. intros ->. contradiction. }
    rewrite FA in *. apply E. split; assumption.
Qed.
Lemma id_set_size l : length (id_set l) = length l <-> good_ids l.
Proof.
  unfold id_set. pose proof (id_fold_size l []) as H. cbn [length Nat.add] in H. rewrite H.
  split; [tauto|]. intros G. split; [assumption|]. intros x _ [].
Qed.
Lemma id_fold_mem l s x : In x (fold_left set_insert_id l s) <-> In x s \/ (In x l /\ x <> []).
Proof.
  rewrite id_fold, (set_fold_In bytes_eqb bytes_eqb_eq), filter_In, negb_true_iff, bytes_eqb_neq.
  tauto.
Qed.
Lemma id_set_mem l x : set_mem bytes_eqb (id_set l) x = true <-> In x l /\ x <> [].
Proof.
  unfold set_mem. rewrite (mem_In bytes_eqb bytes_eqb_eq). unfold id_set. rewrite id_fold_mem.
  cbn [In]. tauto.
Qed.

Lemma size_eq_true {A B} (s : list A) (l : list B) : size_eq s l = true <-> length s = length l.
Proof. unfold size_eq. apply Nat.eqb_eq. Qed.

Lemma good_ids_perm l l' : Permutation l l' -> good_ids l -> good_ids l'.
Proof.
  intros P [N E]. split; [eapply Permutation_NoDup; eassumption|].
  intros H. apply E. eapply Permutation_in; [symmetry; exact P|exact H].
Qed.

Lemma sized_ids {A B} (f : A -> bytes) (key : A -> Z) (l : list A) (l' : list B) :
  length l = length l' ->
  size_eq (id_set (map f (sort_by key l))) l' = true <-> good_ids (map f l).
Proof.
  intros L. rewrite size_eq_true, <- L.
  replace (length l) with (length (map f (sort_by key l))) by now rewrite map_length, sort_length.
  rewrite id_set_size. split; apply good_ids_perm, Permutation_map;
    [symmetry|]; apply sort_perm.
Qed.
Lemma sized_seqs {A} (key : A -> Z) (l : list A) :
  size_eq (seq_set (map key (sort_by key l))) l = true <-> NoDup (map key l).
Proof.
  rewrite size_eq_true.
  replace (length l) with (length (map key (sort_by key l))) by now rewrite map_length, sort_length.
  rewrite seq_set_size. split; apply Permutation_NoDup, Permutation_map; [symmetry|]; apply sort_perm.
Qed.

(** ** ContestDescription::isValid *)
Lemma contest_valid_wf c : contest_valid c = true <-> wf_contest c.
Proof.
  unfold contest_valid, get_selections.
  rewrite !andb_true_iff, !sized_ids, sized_seqs, Z.leb_le, orb_true_iff, Z.eqb_eq, Z.leb_le
    by reflexivity.
  split.
  - intros [[[[H1 H2] H3] H4] H5]. constructor; try assumption. intros N. destruct H2; [contradiction|assumption].
  - intros [H1 H2 H3 H4 H5]. repeat split; try assumption; try (apply H3); try (apply H4).
    destruct (Z.eq_dec (cd_allowed c) 0); [left; assumption|right; auto].
Qed.

(** ** Ballot styles *)
Lemma units_fold units us ok :
  fold_left (fun b u => b && set_mem bytes_eqb units u) us ok
  = ok && forallb (set_mem bytes_eqb units) us.
Proof.
  revert ok. induction us as [|u us IH]; intros ok; cbn; [now rewrite andb_true_r|].
  rewrite IH, andb_assoc. reflexivity.
Qed.
Lemma styles_loop_ok units l ids ok :
  snd (styles_loop units l ids ok) = true <->
  ok = true /\ forall s, In s l -> bs_units s <> [] /\
    forall u, In u (bs_units s) -> set_mem bytes_eqb units u = true.
Proof.
  revert ids ok. induction l as [|s l IH]; intros ids ok; cbn [styles_loop].
  - cbn. split; [intros ->; split; [reflexivity|intros ? []]|tauto].
  - destruct (bs_units s) as [|u us] eqn:Eu.
    + cbn. split; [discriminate|]. intros [_ H]. destruct (H s (or_introl eq_refl)) as [H1 _].
      now rewrite Eu in H1.
    + rewrite IH, units_fold, andb_true_iff, forallb_forall, <- Eu. split.
      * intros [[-> H1] H2]. split; [reflexivity|]. intros s' [<-|Hs].
        -- split; [rewrite Eu; discriminate|exact H1].
        -- now apply H2.
      * intros [-> H]. split.
        -- split; [reflexivity|]. apply (H s). now left.
        -- intros s' Hs. apply H. now right.
Qed.
Lemma styles_loop_ids units l ids ok :
  snd (styles_loop units l ids ok) = true ->
  fst (styles_loop units l ids ok) = fold_left set_insert_id (map bs_id l) ids.
Proof.
  revert ids ok. induction l as [|s l IH]; intros ids ok; cbn [styles_loop map fold_left]; [reflexivity|].
  destruct (bs_units s) as [|u us]; [discriminate|]. apply IH.
Qed.

(** ** Manifest::isValid *)
Lemma manifest_valid_wf m : manifest_valid m = true <-> wf_manifest m.
Proof.
  unfold manifest_valid, get_contests.
  set (units := id_set (map gu_id (mf_units m))).
  pose proof (styles_loop_ok units (mf_styles m) [] true) as SO.
  pose proof (styles_loop_ids units (mf_styles m) [] true) as SI.
  destruct (styles_loop units (mf_styles m) [] true) as [sids sok]. cbn [fst snd] in SO, SI.
  rewrite !andb_true_iff, !forallb_forall.
  rewrite (sized_ids cd_id cd_seq (mf_contests m) (mf_contests m) eq_refl), sized_seqs.
  rewrite !size_eq_true.
  replace (length (mf_units m)) with (length (map gu_id (mf_units m))) by apply map_length.
  replace (length (mf_parties m)) with (length (map pa_id (mf_parties m))) by apply map_length.
  replace (length (mf_candidates m)) with (length (map ca_id (mf_candidates m))) by apply map_length.
  unfold units at 1. rewrite !id_set_size.
  assert (SS : sok = true -> (length sids = length (mf_styles m) <-> good_ids (map bs_id (mf_styles m)))).
  { intros T. specialize (SI T). rewrite SI.
    replace (length (mf_styles m)) with (length (map bs_id (mf_styles m))) by apply map_length.
    apply id_set_size. }
  assert (SU : forall u, set_mem bytes_eqb units u = true <-> In u (map gu_id (mf_units m)) /\ u <> [])
    by (intros; apply id_set_mem).
  split.
  - intros [[[[H1 [H2 H3]] H4] [H5 H6]] [[[H7 H8] H9] H10]].
    constructor; try assumption.
    + apply SS; assumption.
    + intros s Hs. apply SO in H3. destruct H3 as [_ H3]. destruct (H3 s Hs) as [N U].
      split; [assumption|]. intros u Hu. apply U in Hu. now apply SU in Hu.
    + intros c Hc. specialize (H6 c Hc). destruct (ca_party c) as [|a p] eqn:Ep; [now left|right].
      now apply id_set_mem in H6.
    + intros c Hc. apply contest_valid_wf, H9, sort_in, Hc.
    + intros c Hc. specialize (H10 c (proj2 (sort_in cd_seq c _) Hc)).
      destruct (cd_district c) as [|a p] eqn:Ed; [discriminate|]. now apply SU in H10.
  - intros W. destruct W as [W1 W2 W3 W4 W5 W6 W7 W8 W9 W10].
    assert (Hok : sok = true).
    { apply SO. split; [reflexivity|]. intros s Hs. destruct (W3 s Hs) as [N U].
      split; [assumption|]. intros u Hu. apply SU. split; [auto|].
      intros ->. destruct W1 as [_ NE]. apply NE. auto. }
    assert (NE : ~ In [] (map gu_id (mf_units m))) by apply W1.
    split; [split; [split; [split|]|]|].
    + assumption.
    + split; [apply SS; assumption|assumption].
    + assumption.
    + split; [assumption|]. intros c Hc. destruct (ca_party c) as [|a p] eqn:Ep; [reflexivity|].
      destruct (W6 c Hc) as [E|E]; [congruence|]. apply id_set_mem. rewrite Ep in E. split; [assumption|discriminate].
    + split; [split; [split|]|]; try assumption.
      * intros c Hc. apply contest_valid_wf, W9. now apply sort_in in Hc.
      * intros c Hc. apply sort_in in Hc. specialize (W10 c Hc).
        destruct (cd_district c) as [|a p] eqn:Ed; [contradiction|]. apply SU. split; [assumption|discriminate].
Qed.

(** ** getContestsFor *)
Lemma find_some_spec {A} (f : A -> bool) l x : find f l = Some x -> In x l /\ f x = true.
Proof. apply find_some. Qed.

Lemma in_units_flat c us x :
  In x (flat_map (fun u => if bytes_eqb (cd_district (cw_base c)) u then [c] else []) us)
  <-> x = c /\ In (cd_district (cw_base c)) us.
Proof.
  rewrite in_flat_map. split.
  - intros (u & Hu & H). destruct (bytes_eqb _ u) eqn:E; [|destruct H].
    apply bytes_eqb_eq in E. subst u. destruct H as [<-|[]]. auto.
  - intros [-> H]. exists (cd_district (cw_base c)). split; [assumption|].
    rewrite bytes_eqb_refl. now left.
Qed.

Lemma contests_for_in m id l :
  contests_for m id = Ok l ->
  exists s, get_style m id = Some s /\ bs_units s <> [] /\
  ascending cw_seq l /\
  forall c, In c l <-> In c (im_contests m) /\ In (cd_district (cw_base c)) (bs_units s).
Proof.
  unfold contests_for. destruct (get_style m id) as [s|]; [|discriminate].
  destruct (bs_units s) as [|u us] eqn:Eu; [discriminate|]. rewrite <- Eu.
  intros E. injection E as <-. exists s. split; [reflexivity|]. split; [rewrite Eu; discriminate|].
  split; [apply sort_sorted|]. intros c. rewrite sort_in, in_flat_map. split.
  - intros (c' & Hc & H). apply in_units_flat in H. destruct H as [-> H]. auto.
  - intros [H1 H2]. exists c. split; [assumption|]. apply in_units_flat. auto.
Qed.

Lemma flat_once c us : NoDup us ->
  flat_map (fun u => if bytes_eqb (cd_district (cw_base c)) u then [c] else []) us
  = if existsb (bytes_eqb (cd_district (cw_base c))) us then [c] else [].
Proof.
  induction 1 as [|u us N ND IH]; cbn; [reflexivity|].
  destruct (bytes_eqb (cd_district (cw_base c)) u) eqn:E; cbn; [|assumption].
  rewrite IH. apply bytes_eqb_eq in E. subst u.
  apply (mem_nIn bytes_eqb bytes_eqb_eq) in N. now rewrite N.
Qed.
Lemma contests_for_filter m id s :
  get_style m id = Some s -> bs_units s <> [] -> NoDup (bs_units s) ->
  contests_for m id
  = Ok (sort_by cw_seq (filter (fun c => existsb (bytes_eqb (cd_district (cw_base c))) (bs_units s))
                               (im_contests m))).
Proof.
  intros E N ND. unfold contests_for. rewrite E.
  destruct (bs_units s) as [|u us] eqn:Eu; [contradiction|]. rewrite <- Eu in *.
  f_equal. f_equal. induction (im_contests m) as [|c l IH]; [reflexivity|].
  cbn [flat_map filter]. rewrite IH, flat_once by assumption.
  destruct (existsb _ (bs_units s)); reflexivity.
Qed.

Lemma contests_for_nodup m id l s :
  contests_for m id = Ok l -> get_style m id = Some s -> NoDup (bs_units s) ->
  NoDup (map cw_seq (im_contests m)) -> NoDup l.
Proof.
  intros E Es ND NC.
  assert (N : bs_units s <> []).
  { destruct (contests_for_in m id l E) as (s' & Es' & H & _). congruence. }
  rewrite (contests_for_filter m id s Es N ND) in E. injection E as <-.
  eapply Permutation_NoDup; [apply sort_perm|]. apply NoDup_filter.
  eapply NoDup_map_inv; exact NC.
Qed.

(** ** Placeholders *)
Lemma placeholders_length c : 0 <= cd_elected c ->
  Z.of_nat (length (placeholders_of c)) = cd_elected c.
Proof. intros H. unfold placeholders_of. rewrite map_length, seq_length. lia. Qed.

Lemma max_seq_fold l mx : 0 <= mx < 2 ^ 32 - 1 -> (forall s, In s l -> 0 <= sd_seq s < 2 ^ 32 - 1) ->
  let r := fold_left max_seq_step l mx in
  0 <= r < 2 ^ 32 - 1 /\ mx <= r /\ forall s, In s l -> sd_seq s <= r.
Proof.
  change (2 ^ 32) with 4294967296. revert mx. induction l as [|s l IH]; intros mx Hm Hl; cbn [fold_left].
  - cbv zeta. split; [lia|]. split; [lia|]. intros s [].
  - assert (Hs := Hl s (or_introl eq_refl)).
    assert (Hstep : max_seq_step mx s = Z.max mx (sd_seq s)).
    { unfold max_seq_step. destruct (mx <? sd_seq s) eqn:E; [|lia].
      change (2 ^ 32) with 4294967296. rewrite Z.mod_small by lia. lia. }
    rewrite Hstep. destruct (IH (Z.max mx (sd_seq s))) as (H1 & H2 & H3); [lia| |].
    { intros x Hx. apply Hl. now right. }
    cbv zeta. split; [assumption|]. split; [lia|]. intros x [<-|Hx]; [lia|auto].
Qed.
Lemma max_seq_spec c : (forall s, In s (cd_selections c) -> 0 <= sd_seq s < 2 ^ 32 - 1) ->
  0 <= max_seq c < 2 ^ 32 - 1 /\ forall s, In s (cd_selections c) -> sd_seq s <= max_seq c.
Proof.
  intros H. unfold max_seq, get_selections.
  destruct (max_seq_fold (sort_by sd_seq (cd_selections c)) 0) as (H1 & _ & H2).
  - split; [lia|reflexivity].
  - intros s Hs. apply H. now apply sort_in in Hs.
  - split; [assumption|]. intros s Hs. apply H2. now apply sort_in.
Qed.

Lemma NoDup_map_inj {A B} (f : A -> B) l :
  (forall x y, In x l -> In y l -> f x = f y -> x = y) -> NoDup l -> NoDup (map f l).
Proof.
  intros I N. induction N as [|x l Nx N IH]; cbn; [constructor|]. constructor.
  - rewrite in_map_iff. intros (y & E & Hy). apply Nx.
    replace x with y; [assumption|]. apply I; [now right|now left|assumption].
  - apply IH. intros a b Ha Hb. apply I; now right.
Qed.

(** Sequence orders of the placeholders when no sequence order of the contest
    exceeds 2^32 - 2. *)
Lemma placeholder_seqs c :
  (forall s, In s (cd_selections c) -> 0 <= sd_seq s < 2 ^ 32 - 1) ->
  0 <= cd_elected c < 2 ^ 63 ->
  map sd_seq (placeholders_of c)
  = map (fun i => max_seq c + 1 + Z.of_nat i) (seq 0 (Z.to_nat (cd_elected c))).
Proof.
  intros H E. destruct (max_seq_spec c H) as [B _]. unfold placeholders_of. rewrite map_map.
  apply map_ext_in. intros i Hi. apply in_seq in Hi. cbn [placeholder_for sd_seq].
  unfold first_placeholder_seq. assert (HW : W64 = 2 ^ 64) by reflexivity. rewrite HW.
  change (2 ^ 32) with 4294967296 in *. change (2 ^ 63) with 9223372036854775808 in *.
  change (2 ^ 64) with 18446744073709551616.
  rewrite (Z.mod_small (max_seq c + 1)) by lia. rewrite Z.mod_small by lia. lia.
Qed.

Lemma placeholder_id_inj c a b : 0 <= a < W64 -> 0 <= b < W64 ->
  sd_id (placeholder_for c a) = sd_id (placeholder_for c b) -> a = b.
Proof.
  intros Ha Hb. cbn [placeholder_for sd_id]. intros E.
  apply app_inv_tail in E. apply app_inv_head in E. apply app_inv_head in E.
  now apply to_string_u64_inj.
Qed.
