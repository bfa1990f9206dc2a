(** Properties C44-C47 and C59: the election manifest. *)
From Coq Require Import Permutation Psatz String Sorted.
From Verif Require Import Base GroupModel GroupSpec GroupProofs CodecModel HashModel HashProofs
  SortModel SortProofs ManifestModel ManifestSpec ManifestProofs ManifestCommit HashedProofs TestParams.
Open Scope string_scope.
Open Scope list_scope.
Open Scope Z_scope.
Ltac Zify.zify_post_hook ::= idtac.
Notation tp := test_params.

(** ** A sample manifest *)
Definition iso_sample (t : Z) : bytes := to_string_u64 t.
Definition txt (s : string) : intl_text := [{| la_value := s2b s; la_language := s2b "en" |}].
Definition sel (i c : string) (n : Z) : selection := {| sd_id := s2b i; sd_candidate := s2b c; sd_seq := n |}.
Definition unit_of (i : string) : gp_unit :=
  {| gu_id := s2b i; gu_name := s2b "unit"; gu_type := RU_county; gu_contact := None |}.
Definition contest1 : contest :=
  {| cd_id := s2b "mayor"; cd_district := s2b "u1"; cd_seq := 2; cd_variation := VV_one_of_m;
     cd_elected := 1; cd_allowed := 1; cd_name := s2b "Mayor"; cd_title := Some (txt "Mayor");
     cd_subtitle := Some (txt "Town"); cd_selections := [sel "s-b" "bob" 4; sel "s-a" "ann" 3];
     cd_primary := [] |}.
Definition contest2 : contest :=
  {| cd_id := s2b "board"; cd_district := s2b "u2"; cd_seq := 1; cd_variation := VV_n_of_m;
     cd_elected := 2; cd_allowed := 2; cd_name := s2b "Board"; cd_title := None;
     cd_subtitle := None; cd_selections := [sel "s-x" "xia" 1; sel "s-y" "yan" 2; sel "s-z" "zed" 3];
     cd_primary := [] |}.
Definition cand (i : string) : candidate :=
  {| ca_id := s2b i; ca_name := Some (txt i); ca_party := []; ca_image := []; ca_writein := false |}.
Definition style_of (i : string) (us : list string) : ballot_style :=
  {| bs_id := s2b i; bs_units := map s2b us; bs_parties := []; bs_image := [] |}.
Definition sample : manifest :=
  {| mf_scope := s2b "town"; mf_type := ET_general; mf_start := 1600000000000000000;
     mf_end := 1600086400000000000; mf_units := [unit_of "u1"; unit_of "u2"]; mf_parties := [];
     mf_candidates := [cand "ann"; cand "bob"; cand "xia"; cand "yan"; cand "zed"];
     mf_contests := [contest1; contest2];
     mf_styles := [style_of "full" ["u2"; "u1"]; style_of "part" ["u1"]];
     mf_name := None; mf_contact := None |}.

Definition set_candidates (m : manifest) (l : list candidate) : manifest :=
  {| mf_scope := mf_scope m; mf_type := mf_type m; mf_start := mf_start m; mf_end := mf_end m;
     mf_units := mf_units m; mf_parties := mf_parties m; mf_candidates := l;
     mf_contests := mf_contests m; mf_styles := mf_styles m; mf_name := mf_name m;
     mf_contact := mf_contact m |}.
Definition set_contests (m : manifest) (l : list contest) : manifest :=
  {| mf_scope := mf_scope m; mf_type := mf_type m; mf_start := mf_start m; mf_end := mf_end m;
     mf_units := mf_units m; mf_parties := mf_parties m; mf_candidates := mf_candidates m;
     mf_contests := l; mf_styles := mf_styles m; mf_name := mf_name m; mf_contact := mf_contact m |}.
Definition set_styles (m : manifest) (l : list ballot_style) : manifest :=
  {| mf_scope := mf_scope m; mf_type := mf_type m; mf_start := mf_start m; mf_end := mf_end m;
     mf_units := mf_units m; mf_parties := mf_parties m; mf_candidates := mf_candidates m;
     mf_contests := mf_contests m; mf_styles := l; mf_name := mf_name m; mf_contact := mf_contact m |}.
Definition set_start (m : manifest) (t : Z) : manifest :=
  {| mf_scope := mf_scope m; mf_type := mf_type m; mf_start := t; mf_end := mf_end m;
     mf_units := mf_units m; mf_parties := mf_parties m; mf_candidates := mf_candidates m;
     mf_contests := mf_contests m; mf_styles := mf_styles m; mf_name := mf_name m;
     mf_contact := mf_contact m |}.

(** * C44 *)
(** isValid is exactly referential integrity in the sense of [wf_manifest]. *)
Theorem C44_valid_iff m : manifest_valid m = true <-> wf_manifest m.
Proof. exact (manifest_valid_wf m). Qed.
Theorem C44_contest_valid_iff c : contest_valid c = true <-> wf_contest c.
Proof. exact (contest_valid_wf c). Qed.
(** Candidate references of selections are not part of it. *)
Theorem C44_candidates_refuted :
  exists m, manifest_valid m = true /\ ~ candidates_resolve m.
Proof.
  exists (set_candidates sample []). split; [vm_compute; reflexivity|].
  intros H. specialize (H contest1 (sel "s-a" "ann" 3)). destruct H; [now left|right; now left].
Qed.
(** Neither are the party references of ballot styles. *)
Theorem C44_style_party_refuted :
  exists m s p, manifest_valid m = true /\ In s (mf_styles m) /\ In p (bs_parties s)
  /\ ~ In p (map pa_id (mf_parties m)).
Proof.
  exists (set_styles sample [{| bs_id := s2b "full"; bs_units := [s2b "u1"];
                               bs_parties := [s2b "greens"]; bs_image := [] |}]).
  eexists; exists (s2b "greens"). split; [vm_compute; reflexivity|].
  split; [left; reflexivity|]. split; [left; reflexivity|]. intros [].
Qed.
Example C44_case : manifest_valid sample = true
  /\ manifest_valid (set_contests sample [contest1; contest1]) = false
  /\ manifest_valid (set_styles sample [style_of "full" ["u9"]]) = false.
Proof. vm_compute. repeat split. Qed.

(** * The internal manifest *)
Lemma mapM_Forall2 {A B} (f : A -> outcome B) l r :
  mapM f l = Ok r -> Forall2 (fun a b => f a = Ok b) l r.
Proof.
  revert r. induction l as [|x l IH]; intros r; cbn.
  - intros E. apply Ok_inj in E. subst. constructor.
  - destruct (f x) as [y| |] eqn:E; cbn; try discriminate.
    destruct (mapM f l) as [ys| |]; cbn; try discriminate.
    intros E'. apply Ok_inj in E'. subst. constructor; auto.
Qed.
Lemma with_placeholders_ok c w : with_placeholders c = Ok w ->
  contest_clone c = Ok (cw_base w) /\ cw_placeholders w = placeholders_of c.
Proof.
  unfold with_placeholders. destruct (contest_clone c) as [b| |]; cbn; try discriminate.
  intros E. apply Ok_inj in E. subst. auto.
Qed.
Lemma clone_fields c b : contest_clone c = Ok b ->
  cd_id b = cd_id c /\ cd_district b = cd_district c /\ cd_seq b = cd_seq c /\
  cd_variation b = cd_variation c /\ cd_elected b = cd_elected c /\ cd_name b = cd_name c /\
  cd_selections b = cd_selections c.
Proof.
  unfold contest_clone. destruct (cd_title c); [destruct (cd_subtitle c); [|discriminate]|];
    intros E; apply Ok_inj in E; subst; cbn; tauto.
Qed.
Lemma internal_contests gp sha fmt m im : internal_manifest_of gp sha fmt m = Ok im ->
  im_styles im = mf_styles m /\ im_units im = mf_units m /\ im_candidates im = mf_candidates m /\
  manifest_hash gp sha fmt m = Ok (im_hash im) /\
  Forall2 (fun c w => with_placeholders c = Ok w) (get_contests m) (im_contests im).
Proof.
  unfold internal_manifest_of.
  destruct (mapM with_placeholders (get_contests m)) as [cs| |] eqn:E; cbn [bind]; try discriminate.
  destruct (manifest_hash gp sha fmt m) as [h| |]; cbn [bind]; try discriminate.
  intros E'. apply Ok_inj in E'. subst. cbn. repeat split. now apply mapM_Forall2.
Qed.
Lemma Forall2_impl {A B} (R R' : A -> B -> Prop) l l' :
  (forall a b, R a b -> R' a b) -> Forall2 R l l' -> Forall2 R' l l'.
Proof. intros H. induction 1; constructor; auto. Qed.
Lemma Forall2_map_eq {A B C} (R : A -> B -> Prop) (f : A -> C) (g : B -> C) l l' :
  (forall a b, R a b -> g b = f a) -> Forall2 R l l' -> map g l' = map f l.
Proof. intros H. induction 1; cbn; [reflexivity|]. f_equal; auto. Qed.

(** * C45 *)
Definition of_style (s : ballot_style) (c : contest) : Prop := In (cd_district c) (bs_units s).
(** Exactly the contests of the style's districts, ordered; each at least once. *)
Theorem C45_contests im id l :
  contests_for im id = Ok l ->
  exists s, find (fun s => bytes_eqb (bs_id s) id) (im_styles im) = Some s /\ bs_units s <> [] /\
  ascending cw_seq l /\
  forall c, In c l <-> In c (im_contests im) /\ of_style s (cw_base c).
Proof. exact (contests_for_in im id l). Qed.
(** It throws exactly for unknown styles and styles without units. *)
Theorem C45_throws im id :
  (exists l, contests_for im id = Ok l) \/
  (contests_for im id = Throw RuntimeError /\
   forall s, find (fun s => bytes_eqb (bs_id s) id) (im_styles im) = Some s -> bs_units s = []).
Proof.
  unfold contests_for, get_style. destruct (find _ (im_styles im)) as [s|].
  - destruct (bs_units s) eqn:E; [right|left; eauto]. split; [reflexivity|].
    intros s' H. injection H as <-. assumption.
  - right. split; [reflexivity|]. discriminate.
Qed.
Theorem C45_unknown_throws im id :
  (forall s, In s (im_styles im) -> bs_id s <> id) -> contests_for im id = Throw RuntimeError.
Proof.
  intros H. unfold contests_for, get_style.
  destruct (find _ (im_styles im)) as [s|] eqn:E; [|reflexivity].
  apply find_some in E. destruct E as [I E]. apply bytes_eqb_eq in E. now apply H in I.
Qed.
(** Exactly once, for a valid manifest and a style that lists no unit twice. *)
Theorem C45_exactly_once_partial gp sha fmt m im s :
  internal_manifest_of gp sha fmt m = Ok im -> manifest_valid m = true ->
  In s (mf_styles m) -> NoDup (bs_units s) ->
  exists l, contests_for im (bs_id s) = Ok l /\
  StronglySorted Z.lt (map cw_seq l) /\
  NoDup (map (fun w => cd_id (cw_base w)) l) /\
  forall c, In c (mf_contests m) ->
    (of_style s c <-> In (cd_id c) (map (fun w => cd_id (cw_base w)) l)).
Proof.
  intros E V Is ND. apply manifest_valid_wf in V.
  destruct (internal_contests _ _ _ _ _ E) as (Es & _ & _ & _ & F).
  assert (Est : get_style im (bs_id s) = Some s).
  { unfold get_style. rewrite Es. destruct (wfm_styles m V) as [NS _]. clear - NS Is.
    induction (mf_styles m) as [|x l IH]; [destruct Is|]. cbn. destruct Is as [->|Is].
    - now rewrite bytes_eqb_refl.
    - inversion NS; subst. destruct (bytes_eqb (bs_id x) (bs_id s)) eqn:Eb; [|auto].
      apply bytes_eqb_eq in Eb. exfalso. apply H1. rewrite Eb. now apply in_map. }
  destruct (wfm_style_units m V s Is) as [Nu _].
  assert (Hc := contests_for_filter im (bs_id s) s Est Nu ND).
  set (f := fun c => existsb _ _) in Hc. eexists. split; [exact Hc|].
  assert (Mseq : map cw_seq (im_contests im) = map cd_seq (get_contests m)).
  { eapply Forall2_map_eq; [|exact F]. intros a b Hab. apply with_placeholders_ok in Hab.
    destruct Hab as [Hab _]. apply clone_fields in Hab. apply Hab. }
  assert (Mid : map (fun w => cd_id (cw_base w)) (im_contests im) = map cd_id (get_contests m)).
  { eapply Forall2_map_eq; [|exact F]. intros a b Hab. apply with_placeholders_ok in Hab.
    destruct Hab as [Hab _]. apply clone_fields in Hab. apply Hab. }
  assert (Nseq : NoDup (map cw_seq (im_contests im))).
  { rewrite Mseq. eapply Permutation_NoDup; [apply Permutation_map, sort_perm|]. apply (wfm_contest_seqs m V). }
  assert (Nid : NoDup (map (fun w => cd_id (cw_base w)) (im_contests im))).
  { rewrite Mid. eapply Permutation_NoDup; [apply Permutation_map, sort_perm|]. apply (wfm_contests m V). }
  assert (NF : forall (B : Type) (g : contest_ph -> B) l, NoDup (map g l) -> NoDup (map g (filter f l))).
  { intros B g l. induction l as [|x l IH]; cbn; intros N; [constructor|]. inversion N; subst.
    destruct (f x); cbn; [|auto]. constructor; [|auto]. intros H. apply H1.
    rewrite in_map_iff in *. destruct H as (y & Ey & Hy). apply filter_In in Hy. exists y. tauto. }
  split; [|split].
  - assert (A := sort_sorted cw_seq (filter f (im_contests im))).
    assert (N : NoDup (map cw_seq (sort_by cw_seq (filter f (im_contests im))))).
    { eapply Permutation_NoDup; [apply Permutation_map, sort_perm|]. apply NF, Nseq. }
    revert A N. generalize (sort_by cw_seq (filter f (im_contests im))). unfold ascending. intros l0 A.
    induction A as [|x l A IH FA]; intros N; [constructor|].
    cbn in N |- *. inversion N; subst. constructor; [auto|].
    rewrite Forall_forall in *. intros z Hz. assert (z <> cw_seq x) by (intros ->; contradiction).
    apply in_map_iff in Hz. destruct Hz as (y & <- & Hy). specialize (FA y Hy). lia.
  - eapply Permutation_NoDup; [apply Permutation_map, sort_perm|]. apply NF, Nid.
  - intros c Ic. unfold of_style.
    assert (Hf : forall w, f w = true <-> In (cd_district (cw_base w)) (bs_units s)).
    { intros w. unfold f. apply (mem_In bytes_eqb bytes_eqb_eq). }
    assert (Hg : In c (get_contests m)) by now apply sort_in.
    assert (Hw : exists w, In w (im_contests im) /\ with_placeholders c = Ok w).
    { clear - F Hg. induction F; [destruct Hg|]. destruct Hg as [->|Hg]; [exists y; split; [now left|assumption]|].
      destruct (IHF Hg) as (w & ? & ?). exists w. split; [now right|assumption]. }
    destruct Hw as (w & Iw & Ew). apply with_placeholders_ok in Ew. destruct Ew as [Ew _].
    apply clone_fields in Ew. destruct Ew as (Ei & Ed & _).
    rewrite in_map_iff. split.
    + intros Hd. exists w. split; [assumption|]. apply sort_in. apply filter_In. split; [assumption|].
      apply Hf. now rewrite Ed.
    + intros (w' & Ei' & Iw'). apply sort_in in Iw'. apply filter_In in Iw'. destruct Iw' as [Iw' Fw'].
      assert (w' = w).
      { assert (Heq : cd_id (cw_base w') = cd_id (cw_base w)) by congruence.
        clear - Nid Iw Iw' Heq. induction (im_contests im) as [|x l IH]; [destruct Iw|].
        cbn in Nid. inversion Nid; subst. destruct Iw as [<-|Iw], Iw' as [<-|Iw']; auto.
        - exfalso. apply H1. rewrite <- Heq. now apply (in_map (fun w => cd_id (cw_base w))).
        - exfalso. apply H1. rewrite Heq. now apply (in_map (fun w => cd_id (cw_base w))). }
      subst w'. apply Hf in Fw'. now rewrite Ed in Fw'.
Qed.
(** A style that lists a unit twice passes validation and yields its contests
    twice. *)
Theorem C45_exactly_once_refuted :
  exists m im l, manifest_valid m = true /\ internal_manifest_of tp toy_sha iso_sample m = Ok im /\
  contests_for im (s2b "full") = Ok l /\
  map (fun w => cd_id (cw_base w)) l = [s2b "mayor"; s2b "mayor"].
Proof.
  exists (set_styles sample [style_of "full" ["u1"; "u1"]]). eexists. eexists.
  split; [vm_compute; reflexivity|]. split; [vm_compute; reflexivity|].
  split; [vm_compute; reflexivity|]. vm_compute. reflexivity.
Qed.
Example C45_case : exists im l, internal_manifest_of tp toy_sha iso_sample sample = Ok im /\
  contests_for im (s2b "full") = Ok l /\
  map (fun w => cd_id (cw_base w)) l = [s2b "board"; s2b "mayor"] /\
  contests_for im (s2b "other") = Throw RuntimeError.
Proof.
  eexists. eexists. split; [vm_compute; reflexivity|]. split; [vm_compute; reflexivity|].
  split; vm_compute; reflexivity.
Qed.

(** * C46 *)
(** The number of placeholders, for every contest. *)
Theorem C46_count gp sha fmt m im :
  internal_manifest_of gp sha fmt m = Ok im ->
  Forall2 (fun c w => 0 <= cd_elected c ->
             cd_id (cw_base w) = cd_id c /\ cd_selections (cw_base w) = cd_selections c /\
             Z.of_nat (length (cw_placeholders w)) = cd_elected c)
          (get_contests m) (im_contests im).
Proof.
  intros E. apply internal_contests in E. destruct E as (_ & _ & _ & _ & F).
  eapply Forall2_impl; [|exact F]. intros c w H P. apply with_placeholders_ok in H. destruct H as [H Ep].
  apply clone_fields in H. rewrite Ep, (placeholders_length c P). tauto.
Qed.
(** Fresh, as long as sequence orders stay below 2^32 - 1. *)
Theorem C46_fresh_partial c w :
  with_placeholders c = Ok w ->
  (forall s, In s (cd_selections c) -> 0 <= sd_seq s < 2 ^ 32 - 1) ->
  0 <= cd_elected c < 2 ^ 63 ->
  NoDup (map sd_id (cw_placeholders w)) /\
  NoDup (map sd_seq (cw_placeholders w)) /\
  (forall p s, In p (cw_placeholders w) -> In s (cd_selections c) -> sd_seq s < sd_seq p).
Proof.
  intros E H P. apply with_placeholders_ok in E. destruct E as [_ ->].
  assert (Q := placeholder_seqs c H P). destruct (max_seq_spec c H) as [B Mx].
  assert (ND : NoDup (map sd_seq (placeholders_of c))).
  { rewrite Q. apply NoDup_map_inj; [|apply seq_NoDup]. intros x y _ _ Exy. lia. }
  split; [|split; [assumption|]].
  - assert (R : forall p, In p (placeholders_of c) -> 0 <= sd_seq p < W64 /\ p = placeholder_for c (sd_seq p)).
    { intros p Hp. unfold placeholders_of in Hp. apply in_map_iff in Hp. destruct Hp as (i & <- & _).
      cbn [placeholder_for sd_seq]. split; [apply Z.mod_pos_bound; reflexivity|reflexivity]. }
    clear - ND R. induction (placeholders_of c) as [|p l IH]; cbn in *; [constructor|].
    inversion ND; subst. constructor.
    + rewrite in_map_iff. intros (q & Eq & Hq). apply H1.
      destruct (R p (or_introl eq_refl)) as [Bp Ep]. destruct (R q (or_intror Hq)) as [Bq Eq'].
      rewrite Ep, Eq' in Eq. apply placeholder_id_inj in Eq; try assumption. rewrite <- Eq.
      now apply in_map.
    + apply IH; [assumption|]. intros q Hq. apply R. now right.
  - intros p s Hp Hs. apply (in_map sd_seq) in Hp. rewrite Q in Hp. apply in_map_iff in Hp.
    destruct Hp as (i & <- & _). specialize (Mx s Hs). lia.
Qed.
(** The sequence order is kept in 32 bits: beyond, placeholders precede real
    selections, or take their place. *)
Definition contest_big : contest :=
  {| cd_id := s2b "mayor"; cd_district := s2b "u1"; cd_seq := 2; cd_variation := VV_one_of_m;
     cd_elected := 1; cd_allowed := 1; cd_name := s2b "Mayor"; cd_title := None;
     cd_subtitle := None; cd_selections := [sel "s-a" "ann" 0; sel "s-b" "bob" (2 ^ 32 - 1)];
     cd_primary := [] |}.
Theorem C46_sequence_refuted :
  exists c w p s, contest_valid c = true /\ with_placeholders c = Ok w /\
  In p (cw_placeholders w) /\ In s (cd_selections c) /\ sd_seq p = sd_seq s.
Proof.
  exists contest_big. eexists. exists (placeholder_for contest_big 0), (sel "s-a" "ann" 0).
  split; [vm_compute; reflexivity|]. split; [vm_compute; reflexivity|].
  split; [left; vm_compute; reflexivity|]. split; [now left|]. reflexivity.
Qed.
(** A real selection may already carry a placeholder's id. *)
Definition contest_clash : contest :=
  {| cd_id := s2b "mayor"; cd_district := s2b "u1"; cd_seq := 2; cd_variation := VV_one_of_m;
     cd_elected := 1; cd_allowed := 1; cd_name := s2b "Mayor"; cd_title := None;
     cd_subtitle := None; cd_selections := [sel "s-a" "ann" 0; sel "mayor-2-placeholder" "bob" 1];
     cd_primary := [] |}.
Theorem C46_id_refuted :
  exists c w p s, contest_valid c = true /\ with_placeholders c = Ok w /\
  In p (cw_placeholders w) /\ In s (cd_selections c) /\ sd_id p = sd_id s.
Proof.
  exists contest_clash. eexists.
  exists (placeholder_for contest_clash 2), (sel "mayor-2-placeholder" "bob" 1).
  split; [vm_compute; reflexivity|]. split; [vm_compute; reflexivity|].
  split; [left; vm_compute; reflexivity|]. split; [right; now left|]. vm_compute. reflexivity.
Qed.
Example C46_case : exists w, with_placeholders contest2 = Ok w /\
  map sd_id (cw_placeholders w) = [s2b "board-4-placeholder"; s2b "board-5-placeholder"].
Proof. eexists. split; vm_compute; reflexivity. Qed.

(** * C47 *)
(** Two manifests have the same hash exactly if they agree on everything in
    [same_manifest], provided no two different byte strings hashed on the way
    collide and no text contains the delimiter. *)
Theorem C47_commits gp sha fmt m m' :
  valid_params gp -> hashable m -> hashable m' ->
  clean_manifest (iso fmt) m -> clean_manifest (iso fmt) m' ->
  no_collision gp sha (manifest_queries gp sha fmt m) (manifest_queries gp sha fmt m') ->
  exists h h', manifest_hash gp sha fmt m = Ok h /\ manifest_hash gp sha fmt m' = Ok h' /\
  (h = h' <-> same_manifest (iso fmt) m m').
Proof.
  intros V H H' C C' N. do 2 eexists.
  split; [apply manifest_hash_ok; assumption|]. split; [apply manifest_hash_ok; assumption|].
  apply (manifest_iff gp V sha fmt _ _ N); try assumption; apply incl_refl.
Qed.
(** Candidates are not committed to, for any hash function. *)
Theorem C47_candidates_refuted gp sha fmt :
  manifest_hash gp sha fmt (set_candidates sample []) = manifest_hash gp sha fmt sample /\
  mf_candidates (set_candidates sample []) <> mf_candidates sample.
Proof. split; [reflexivity|discriminate]. Qed.
(** Nor are fractions of seconds of the dates. *)
Theorem C47_dates_refuted gp sha fmt :
  manifest_hash gp sha fmt (set_start sample 1600000000500000000) = manifest_hash gp sha fmt sample /\
  mf_start (set_start sample 1600000000500000000) <> mf_start sample.
Proof.
  split; [|discriminate]. unfold manifest_hash. cbn [set_start mf_contests mf_name mf_contact sample].
  destruct (mapM (contest_hash gp sha) _) as [cs| |]; cbn [bind]; [|reflexivity..].
  unfold manifest_items, iso. cbn [set_start mf_start mf_end mf_scope mf_type mf_units mf_parties mf_styles sample].
  replace (Z.quot 1600000000500000000 1000000000) with (Z.quot 1600000000000000000 1000000000)
    by (vm_compute; reflexivity). reflexivity.
Qed.
(** Nor are primary party ids, nor empty texts as opposed to "null". *)
Definition with_primary (c : contest) (l : list bytes) : contest :=
  {| cd_id := cd_id c; cd_district := cd_district c; cd_seq := cd_seq c;
     cd_variation := cd_variation c; cd_elected := cd_elected c; cd_allowed := cd_allowed c;
     cd_name := cd_name c; cd_title := cd_title c; cd_subtitle := cd_subtitle c;
     cd_selections := cd_selections c; cd_primary := l |}.
Theorem C47_primary_refuted gp sha fmt :
  manifest_hash gp sha fmt (set_contests sample [with_primary contest1 [s2b "p"]; contest2])
  = manifest_hash gp sha fmt sample /\ with_primary contest1 [s2b "p"] <> contest1.
Proof. split; [reflexivity|discriminate]. Qed.
Theorem C47_null_refuted gp sha :
  style_hash gp sha {| bs_id := s2b "full"; bs_units := []; bs_parties := []; bs_image := [] |}
  = style_hash gp sha {| bs_id := s2b "full"; bs_units := []; bs_parties := []; bs_image := s2b "null" |}.
Proof. reflexivity. Qed.
(** A manifest with a name but no contact information cannot be hashed. *)
Theorem C47_name_ub gp sha fmt m :
  Forall title_ok (mf_contests m) -> mf_name m <> None -> mf_contact m = None ->
  manifest_hash gp sha fmt m = UB.
Proof.
  intros T N C. unfold manifest_hash.
  rewrite (mapM_ok _ (fun c => hash_elems gp sha (contest_hash_items gp sha c))).
  - cbn [bind]. destruct (mf_name m); [|contradiction]. now rewrite C.
  - rewrite Forall_forall in T. intros c Hc. apply contest_hash_ok. auto.
Qed.

Definition no_collision_b (gp : params) sha (S S' : list bytes) : bool :=
  let T := map (fun x => (x, hash_close gp sha x)) S in
  let T' := map (fun x => (x, hash_close gp sha x)) S' in
  forallb (fun x => forallb (fun y => bytes_eqb (fst x) (fst y) || negb (snd x =? snd y)) T') T.
Lemma no_collision_dec gp sha S S' : no_collision_b gp sha S S' = true -> no_collision gp sha S S'.
Proof.
  intros H x y Hx Hy E. unfold no_collision_b in H. rewrite forallb_forall in H.
  apply (in_map (fun x => (x, hash_close gp sha x))) in Hx, Hy. specialize (H _ Hx).
  rewrite forallb_forall in H. specialize (H _ Hy). cbn [fst snd] in H.
  apply orb_true_iff in H. destruct H as [H|H].
  - now apply bytes_eqb_eq.
  - apply negb_true_iff, Z.eqb_neq in H. contradiction.
Qed.
(** The hypotheses are met by two different manifests. *)
Definition tiny (s : string) : manifest :=
  {| mf_scope := s2b s; mf_type := ET_general; mf_start := 1600000000000000000;
     mf_end := 1600086400000000000; mf_units := [unit_of "u1"]; mf_parties := [];
     mf_candidates := []; mf_contests := [contest2]; mf_styles := [style_of "full" ["u1"]];
     mf_name := None; mf_contact := None |}.
Example C47_case : no_collision tp toy_sha (manifest_queries tp toy_sha iso_sample (tiny "town"))
                                   (manifest_queries tp toy_sha iso_sample (tiny "city"))
  /\ hashable (tiny "town") /\ hashable (tiny "city")
  /\ clean_manifest (iso iso_sample) (tiny "town") /\ clean_manifest (iso iso_sample) (tiny "city")
  /\ ~ same_manifest (iso iso_sample) (tiny "town") (tiny "city").
Proof.
  split; [apply no_collision_dec; vm_compute; reflexivity|].
  assert (T : forall s, hashable (tiny s)).
  { intros s. split; [now intros []|]. repeat constructor. intros []. reflexivity. }
  split; [apply T|]. split; [apply T|].
  assert (NB : forall b, existsb (Z.eqb delim) b = false -> no_bar b).
  { intros b H I. apply Bool.not_true_iff_false in H. apply H. apply existsb_exists. exists delim.
    split; [assumption|]. apply Z.eqb_refl. }
  assert (C : forall s, existsb (Z.eqb delim) (s2b s) = false -> clean_manifest (iso iso_sample) (tiny s)).
  { intros s H. unfold clean_manifest, tiny; cbn -[iso s2b].
    repeat match goal with
    | |- _ /\ _ => split
    | |- Forall _ (_ :: _) => constructor
    | |- Forall _ [] => constructor
    | |- no_bar _ => apply NB; first [exact H | vm_compute; reflexivity]
    | |- clean_unit _ => unfold clean_unit; cbn -[s2b]
    | |- clean_contest _ => unfold clean_contest; cbn -[s2b]
    | |- clean_selection _ => unfold clean_selection; cbn -[s2b]
    | |- clean_style _ => unfold clean_style; cbn -[s2b]
    | |- u64 _ => split; vm_compute; [discriminate|reflexivity]
    | |- True => exact I
    end. }
  split; [apply C; reflexivity|]. split; [apply C; reflexivity|].
  intros (E & _). destruct E as [E|[[E _]|[E _]]]; vm_compute in E; discriminate.
Qed.

(** * C59: contests reach the internal manifest unchanged *)
(** The part that holds: identity, district, order, variation, seats, name and
    selections; votesAllowed only for contests with a title. *)
Theorem C59_preserved_partial gp sha fmt m im :
  internal_manifest_of gp sha fmt m = Ok im ->
  im_units im = mf_units m /\ im_candidates im = mf_candidates m /\ im_styles im = mf_styles m /\
  manifest_hash gp sha fmt m = Ok (im_hash im) /\
  Forall2 (fun c w => let b := cw_base w in
     cd_id b = cd_id c /\ cd_district b = cd_district c /\ cd_seq b = cd_seq c /\
     cd_variation b = cd_variation c /\ cd_elected b = cd_elected c /\ cd_name b = cd_name c /\
     cd_selections b = cd_selections c /\
     (cd_title c <> None \/ cd_allowed c = default_allowed (cd_variation c) (cd_elected c) ->
      cd_allowed b = cd_allowed c)) (get_contests m) (im_contests im).
Proof.
  intros E. apply internal_contests in E. destruct E as (E1 & E2 & E3 & E4 & F).
  repeat (split; [assumption|]). eapply Forall2_impl; [|exact F]. intros c w H.
  apply with_placeholders_ok in H. destruct H as [H _]. cbv zeta.
  assert (C := clone_fields c _ H). repeat (split; [apply C|]).
  unfold contest_clone in H. destruct (cd_title c); [destruct (cd_subtitle c); [|discriminate]|];
    apply Ok_inj in H; rewrite <- H; cbn; intros [T|T]; auto; contradiction.
Qed.
Definition contest_cumulative : contest :=
  {| cd_id := s2b "mayor"; cd_district := s2b "u1"; cd_seq := 2; cd_variation := VV_cumulative;
     cd_elected := 1; cd_allowed := 3; cd_name := s2b "Mayor"; cd_title := None;
     cd_subtitle := None; cd_selections := [sel "s-a" "ann" 0; sel "s-b" "bob" 1];
     cd_primary := [s2b "greens"] |}.
(** Without a title a contest loses its number of allowed votes, and always its
    primary parties; so its hash changes. *)
Theorem C59_preserved_refuted :
  exists c w, contest_valid c = true /\ with_placeholders c = Ok w /\
  cd_allowed (cw_base w) <> cd_allowed c /\ cd_primary (cw_base w) <> cd_primary c /\
  contest_hash tp toy_sha (cw_base w) <> contest_hash tp toy_sha c.
Proof.
  exists contest_cumulative. eexists. split; [vm_compute; reflexivity|].
  split; [vm_compute; reflexivity|]. split; [vm_compute; discriminate|].
  split; [vm_compute; discriminate|]. vm_compute. discriminate.
Qed.
(** A title without subtitle cannot be copied at all. *)
Theorem C59_title_ub c t : cd_title c = Some t -> cd_subtitle c = None -> with_placeholders c = UB.
Proof. intros H H'. unfold with_placeholders, contest_clone. now rewrite H, H'. Qed.
Example C59_case : exists im, internal_manifest_of tp toy_sha iso_sample sample = Ok im /\
  map (fun w => cd_id (cw_base w)) (im_contests im) = [s2b "board"; s2b "mayor"].
Proof. eexists. split; vm_compute; reflexivity. Qed.

Print Assumptions C44_valid_iff.
Print Assumptions C44_contest_valid_iff.
Print Assumptions C44_candidates_refuted.
Print Assumptions C44_style_party_refuted.
Print Assumptions C45_contests.
Print Assumptions C45_throws.
Print Assumptions C45_unknown_throws.
Print Assumptions C45_exactly_once_partial.
Print Assumptions C45_exactly_once_refuted.
Print Assumptions C46_count.
Print Assumptions C46_fresh_partial.
Print Assumptions C46_sequence_refuted.
Print Assumptions C46_id_refuted.
Print Assumptions C47_commits.
Print Assumptions C47_candidates_refuted.
Print Assumptions C47_dates_refuted.
Print Assumptions C47_primary_refuted.
Print Assumptions C47_null_refuted.
Print Assumptions C47_name_ub.
Print Assumptions C59_preserved_partial.
Print Assumptions C59_preserved_refuted.
Print Assumptions C59_title_ub.
