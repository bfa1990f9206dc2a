(** What the hash of a manifest commits to (C47). *)
From Coq Require Import String.
From Verif Require Import Base GroupModel GroupSpec GroupProofs CodecModel CodecProofs HashModel HashProofs
  ChaumProofs ManifestModel ManifestSpec.
Open Scope list_scope.
Open Scope Z_scope.
Ltac Zify.zify_post_hook ::= idtac.

(** ** Encodings *)
Definition norm (s : bytes) : bytes := match s with [] => null_string | _ => s end.
Lemma norm_same a b : norm a = norm b <-> same_str a b.
Proof.
  unfold norm, same_str. destruct a as [|x a], b as [|y b]; split; intros H; auto;
    try (destruct H as [H|[[H1 H2]|[H1 H2]]]; congruence).
Qed.
Lemma Forall2_norm l l' : map norm l = map norm l' <-> Forall2 same_str l l'.
Proof.
  split.
  - revert l'. induction l as [|x l IH]; intros [|y l'] H; try discriminate; constructor.
    + cbn in H. injection H as H _. now apply norm_same.
    + cbn in H. injection H as _ H. auto.
  - induction 1 as [|x y l l' H _ IH]; cbn; [reflexivity|]. apply norm_same in H. now rewrite H, IH.
Qed.

Lemma election_type_inj a b : same_str (election_type_string a) (election_type_string b) <-> a = b.
Proof.
  rewrite <- norm_same. split; [|now intros ->].
  destruct a, b; try reflexivity; vm_compute; discriminate.
Qed.
Lemma reporting_unit_inj a b : same_str (reporting_unit_string a) (reporting_unit_string b) <-> a = b.
Proof.
  rewrite <- norm_same. split; [|now intros ->].
  destruct a, b; try reflexivity; vm_compute; discriminate.
Qed.
Lemma vote_variation_inj a b : same_str (vote_variation_string a) (vote_variation_string b) <-> a = b.
Proof.
  rewrite <- norm_same. split; [|now intros ->].
  destruct a, b; try reflexivity; vm_compute; discriminate.
Qed.
Ltac nobar := unfold no_bar, delim_free; vm_compute; intros H; repeat destruct H as [H|H]; congruence || contradiction.
Lemma election_type_clean a : no_bar (election_type_string a).
Proof. destruct a; nobar. Qed.
Lemma reporting_unit_clean a : no_bar (reporting_unit_string a).
Proof. destruct a; nobar. Qed.
Lemma vote_variation_clean a : no_bar (vote_variation_string a).
Proof. destruct a; nobar. Qed.

Section Commit.
Context (gp : params) (VP : valid_params gp) (sha : bytes -> Z).
Context (fmt : Z -> bytes).
Notation hash := (hash_elems gp sha).
Notation hs := (hash_string gp sha).

(** The byte strings fed to the hash function by hash_elems, including those of
    nested vectors. *)
Definition vec_message (l : list hitem) : bytes :=
  delim :: flat_map (fun x => hs x ++ [delim]) l.
Fixpoint item_queries (i : hitem) : list bytes :=
  match i with
  | HVec l => match l with [] => [] | _ => [vec_message l] end ++ flat_map item_queries l
  | _ => []
  end.
Definition queries (l : list hitem) : list bytes :=
  hash_message gp sha l :: flat_map item_queries l.

Definition annotated_queries (a : annotated_string) := queries [HStr (an_annotation a); HStr (an_value a)].
Definition language_queries (a : language) := queries [HStr (la_value a); HStr (la_language a)].
Definition intl_queries (t : intl_text) :=
  queries [HVec (map (fun l => HHash (language_hash gp sha l)) t)] ++ flat_map language_queries t.
Definition contact_queries (c : contact_info) :=
  queries [HStr (cx_name c); HVec (map HStr (cx_address c));
           HVec (map (fun a => HHash (annotated_hash gp sha a)) (cx_email c));
           HVec (map (fun a => HHash (annotated_hash gp sha a)) (cx_phone c))]
  ++ flat_map annotated_queries (cx_email c) ++ flat_map annotated_queries (cx_phone c).
Definition opt_queries {A} (f : A -> list bytes) (o : option A) : list bytes :=
  match o with Some a => f a | None => [] end.
Definition unit_queries (u : gp_unit) :=
  queries [HStr (gu_id u); HStr (gu_name u); HStr (reporting_unit_string (gu_type u));
           hopt (contact_hash gp sha) (gu_contact u)] ++ opt_queries contact_queries (gu_contact u).
Definition style_queries (s : ballot_style) :=
  queries [HStr (bs_id s); HVec (map HStr (bs_units s)); HVec (map HStr (bs_parties s)); HStr (bs_image s)].
Definition party_queries (p : party) :=
  queries [HStr (pa_id p); hopt (intl_hash gp sha) (pa_name p); HStr (pa_abbrev p);
           HStr (pa_color p); HStr (pa_logo p)] ++ opt_queries intl_queries (pa_name p).
Definition selection_queries (s : selection) :=
  queries [HStr (sd_id s); HU64 (sd_seq s); HStr (sd_candidate s)].
Definition contest_title_items (c : contest) : hitem * hitem :=
  match cd_title c with
  | Some t => (HHash (intl_hash gp sha t), hopt (intl_hash gp sha) (cd_subtitle c))
  | None => (HNull, HNull)
  end.
Definition contest_queries (c : contest) :=
  queries (contest_items gp sha c (fst (contest_title_items c)) (snd (contest_title_items c)))
  ++ opt_queries intl_queries (cd_title c) ++ opt_queries intl_queries (cd_subtitle c)
  ++ flat_map selection_queries (cd_selections c).
Definition manifest_name_items (m : manifest) : hitem * hitem :=
  match mf_name m with
  | Some t => (HHash (intl_hash gp sha t), hopt (contact_hash gp sha) (mf_contact m))
  | None => (HNull, HNull)
  end.
Definition contest_hash_items (c : contest) : list hitem :=
  contest_items gp sha c (fst (contest_title_items c)) (snd (contest_title_items c)).
Definition manifest_hash_items (m : manifest) : list hitem :=
  manifest_items gp sha fmt m (fst (manifest_name_items m)) (snd (manifest_name_items m))
    (map (fun c => hash (contest_hash_items c)) (mf_contests m)).
Definition manifest_queries (m : manifest) : list bytes :=
  queries (manifest_hash_items m)
  ++ opt_queries intl_queries (mf_name m) ++ opt_queries contact_queries (mf_contact m)
  ++ flat_map unit_queries (mf_units m) ++ flat_map party_queries (mf_parties m)
  ++ flat_map contest_queries (mf_contests m) ++ flat_map style_queries (mf_styles m).

(** No two different byte strings hashed for the two manifests have the same
    digest. *)
Definition no_collision (S S' : list bytes) : Prop :=
  forall x y, In x S -> In y S' -> hash_close gp sha x = hash_close gp sha y -> x = y.

(** ** Generic steps *)
Lemma hash_close_range' x : 0 <= hash_close gp sha x < W256.
Proof.
  unfold hash_close. pose proof (add_mod_q_range gp VP (sha x mod W256) 0). pose proof (vp_Qhi gp VP). lia.
Qed.
Lemma hash_range l : 0 <= hash l < W256.
Proof. apply hash_close_range'. Qed.
Lemma null_not_hex_q v : to_hex_q v <> null_string.
Proof.
  intros E. assert (H : Forall is_hexchar (to_hex_q v)).
  { rewrite to_hex_q_eq. apply bytes_to_hex_chars, to_bytes_q_bytes. }
  rewrite E in H. inversion H as [|? ? H1 _]. unfold is_hexchar in H1. lia.
Qed.
Lemma hash_ext l l' : l <> [] -> l' <> [] -> map hs l = map hs l' -> hash l = hash l'.
Proof.
  intros N N' H. unfold hash_elems. f_equal. unfold hash_message.
  destruct l as [|x l]; [contradiction|]. destruct l' as [|x' l']; [contradiction|].
  f_equal. rewrite !flat_map_concat_map.
  rewrite <- (map_map hs (fun s => s ++ [delim])), H, map_map. reflexivity.
Qed.
Lemma hash_iff S S' l l' :
  no_collision S S' -> incl (queries l) S -> incl (queries l') S' ->
  Forall item_clean l -> Forall item_clean l' -> l <> [] -> l' <> [] ->
  (hash l = hash l' <-> map hs l = map hs l').
Proof.
  intros NC I I' C C' N N'. split; [|apply hash_ext; assumption].
  intros E. apply hash_message_inj; try assumption.
  apply NC; [apply I|apply I'|exact E]; left; reflexivity.
Qed.
Lemma vec_iff S S' l l' :
  no_collision S S' -> incl (item_queries (HVec l)) S -> incl (item_queries (HVec l')) S' ->
  Forall item_clean l -> Forall item_clean l' ->
  (hs (HVec l) = hs (HVec l') <-> map hs l = map hs l').
Proof.
  intros NC I I' C C'. destruct l as [|x l], l' as [|x' l'].
  - tauto.
  - split; [|discriminate]. cbn [hash_string]. intros E. symmetry in E. now apply null_not_hex_q in E.
  - split; [|discriminate]. cbn [hash_string]. intros E. now apply null_not_hex_q in E.
  - cbn [hash_string]. split; intros E.
    + apply to_hex_q_inj in E; [|apply hash_close_range'..].
      assert (E' : vec_message (x :: l) = vec_message (x' :: l')).
      { apply NC; [apply I; left; reflexivity|apply I'; left; reflexivity|exact E]. }
      unfold vec_message in E'. injection E' as E'.
      apply joined_inj.
      * apply Forall_map. eapply Forall_impl; [|exact C]. intros i. apply (hash_string_delim_free gp sha).
      * apply Forall_map. eapply Forall_impl; [|exact C']. intros i. apply (hash_string_delim_free gp sha).
      * rewrite !flat_map_concat_map, !map_map, <- !flat_map_concat_map. exact E'.
    + f_equal. f_equal. f_equal. rewrite !flat_map_concat_map.
      rewrite <- (map_map hs (fun s => s ++ [delim])), E, map_map. reflexivity.
Qed.

Lemma str_iff a b : hs (HStr a) = hs (HStr b) <-> same_str a b.
Proof. rewrite <- norm_same. reflexivity. Qed.
Lemma u64_iff a b : u64 a -> u64 b -> (hs (HU64 a) = hs (HU64 b) <-> a = b).
Proof.
  intros Ha Hb. split; [|now intros ->]. intros E.
  assert (H : HU64 a = HU64 b); [|now injection H].
  apply (hash_string_inj gp sha); cbn; try assumption. exact I.
Qed.
Lemma hash_item_iff a b : 0 <= a < W256 -> 0 <= b < W256 -> (hs (HHash a) = hs (HHash b) <-> a = b).
Proof.
  intros Ha Hb. split; [|now intros ->]. apply to_hex_q_inj; assumption.
Qed.
Lemma opt_iff {A} (h : A -> Z) (R : A -> A -> Prop) a b :
  (forall x, 0 <= h x < W256) ->
  (forall x y, a = Some x -> b = Some y -> (h x = h y <-> R x y)) ->
  (hs (hopt h a) = hs (hopt h b) <-> same_opt R a b).
Proof.
  intros B H. destruct a as [x|], b as [y|]; cbn [hopt same_opt].
  - rewrite hash_item_iff by apply B. apply H; reflexivity.
  - split; [|tauto]. cbn [hash_string]. intros E. now apply null_not_hex_q in E.
  - split; [|tauto]. cbn [hash_string]. intros E. symmetry in E. now apply null_not_hex_q in E.
  - tauto.
Qed.
Lemma map_strs l : map hs (map HStr l) = map norm l.
Proof. rewrite map_map. reflexivity. Qed.
Lemma strs_iff S S' l l' :
  no_collision S S' -> incl (item_queries (HVec (map HStr l))) S ->
  incl (item_queries (HVec (map HStr l'))) S' -> Forall no_bar l -> Forall no_bar l' ->
  (hs (HVec (map HStr l)) = hs (HVec (map HStr l')) <-> Forall2 same_str l l').
Proof.
  intros NC I I' C C'.
  rewrite (vec_iff S S') by (try assumption; apply Forall_map; assumption).
  rewrite !map_strs. apply Forall2_norm.
Qed.
Lemma map_inj_on {A B} (P : A -> Prop) (f : A -> B) l l' :
  (forall x y, P x -> P y -> f x = f y -> x = y) -> Forall P l -> Forall P l' ->
  map f l = map f l' -> l = l'.
Proof.
  intros Hf F. revert l'. induction F as [|x l Hx F IH]; intros [|y l'] F' E; try discriminate; [reflexivity|].
  inversion F'; subst. cbn [map] in E. injection E as E1 E2. f_equal; auto.
Qed.
Lemma map_hash_iff l l' : Forall (fun h => 0 <= h < W256) l -> Forall (fun h => 0 <= h < W256) l' ->
  (map hs (map HHash l) = map hs (map HHash l') <-> l = l').
Proof.
  intros B B'. split; [|now intros ->]. rewrite !map_map.
  apply (map_inj_on (fun h => 0 <= h < W256)); try assumption.
  intros x y Hx Hy. apply to_hex_q_inj; assumption.
Qed.
Lemma Forall2_map_iff {A} (f : A -> Z) (R : A -> A -> Prop) l l' :
  (forall a b, In a l -> In b l' -> (f a = f b <-> R a b)) ->
  (map f l = map f l' <-> Forall2 R l l').
Proof.
  revert l'. induction l as [|x l IH]; intros [|y l'] H; cbn [map].
  - split; [constructor|reflexivity].
  - split; [discriminate|intros E; inversion E].
  - split; [discriminate|intros E; inversion E].
  - assert (Hxy := H x y (or_introl eq_refl) (or_introl eq_refl)).
    assert (Hl : map f l = map f l' <-> Forall2 R l l').
    { apply IH. intros a b Ha Hb. apply H; now right. }
    split; intros E.
    + injection E as E1 E2. constructor; tauto.
    + inversion E; subst. f_equal; tauto.
Qed.
Lemma incl_flat {A} (q : A -> list bytes) l S a : incl (flat_map q l) S -> In a l -> incl (q a) S.
Proof. intros I Ha x Hx. apply I. apply in_flat_map. eauto. Qed.

(** A vector of hashed objects. *)
Lemma objs_iff {A} S S' (f : A -> Z) (q : A -> list bytes) (R : A -> A -> Prop) l l' :
  no_collision S S' -> (forall a, 0 <= f a < W256) ->
  incl (item_queries (HVec (map (fun a => HHash (f a)) l))) S ->
  incl (item_queries (HVec (map (fun a => HHash (f a)) l'))) S' ->
  incl (flat_map q l) S -> incl (flat_map q l') S' ->
  (forall a b, In a l -> In b l' -> incl (q a) S -> incl (q b) S' -> (f a = f b <-> R a b)) ->
  (hs (HVec (map (fun a => HHash (f a)) l)) = hs (HVec (map (fun a => HHash (f a)) l'))
   <-> Forall2 R l l').
Proof.
  intros NC B I I' J J' H.
  rewrite (vec_iff S S') by (try assumption; apply Forall_map, Forall_forall; intros; exact Logic.I).
  rewrite <- !(map_map f HHash), map_hash_iff by (apply Forall_map, Forall_forall; intros; apply B).
  apply Forall2_map_iff. intros a b Ha Hb. apply H; try assumption; eapply incl_flat; eassumption.
Qed.

Ltac cons_incl :=
  repeat match goal with
  | H : incl (_ ++ _) _ |- _ => apply incl_app_inv in H; destruct H
  end.
(** Queries of item k of a hashed list. *)
Lemma incl_item l S i : incl (queries l) S -> In i l -> incl (item_queries i) S.
Proof.
  intros I Hi x Hx. apply I. right. apply in_flat_map. eauto.
Qed.
Lemma map5 {A B} (f : A -> B) a b c d e a' b' c' d' e' :
  map f [a;b;c;d;e] = map f [a';b';c';d';e'] <->
  f a = f a' /\ f b = f b' /\ f c = f c' /\ f d = f d' /\ f e = f e'.
Proof. cbn. split; [intros H; injection H; tauto|intros (->&->&->&->&->); reflexivity]. Qed.
Lemma map4 {A B} (f : A -> B) a b c d a' b' c' d' :
  map f [a;b;c;d] = map f [a';b';c';d'] <-> f a = f a' /\ f b = f b' /\ f c = f c' /\ f d = f d'.
Proof. cbn. split; [intros H; injection H; tauto|intros (->&->&->&->); reflexivity]. Qed.
Lemma map3 {A B} (f : A -> B) a b c a' b' c' :
  map f [a;b;c] = map f [a';b';c'] <-> f a = f a' /\ f b = f b' /\ f c = f c'.
Proof. cbn. split; [intros H; injection H; tauto|intros (->&->&->); reflexivity]. Qed.
Lemma map2 {A B} (f : A -> B) a b a' b' :
  map f [a;b] = map f [a';b'] <-> f a = f a' /\ f b = f b'.
Proof. cbn. split; [intros H; injection H; tauto|intros (->&->); reflexivity]. Qed.
Lemma map1 {A B} (f : A -> B) a a' : map f [a] = map f [a'] <-> f a = f a'.
Proof. cbn. split; [intros H; injection H; tauto|intros ->; reflexivity]. Qed.
Lemma map10 {A B} (f : A -> B) a b c d e g h i j k a' b' c' d' e' g' h' i' j' k' :
  map f [a;b;c;d;e;g;h;i;j;k] = map f [a';b';c';d';e';g';h';i';j';k'] <->
  f a = f a' /\ f b = f b' /\ f c = f c' /\ f d = f d' /\ f e = f e' /\
  f g = f g' /\ f h = f h' /\ f i = f i' /\ f j = f j' /\ f k = f k'.
Proof.
  cbn. split; [intros H; injection H; intros; repeat split; assumption
              |intros (->&->&->&->&->&->&->&->&->&->); reflexivity].
Qed.

(** ** Each kind of object *)
Section Fixed.
Context (S S' : list bytes) (NC : no_collision S S').

Ltac clean_list :=
  repeat (apply Forall_cons; [cbn [item_clean]; try exact Logic.I; try assumption;
    try (match goal with H : u64 ?n |- 0 <= ?n => apply H end)|]); try apply Forall_nil.
Ltac ne := discriminate.

Lemma annotated_iff a b : incl (annotated_queries a) S -> incl (annotated_queries b) S' ->
  clean_annotated a -> clean_annotated b ->
  (annotated_hash gp sha a = annotated_hash gp sha b <-> same_annotated a b).
Proof.
  intros I I' [C1 C2] [C1' C2']. unfold annotated_hash.
  rewrite (hash_iff S S') by (assumption || ne || clean_list).
  rewrite map2, !str_iff. reflexivity.
Qed.
Lemma language_iff a b : incl (language_queries a) S -> incl (language_queries b) S' ->
  clean_language a -> clean_language b ->
  (language_hash gp sha a = language_hash gp sha b <-> same_language a b).
Proof.
  intros I I' [C1 C2] [C1' C2']. unfold language_hash.
  rewrite (hash_iff S S') by (assumption || ne || clean_list).
  rewrite map2, !str_iff. reflexivity.
Qed.
Lemma intl_iff a b : incl (intl_queries a) S -> incl (intl_queries b) S' ->
  clean_intl a -> clean_intl b ->
  (intl_hash gp sha a = intl_hash gp sha b <-> same_intl a b).
Proof.
  intros I I' C C'. unfold intl_queries in I, I'. cons_incl. unfold intl_hash.
  rewrite (hash_iff S S') by (assumption || ne || clean_list).
  rewrite map1.
  rewrite (objs_iff S S' (language_hash gp sha) language_queries same_language); try assumption.
  - reflexivity.
  - intros x. apply hash_range.
  - eapply incl_item; [eassumption|now left].
  - eapply incl_item; [eassumption|now left].
  - unfold clean_intl in C, C'. rewrite Forall_forall in C, C'. intros x y Hx Hy J J'.
    apply language_iff; auto.
Qed.
Lemma contact_iff a b : incl (contact_queries a) S -> incl (contact_queries b) S' ->
  clean_contact a -> clean_contact b ->
  (contact_hash gp sha a = contact_hash gp sha b <-> same_contact a b).
Proof.
  intros I I' (C1 & C2 & C3 & C4) (C1' & C2' & C3' & C4').
  unfold contact_queries in I, I'. cons_incl. unfold contact_hash.
  rewrite (hash_iff S S') by (assumption || ne || clean_list).
  rewrite map4, str_iff.
  rewrite (strs_iff S S'); try assumption.
  2,3: eapply incl_item; [eassumption|cbn; tauto].
  rewrite !(objs_iff S S' (annotated_hash gp sha) annotated_queries same_annotated); try assumption.
  - reflexivity.
  - intros x. apply hash_range.
  - eapply incl_item; [eassumption|cbn; tauto].
  - eapply incl_item; [eassumption|cbn; tauto].
  - rewrite Forall_forall in C4, C4'. intros x y Hx Hy J J'. apply annotated_iff; auto.
  - intros x. apply hash_range.
  - eapply incl_item; [eassumption|cbn; tauto].
  - eapply incl_item; [eassumption|cbn; tauto].
  - rewrite Forall_forall in C3, C3'. intros x y Hx Hy J J'. apply annotated_iff; auto.
Qed.
Lemma hopt_clean {A} (h : A -> Z) o : item_clean (hopt h o).
Proof. destruct o; exact Logic.I. Qed.
Lemma unit_iff a b : incl (unit_queries a) S -> incl (unit_queries b) S' ->
  clean_unit a -> clean_unit b -> (unit_hash gp sha a = unit_hash gp sha b <-> same_unit a b).
Proof.
  intros I I' (C1 & C2 & C3) (C1' & C2' & C3').
  unfold unit_queries in I, I'. cons_incl. unfold unit_hash.
  rewrite (hash_iff S S') by (assumption || ne || clean_list; try apply reporting_unit_clean; apply hopt_clean).
  rewrite map4, !str_iff, reporting_unit_inj.
  rewrite (opt_iff _ same_contact).
  - reflexivity.
  - intros x. apply hash_range.
  - intros x y Ex Ey. rewrite Ex, Ey in *. apply contact_iff; assumption.
Qed.
Lemma style_iff a b : incl (style_queries a) S -> incl (style_queries b) S' ->
  clean_style a -> clean_style b -> (style_hash gp sha a = style_hash gp sha b <-> same_style a b).
Proof.
  intros I I' (C1 & C2 & C3 & C4) (C1' & C2' & C3' & C4').
  unfold style_queries in I, I'. unfold style_hash.
  rewrite (hash_iff S S') by (assumption || ne || clean_list).
  rewrite map4, !str_iff.
  rewrite !(strs_iff S S'); try assumption; try (eapply incl_item; [eassumption|cbn; tauto]).
  reflexivity.
Qed.
Lemma party_iff a b : incl (party_queries a) S -> incl (party_queries b) S' ->
  clean_party a -> clean_party b -> (party_hash gp sha a = party_hash gp sha b <-> same_party a b).
Proof.
  intros I I' (C1 & C2 & C3 & C4 & C5) (C1' & C2' & C3' & C4' & C5').
  unfold party_queries in I, I'. cons_incl. unfold party_hash.
  rewrite (hash_iff S S') by (assumption || ne || clean_list; apply hopt_clean).
  rewrite map5, !str_iff, (opt_iff _ same_intl).
  - reflexivity.
  - intros x. apply hash_range.
  - intros x y Ex Ey. rewrite Ex, Ey in *. apply intl_iff; assumption.
Qed.
Lemma selection_iff a b : incl (selection_queries a) S -> incl (selection_queries b) S' ->
  clean_selection a -> clean_selection b ->
  (selection_hash gp sha a = selection_hash gp sha b <-> same_selection a b).
Proof.
  intros I I' (C1 & C2 & C3) (C1' & C2' & C3').
  unfold selection_queries in I, I'. unfold selection_hash.
  rewrite (hash_iff S S') by (assumption || ne || clean_list).
  rewrite map3, !str_iff, u64_iff by assumption. reflexivity.
Qed.

Definition title_ok (c : contest) : Prop := cd_title c <> None -> cd_subtitle c <> None.
Lemma contest_hash_ok c : title_ok c <-> contest_hash gp sha c = Ok (hash (contest_hash_items c)).
Proof.
  unfold title_ok, contest_hash, contest_hash_items, contest_title_items.
  destruct (cd_title c) as [t|]; [|split; [reflexivity|tauto]].
  destruct (cd_subtitle c) as [s|]; cbn; split; try reflexivity; try discriminate.
  intros H. exfalso. apply H; congruence.
Qed.
Lemma title_iff a b : clean_contest a -> clean_contest b ->
  incl (opt_queries intl_queries (cd_title a)) S -> incl (opt_queries intl_queries (cd_subtitle a)) S ->
  incl (opt_queries intl_queries (cd_title b)) S' -> incl (opt_queries intl_queries (cd_subtitle b)) S' ->
  title_ok a -> title_ok b ->
  (hs (fst (contest_title_items a)) = hs (fst (contest_title_items b)) /\
   hs (snd (contest_title_items a)) = hs (snd (contest_title_items b)) <-> same_title a b).
Proof.
  intros (_ & _ & _ & _ & _ & _ & C1 & C2 & _) (_ & _ & _ & _ & _ & _ & C1' & C2' & _) I1 I2 I1' I2' T T'.
  assert (H1 : hs (hopt (intl_hash gp sha) (cd_title a)) = hs (hopt (intl_hash gp sha) (cd_title b))
               <-> same_opt same_intl (cd_title a) (cd_title b)).
  { apply opt_iff; [intros; apply hash_range|]. intros x y Ex Ey. rewrite Ex, Ey in *. apply intl_iff; assumption. }
  assert (H2 : hs (hopt (intl_hash gp sha) (cd_subtitle a)) = hs (hopt (intl_hash gp sha) (cd_subtitle b))
               <-> same_opt same_intl (cd_subtitle a) (cd_subtitle b)).
  { apply opt_iff; [intros; apply hash_range|]. intros x y Ex Ey. rewrite Ex, Ey in *. apply intl_iff; assumption. }
  unfold same_title. rewrite <- H1. unfold contest_title_items, title_ok in *.
  destruct (cd_title a) as [t|], (cd_title b) as [t'|]; cbn [fst snd hopt].
  - rewrite <- H2. split; intros [A B]; split; auto. apply B. discriminate.
  - split; intros [A B]; exfalso; revert A; cbn [hash_string]; apply null_not_hex_q.
  - split; intros [A B]; exfalso; revert A; cbn [hash_string]; intros A; symmetry in A; revert A; apply null_not_hex_q.
  - split; intros _; split; try reflexivity. intros N. now exfalso; apply N.
Qed.
Lemma contest_iff a b : incl (contest_queries a) S -> incl (contest_queries b) S' ->
  clean_contest a -> clean_contest b -> title_ok a -> title_ok b ->
  (hash (contest_hash_items a) = hash (contest_hash_items b) <-> same_contest a b).
Proof.
  intros I I' C C' T T'. assert (K := title_iff a b C C').
  destruct C as (C1 & C2 & C3 & C4 & C5 & C6 & C7 & C8 & C9),
           C' as (C1' & C2' & C3' & C4' & C5' & C6' & C7' & C8' & C9').
  unfold contest_queries in I, I'. cons_incl.
  specialize (K ltac:(assumption) ltac:(assumption) ltac:(assumption) ltac:(assumption) T T').
  assert (CL : forall c, no_bar (cd_id c) -> u64 (cd_seq c) -> no_bar (cd_district c) -> no_bar (cd_name c) ->
     u64 (cd_elected c) -> u64 (cd_allowed c) -> Forall item_clean (contest_hash_items c)).
  { intros c D1 D2 D3 D4 D5 D6. unfold contest_hash_items, contest_items. clean_list;
      try apply D2; try apply D5; try apply D6; try apply vote_variation_clean.
    - unfold contest_title_items. destruct (cd_title c); exact Logic.I.
    - unfold contest_title_items. destruct (cd_title c); [apply hopt_clean|exact Logic.I]. }
  rewrite (hash_iff S S') by (assumption || ne || (apply CL; assumption)).
  unfold contest_hash_items, contest_items. rewrite map10, !str_iff, !u64_iff, vote_variation_inj by assumption.
  rewrite (objs_iff S S' (selection_hash gp sha) selection_queries same_selection); try assumption.
  - unfold same_contest. rewrite <- K. tauto.
  - intros x. apply hash_range.
  - eapply incl_item; [eassumption|cbn; tauto].
  - eapply incl_item; [eassumption|cbn; tauto].
  - rewrite Forall_forall in C9, C9'. intros x y Hx Hy J J'. apply selection_iff; auto.
Qed.

Definition name_ok (m : manifest) : Prop := mf_name m <> None -> mf_contact m <> None.
Definition hashable (m : manifest) : Prop := name_ok m /\ Forall title_ok (mf_contests m).
Lemma mapM_ok {A B} (f : A -> outcome B) (g : A -> B) l :
  (forall a, In a l -> f a = Ok (g a)) -> mapM f l = Ok (map g l).
Proof.
  induction l as [|x l IH]; intros H; cbn; [reflexivity|].
  rewrite (H x) by now left. cbn. rewrite IH by (intros; apply H; now right). reflexivity.
Qed.
Lemma manifest_hash_ok m : hashable m -> manifest_hash gp sha fmt m = Ok (hash (manifest_hash_items m)).
Proof.
  intros [N T]. unfold manifest_hash.
  rewrite (mapM_ok _ (fun c => hash (contest_hash_items c))).
  2:{ rewrite Forall_forall in T. intros c Hc. apply contest_hash_ok. auto. }
  cbn [bind]. unfold manifest_hash_items, manifest_name_items, name_ok in *.
  destruct (mf_name m) as [n|]; [|reflexivity]. destruct (mf_contact m) as [c|]; [reflexivity|].
  exfalso. apply N; congruence.
Qed.
Lemma manifest_iff a b : incl (manifest_queries a) S -> incl (manifest_queries b) S' ->
  clean_manifest (iso fmt) a -> clean_manifest (iso fmt) b -> hashable a -> hashable b ->
  (hash (manifest_hash_items a) = hash (manifest_hash_items b) <-> same_manifest (iso fmt) a b).
Proof.
  intros I I' (C1 & C2 & C3 & C4 & C5 & C6 & C7 & C8 & C9) (C1' & C2' & C3' & C4' & C5' & C6' & C7' & C8' & C9')
    [N T] [N' T'].
  unfold manifest_queries in I, I'. cons_incl.
  assert (CL : forall m, no_bar (mf_scope m) -> no_bar (iso fmt (mf_start m)) -> no_bar (iso fmt (mf_end m)) ->
     Forall item_clean (manifest_hash_items m)).
  { intros m D1 D2 D3. unfold manifest_hash_items, manifest_items. clean_list; try apply election_type_clean.
    - unfold manifest_name_items. destruct (mf_name m); exact Logic.I.
    - unfold manifest_name_items. destruct (mf_name m); [apply hopt_clean|exact Logic.I]. }
  rewrite (hash_iff S S') by (assumption || ne || (apply CL; assumption)).
  unfold manifest_hash_items at 1 2. unfold manifest_items. rewrite !map_map.
  rewrite map10, !str_iff, election_type_inj.
  rewrite (objs_iff S S' (unit_hash gp sha) unit_queries same_unit); try assumption.
  2:{ intros x. apply hash_range. }
  2,3: eapply incl_item; [eassumption|unfold manifest_hash_items, manifest_items; cbn; tauto].
  2:{ rewrite Forall_forall in C6, C6'. intros x y Hx Hy J J'. apply unit_iff; auto. }
  rewrite (objs_iff S S' (party_hash gp sha) party_queries same_party); try assumption.
  2:{ intros x. apply hash_range. }
  2,3: eapply incl_item; [eassumption|unfold manifest_hash_items, manifest_items; cbn; tauto].
  2:{ rewrite Forall_forall in C7, C7'. intros x y Hx Hy J J'. apply party_iff; auto. }
  rewrite (objs_iff S S' (fun c => hash (contest_hash_items c)) contest_queries same_contest); try assumption.
  2:{ intros x. apply hash_range. }
  2,3: eapply incl_item; [eassumption|unfold manifest_hash_items, manifest_items; rewrite map_map; cbn; tauto].
  2:{ rewrite Forall_forall in C8, C8', T, T'. intros x y Hx Hy J J'. apply contest_iff; auto. }
  rewrite (objs_iff S S' (style_hash gp sha) style_queries same_style); try assumption.
  2:{ intros x. apply hash_range. }
  2,3: eapply incl_item; [eassumption|unfold manifest_hash_items, manifest_items; cbn; tauto].
  2:{ rewrite Forall_forall in C9, C9'. intros x y Hx Hy J J'. apply style_iff; auto. }
  assert (K : hs (fst (manifest_name_items a)) = hs (fst (manifest_name_items b)) /\
              hs (snd (manifest_name_items a)) = hs (snd (manifest_name_items b)) <->
              same_opt same_intl (mf_name a) (mf_name b) /\
              (mf_name a <> None -> same_opt same_contact (mf_contact a) (mf_contact b))).
  { assert (HA : hs (hopt (intl_hash gp sha) (mf_name a)) = hs (hopt (intl_hash gp sha) (mf_name b))
               <-> same_opt same_intl (mf_name a) (mf_name b)).
    { apply opt_iff; [intros; apply hash_range|]. intros x y Ex Ey. rewrite Ex, Ey in *. apply intl_iff; assumption. }
    assert (HB : hs (hopt (contact_hash gp sha) (mf_contact a)) = hs (hopt (contact_hash gp sha) (mf_contact b))
               <-> same_opt same_contact (mf_contact a) (mf_contact b)).
    { apply opt_iff; [intros; apply hash_range|]. intros x y Ex Ey. rewrite Ex, Ey in *. apply contact_iff; assumption. }
    rewrite <- HA. unfold manifest_name_items, name_ok in *.
    destruct (mf_name a) as [t|], (mf_name b) as [t'|]; cbn [fst snd hopt].
    - rewrite <- HB. split; intros [A B]; split; auto. apply B. discriminate.
    - split; intros [A B]; exfalso; revert A; cbn [hash_string]; apply null_not_hex_q.
    - split; intros [A B]; exfalso; revert A; cbn [hash_string]; intros A; symmetry in A; revert A; apply null_not_hex_q.
    - split; intros _; split; try reflexivity. intros NN. now exfalso; apply NN. }
  unfold same_manifest. tauto.
Qed.
End Fixed.
End Commit.
