(** What callers expect of manifests, stated without the functions of the model
    (only the record types of [ManifestModel] are used). *)
From Coq Require Import String.
From Verif Require Import Base GroupModel CodecModel HashModel ManifestModel.
Open Scope Z_scope.

(** ** C44: referential integrity *)
Definition good_ids (l : list bytes) : Prop := NoDup l /\ ~ In [] l.

Record wf_contest (c : contest) : Prop := {
  wfc_elected : cd_elected c <= Z.of_nat (length (cd_selections c));
  wfc_allowed : cd_allowed c <> 0 -> cd_elected c <= cd_allowed c;
  wfc_candidates : good_ids (map sd_candidate (cd_selections c));
  wfc_ids : good_ids (map sd_id (cd_selections c));
  wfc_seqs : NoDup (map sd_seq (cd_selections c)) }.

Record wf_manifest (m : manifest) : Prop := {
  wfm_units : good_ids (map gu_id (mf_units m));
  wfm_styles : good_ids (map bs_id (mf_styles m));
  wfm_style_units : forall s, In s (mf_styles m) ->
    bs_units s <> [] /\ forall u, In u (bs_units s) -> In u (map gu_id (mf_units m));
  wfm_parties : good_ids (map pa_id (mf_parties m));
  wfm_candidates : good_ids (map ca_id (mf_candidates m));
  wfm_candidate_party : forall c, In c (mf_candidates m) ->
    ca_party c = [] \/ In (ca_party c) (map pa_id (mf_parties m));
  wfm_contests : good_ids (map cd_id (mf_contests m));
  wfm_contest_seqs : NoDup (map cd_seq (mf_contests m));
  wfm_each_contest : forall c, In c (mf_contests m) -> wf_contest c;
  wfm_districts : forall c, In c (mf_contests m) ->
    In (cd_district c) (map gu_id (mf_units m)) }.

(** The part of integrity that is not checked. *)
Definition candidates_resolve (m : manifest) : Prop :=
  forall c s, In c (mf_contests m) -> In s (cd_selections c) ->
  In (sd_candidate s) (map ca_id (mf_candidates m)).

(** ** C47: what the manifest hash commits to.
    The hash cannot tell an empty string from the string "null". *)
Definition same_str (a b : bytes) : Prop :=
  a = b \/ (a = [] /\ b = null_string) \/ (a = null_string /\ b = []).

Definition same_annotated (a b : annotated_string) : Prop :=
  same_str (an_annotation a) (an_annotation b) /\ same_str (an_value a) (an_value b).
Definition same_language (a b : language) : Prop :=
  same_str (la_value a) (la_value b) /\ same_str (la_language a) (la_language b).
Definition same_intl (a b : intl_text) : Prop := Forall2 same_language a b.
Definition same_contact (a b : contact_info) : Prop :=
  same_str (cx_name a) (cx_name b) /\ Forall2 same_str (cx_address a) (cx_address b)
  /\ Forall2 same_annotated (cx_email a) (cx_email b)
  /\ Forall2 same_annotated (cx_phone a) (cx_phone b).
Definition same_opt {A} (R : A -> A -> Prop) (a b : option A) : Prop :=
  match a, b with
  | None, None => True
  | Some x, Some y => R x y
  | _, _ => False
  end.
Definition same_unit (a b : gp_unit) : Prop :=
  same_str (gu_id a) (gu_id b) /\ same_str (gu_name a) (gu_name b) /\ gu_type a = gu_type b
  /\ same_opt same_contact (gu_contact a) (gu_contact b).
Definition same_style (a b : ballot_style) : Prop :=
  same_str (bs_id a) (bs_id b) /\ Forall2 same_str (bs_units a) (bs_units b)
  /\ Forall2 same_str (bs_parties a) (bs_parties b) /\ same_str (bs_image a) (bs_image b).
Definition same_party (a b : party) : Prop :=
  same_str (pa_id a) (pa_id b) /\ same_opt same_intl (pa_name a) (pa_name b)
  /\ same_str (pa_abbrev a) (pa_abbrev b) /\ same_str (pa_color a) (pa_color b)
  /\ same_str (pa_logo a) (pa_logo b).
Definition same_selection (a b : selection) : Prop :=
  same_str (sd_id a) (sd_id b) /\ sd_seq a = sd_seq b /\ same_str (sd_candidate a) (sd_candidate b).
(** Titles are compared together with the subtitle; a subtitle without title and
    the primary party ids are ignored. *)
Definition same_title (a b : contest) : Prop :=
  same_opt same_intl (cd_title a) (cd_title b)
  /\ (cd_title a <> None -> same_opt same_intl (cd_subtitle a) (cd_subtitle b)).
Definition same_contest (a b : contest) : Prop :=
  same_str (cd_id a) (cd_id b) /\ cd_seq a = cd_seq b /\ same_str (cd_district a) (cd_district b)
  /\ cd_variation a = cd_variation b /\ same_title a b /\ same_str (cd_name a) (cd_name b)
  /\ cd_elected a = cd_elected b /\ cd_allowed a = cd_allowed b
  /\ Forall2 same_selection (cd_selections a) (cd_selections b).
(** Candidates are ignored, dates are compared as formatted text, contact
    information counts only when there is a name. *)
Definition same_manifest (date : Z -> bytes) (a b : manifest) : Prop :=
  same_str (mf_scope a) (mf_scope b) /\ mf_type a = mf_type b
  /\ same_str (date (mf_start a)) (date (mf_start b)) /\ same_str (date (mf_end a)) (date (mf_end b))
  /\ same_opt same_intl (mf_name a) (mf_name b)
  /\ (mf_name a <> None -> same_opt same_contact (mf_contact a) (mf_contact b))
  /\ Forall2 same_unit (mf_units a) (mf_units b)
  /\ Forall2 same_party (mf_parties a) (mf_parties b)
  /\ Forall2 same_contest (mf_contests a) (mf_contests b)
  /\ Forall2 same_style (mf_styles a) (mf_styles b).

(** Every string of the manifest is free of the delimiter and every integer is a
    64-bit number. *)
Definition no_bar (s : bytes) : Prop := ~ In delim s.
Definition u64 (n : Z) : Prop := 0 <= n < 2 ^ 64.
Definition clean_annotated (a : annotated_string) : Prop := no_bar (an_annotation a) /\ no_bar (an_value a).
Definition clean_language (l : language) : Prop := no_bar (la_value l) /\ no_bar (la_language l).
Definition clean_intl (t : intl_text) : Prop := Forall clean_language t.
Definition clean_contact (c : contact_info) : Prop :=
  no_bar (cx_name c) /\ Forall no_bar (cx_address c)
  /\ Forall clean_annotated (cx_email c) /\ Forall clean_annotated (cx_phone c).
Definition clean_opt {A} (R : A -> Prop) (o : option A) : Prop :=
  match o with Some x => R x | None => True end.
Definition clean_unit (u : gp_unit) : Prop :=
  no_bar (gu_id u) /\ no_bar (gu_name u) /\ clean_opt clean_contact (gu_contact u).
Definition clean_style (s : ballot_style) : Prop :=
  no_bar (bs_id s) /\ Forall no_bar (bs_units s) /\ Forall no_bar (bs_parties s) /\ no_bar (bs_image s).
Definition clean_party (p : party) : Prop :=
  no_bar (pa_id p) /\ clean_opt clean_intl (pa_name p) /\ no_bar (pa_abbrev p)
  /\ no_bar (pa_color p) /\ no_bar (pa_logo p).
Definition clean_selection (s : selection) : Prop :=
  no_bar (sd_id s) /\ u64 (sd_seq s) /\ no_bar (sd_candidate s).
Definition clean_contest (c : contest) : Prop :=
  no_bar (cd_id c) /\ u64 (cd_seq c) /\ no_bar (cd_district c) /\ no_bar (cd_name c)
  /\ u64 (cd_elected c) /\ u64 (cd_allowed c)
  /\ clean_opt clean_intl (cd_title c) /\ clean_opt clean_intl (cd_subtitle c)
  /\ Forall clean_selection (cd_selections c).
Definition clean_manifest (date : Z -> bytes) (m : manifest) : Prop :=
  no_bar (mf_scope m) /\ no_bar (date (mf_start m)) /\ no_bar (date (mf_end m))
  /\ clean_opt clean_intl (mf_name m) /\ clean_opt clean_contact (mf_contact m)
  /\ Forall clean_unit (mf_units m) /\ Forall clean_party (mf_parties m)
  /\ Forall clean_contest (mf_contests m) /\ Forall clean_style (mf_styles m).
