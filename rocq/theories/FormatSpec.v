(** What is hashed, field by field, for every hashed object: the documents other
    implementations have to reproduce.  Uses only the record types of the model
    and HashSpec.v. *)
From Coq Require Import String.
From Verif Require Import Base GroupModel ElgamalModel ManifestModel BallotModel HashSpec.
Open Scope string_scope.
Open Scope list_scope.
Open Scope Z_scope.

Section Spec.
Context (Q : Z) (sha : bytes -> Z) (fmt : Z -> bytes).
Notation H := (H Q sha).
Definition doc {A} (f : A -> Z) (a : A) : field := ModQ (f a).
Definition docs {A} (f : A -> Z) (l : list A) : field := Seq (map (doc f) l).
Definition opt {A} (f : A -> Z) (o : option A) : field :=
  match o with Some a => doc f a | None => Absent end.
Definition texts (l : list bytes) : field := Seq (map Text l).
(** Whole seconds since the epoch. *)
Definition date (t : Z) : field := Text (fmt (Z.quot t (10 ^ 9))).

Definition h_annotated (a : annotated_string) : Z := H [Text (an_annotation a); Text (an_value a)].
Definition h_language (l : language) : Z := H [Text (la_value l); Text (la_language l)].
Definition h_intl (t : intl_text) : Z := H [docs h_language t].
Definition h_contact (c : contact_info) : Z :=
  H [Text (cx_name c); texts (cx_address c); docs h_annotated (cx_email c); docs h_annotated (cx_phone c)].
Definition h_unit (u : gp_unit) : Z :=
  H [Text (gu_id u); Text (gu_name u); Text (reporting_unit_string (gu_type u)); opt h_contact (gu_contact u)].
Definition h_style (s : ballot_style) : Z :=
  H [Text (bs_id s); texts (bs_units s); texts (bs_parties s); Text (bs_image s)].
Definition h_party (p : party) : Z :=
  H [Text (pa_id p); opt h_intl (pa_name p); Text (pa_abbrev p); Text (pa_color p); Text (pa_logo p)].
Definition h_candidate (c : candidate) : Z :=
  H [Text (ca_id c); opt h_intl (ca_name c); Text (ca_party c); Text (ca_image c)].
Definition h_selection (s : selection) : Z :=
  H [Text (sd_id s); Number (sd_seq s); Text (sd_candidate s)].
(** The subtitle counts only beside a title. *)
Definition h_contest (c : contest) : Z :=
  H [Text (cd_id c); Number (cd_seq c); Text (cd_district c); Text (vote_variation_string (cd_variation c));
     opt h_intl (cd_title c);
     match cd_title c with Some _ => opt h_intl (cd_subtitle c) | None => Absent end;
     Text (cd_name c); Number (cd_elected c); Number (cd_allowed c); docs h_selection (cd_selections c)].
(** The contact information counts only beside a name. *)
Definition h_manifest (m : manifest) : Z :=
  H [Text (mf_scope m); Text (election_type_string (mf_type m)); date (mf_start m); date (mf_end m);
     opt h_intl (mf_name m);
     match mf_name m with Some _ => opt h_contact (mf_contact m) | None => Absent end;
     docs h_unit (mf_units m); docs h_party (mf_parties m); docs h_contest (mf_contests m);
     docs h_style (mf_styles m)].

Definition h_ciphertext (c : ciphertext) : Z := H [ModP (ct_pad c); ModP (ct_data c)].
Definition h_hashed (c : hashed_ct) : Z := H [ModP (hc_pad c); Octets (hc_data c); Octets (hc_mac c)].
Definition h_cselection (id : bytes) (desc : Z) (ct : ciphertext) : Z :=
  H [Text id; ModQ desc; ModQ (h_ciphertext ct)].
Definition h_ccontest (id : bytes) (desc : Z) (selection_hashes : list Z) : Z :=
  H (Text id :: ModQ desc :: map ModQ selection_hashes).
Definition h_cballot (id : bytes) (manifest : Z) (contest_hashes : list Z) : Z :=
  H (Text id :: ModQ manifest :: map ModQ contest_hashes).
Definition h_device (device session launch : Z) (location : bytes) : Z :=
  H [Number device; Number session; Number launch; Text location].
Definition h_code (seed timestamp ballot : Z) : Z := H [ModQ seed; Number timestamp; ModQ ballot].
Definition h_nonce_seed (manifest : Z) (id : bytes) (nonce : Z) : Z := H [ModQ manifest; Text id; ModQ nonce].
Definition h_base (P G guardians quorum manifest : Z) : Z :=
  H [ModP P; ModQ Q; ModP G; Number guardians; Number quorum; ModQ manifest].
Definition h_extended (base commitment : Z) : Z := H [ModQ base; ModQ commitment].
(** The i-th nonce of a sequence. *)
Definition h_nonce (seed : Z) (header : field) (i : Z) : Z := H [ModQ (H [ModQ seed; header]); Number i].
Definition h_nonce2 (seed : Z) (header : field) (i : Z) (label : bytes) : Z :=
  H [ModQ (H [ModQ seed; header]); Number i; Text label].
(** Challenges. *)
Definition h_disjunctive (header : Z) (m : ciphertext) (a0 b0 a1 b1 : Z) : Z :=
  H [ModQ header; ModP (ct_pad m); ModP (ct_data m); ModP a0; ModP b0; ModP a1; ModP b1].
Definition h_constant (header : Z) (m : ciphertext) (a b : Z) : Z :=
  H [ModQ header; ModP (ct_pad m); ModP (ct_data m); ModP a; ModP b].
Definition h_session (pad shared : Z) : Z := H [ModP pad; ModP shared].
End Spec.
