(** What two encrypted ballots with the same hash agree on. *)
From Verif Require Import Base GroupModel ElgamalModel ManifestSpec BallotModel.
Open Scope Z_scope.

Definition same_cselection (a b : cselection) : Prop :=
  same_str (cs_id a) (cs_id b) /\ cs_desc a = cs_desc b /\ cs_ct a = cs_ct b.
(** Selections in the order of their sequence numbers. *)
Definition same_ccontest (a b : ccontest) : Prop :=
  same_str (cc_id a) (cc_id b) /\ cc_desc a = cc_desc b /\ Forall2 same_cselection (cc_sorted a) (cc_sorted b).
Definition same_cballot (a b : cballot) : Prop :=
  same_str (cb_id a) (cb_id b) /\ cb_manifest a = cb_manifest b /\ Forall2 same_ccontest (cb_contests a) (cb_contests b).

(** The values fit their types and the identifiers do not contain the delimiter. *)
Definition clean_cselection (a : cselection) : Prop :=
  no_bar (cs_id a) /\ 0 <= cs_desc a < 2 ^ 256 /\ 0 <= ct_pad (cs_ct a) < 2 ^ 4096 /\ 0 <= ct_data (cs_ct a) < 2 ^ 4096.
Definition clean_ccontest (a : ccontest) : Prop :=
  no_bar (cc_id a) /\ 0 <= cc_desc a < 2 ^ 256 /\ Forall clean_cselection (cc_selections a).
Definition clean_cballot (a : cballot) : Prop :=
  no_bar (cb_id a) /\ 0 <= cb_manifest a < 2 ^ 256 /\ 0 <= cb_seed a < 2 ^ 256 /\ u64 (cb_timestamp a) /\
  Forall clean_ccontest (cb_contests a).

Section Stored.
Context (gp : params) (sha : bytes -> Z).
(** The stored hashes are those of the contents. *)
Definition stored_selection (a : cselection) : Prop :=
  cs_hash a = cselection_hash gp sha (cs_id a) (cs_desc a) (cs_ct a).
Definition stored_contest (a : ccontest) : Prop :=
  ccontest_hash gp sha (cc_id a) (cc_sorted a) (cc_desc a) = Ok (cc_hash a) /\ Forall stored_selection (cc_selections a).
Definition stored_ballot (a : cballot) : Prop :=
  cballot_hash gp sha (cb_id a) (cb_contests a) (cb_manifest a) = Ok (cb_hash a) /\ Forall stored_contest (cb_contests a).
Definition stored_code (a : cballot) : Prop :=
  stored_ballot a /\ cb_code a = ballot_code gp sha (cb_seed a) (cb_timestamp a) (cb_hash a).
End Stored.
