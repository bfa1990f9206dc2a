(** What publishing a ballot asks of it, beyond the conditions of its encryption. *)
From Verif Require Import Base GroupModel ElgamalModel ChaumModel ManifestModel BallotModel SerializeSpec.
Local Open Scope Z_scope.

(** The sequence numbers of a manifest are machine integers. *)
Definition numbered (m : internal_manifest) : Prop :=
  forall d, In d (im_contests m) -> u64 (cd_seq (cw_base d)) = true /\
    forall x, In x (cd_selections (cw_base d)) \/ In x (cw_placeholders d) -> u64 (sd_seq x) = true.
(** No hash that is published is zero (each is with probability about 2^-256), nor is all of the
    encrypted extended data or its authentication code. *)
Definition nonzero_selection (x : cselection) : Prop :=
  cs_desc x <> 0 /\ cs_hash x <> 0 /\ forall p, cs_proof x = Some p -> dp_c p <> 0.
Definition nonzero_contest (c : ccontest) : Prop :=
  cc_desc c <> 0 /\ cc_hash c <> 0 /\ Forall nonzero_selection (cc_selections c) /\
  forall h, cc_hashed c = Some h -> some_bit (hc_data h) = true /\ some_bit (hc_mac h) = true.
Definition nonzero_ballot (b : cballot) : Prop :=
  cb_manifest b <> 0 /\ cb_seed b <> 0 /\ cb_code b <> 0 /\ cb_hash b <> 0 /\ Forall nonzero_contest (cb_contests b).
(** Every nonce is gone. *)
Definition without_nonces (b : cballot) : Prop := Forall (fun n => n = Some 0) (all_nonces b).
