(** What a C client expects of the answers to encryption calls. *)
From Coq Require Import String.
From Verif Require Import Base GroupModel HashModel ManifestModel BallotModel EncryptModel EncryptSpec PropEncrypt StatusModel.
Open Scope Z_scope.

(** The library takes a contest for overvoted when more options are marked than seats exist, or
    when the votes, added as 64-bit numbers, exceed the limit. *)
Definition noticed (vs : list Z) (elected allowed : Z) : Prop :=
  elected < Z.of_nat (List.length (filter (fun v => 1 <=? v) vs)) \/
  vote_limit elected allowed < fold_right Z.add 0 vs mod 2 ^ 64.
(** Entries for a contest that can be encrypted: overvoted and noticed, or votes of 0 and 1. *)
Definition acceptable (votes : list pselection) (d : contest_ph) : Prop :=
  noticed (votes_of votes d) (cd_elected (cw_base d)) (cd_allowed (cw_base d)) \/
  Forall (fun v => v <= 1) (votes_of votes d).
Definition ballot_acceptable (b : pballot) (ds : list contest_ph) : Prop :=
  forall d, In d ds -> acceptable (entries b d) d.
(** A contest given by itself: its own identifier, not more entries than options, and votes as
    above, the entries being counted as they stand. *)
Definition contest_acceptable (c : pcontest) (d : contest_ph) : Prop :=
  pc_id c = cd_id (cw_base d) /\
  (List.length (pc_selections c) <= List.length (cd_selections (cw_base d)))%nat /\
  (noticed (map ps_vote (pc_selections c)) (cd_elected (cw_base d)) (cd_allowed (cw_base d)) \/
   Forall (fun v => v <= 1) (votes_of (pc_selections c) d)).

(** What does not depend on the voter: the contests of the style with options and hashes, and
    no nonce that happens to be zero. *)
Record usable gp sha (b : pballot) (m : internal_manifest) (n : Z) (ds : list contest_ph) : Prop := {
  us_style : contests_for m (pb_style b) = Ok ds;
  us_some : ds <> [];
  us_hash : forall d, In d ds -> exists dh, contest_hash gp sha (cw_base d) = Ok dh /\
    get_selections (cw_base d) ++ get_placeholders d <> [] /\
    Forall (fun x => nonce_of gp sha (selection_hash gp sha x)
        (HElemQ (nonce_of gp sha dh (HElemQ (nonce_seed gp sha (im_hash m) (pb_id b) n)) (cd_seq (cw_base d)))) (sd_seq x) <> 0)
      (get_selections (cw_base d) ++ get_placeholders d) }.
(** The nonce of a call: the one given, or the first random number. *)
Definition used_nonce (E : env) (nonce : option Z) : Z :=
  match nonce with Some n => n | None => e_rand E 0%nat end.

(** Success with a result for what can be encrypted, INVALID_ARGUMENT and no result for the rest. *)
Definition answers {A} (x : outcome (eg_status * option A)) (good : Prop) : Prop :=
  (good /\ exists a, x = Ok (EgSuccess, Some a)) \/ (~ good /\ x = Ok (EgInvalidArgument, None)).
(** With the check of the proofs, [y] being the answer without it: RUNTIME_ERROR is a failed check
    and the only other answer. *)
Definition answers_checked {A} (x y : outcome (eg_status * option A)) : Prop :=
  x = y \/ x = Ok (EgRuntimeError, None).

(** The name of a status, as a client's log should show it. *)
Definition status_text (s : eg_status) : bytes :=
  (s2b "ELECTIONGUARD_STATUS_" ++ match s with
  | EgSuccess => s2b "SUCCESS" | EgInvalidArgument => s2b "ERROR_INVALID_ARGUMENT"
  | EgOutOfRange => s2b "ERROR_OUT_OF_RANGE" | EgIoError => s2b "ERROR_IO_ERROR"
  | EgBadAccess => s2b "ERROR_BAD_ACCESS" | EgBadAlloc => s2b "ERROR_BAD_ALLOC"
  | EgAlreadyExists => s2b "ERROR_ALREADY_EXISTS" | EgRuntimeError => s2b "ERROR_RUNTIME_ERROR"
  | EgUnknown => s2b "UNKNOWN"
  end)%list.
(** The seed of a mediator's next ballot: the code of the last one, at first the device's hash. *)
Definition next_seed gp sha (md : mediator) : Z :=
  match md_seed md with
  | Some s => s
  | None => hash_elems gp sha [HU64 (dv_device (md_device md)); HU64 (dv_session (md_device md));
                               HU64 (dv_launch (md_device md)); HStr (dv_location (md_device md))]
  end.
(** After a call the mediator holds [seed] and is otherwise the same. *)
Definition moved (md md' : mediator) (seed : Z) : Prop :=
  md_seed md' = Some seed /\ md_manifest md' = md_manifest md /\ md_context md' = md_context md /\ md_device md' = md_device md.
