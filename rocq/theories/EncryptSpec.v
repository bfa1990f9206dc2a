(** What a voter and an auditor expect of encrypted ballots, independent of the
    functions of the model. *)
From Verif Require Import Base GroupModel GroupSpec HashModel ElgamalModel ElgamalSpec ChaumModel
  PropChaum ManifestModel BallotModel EncryptModel.
Open Scope Z_scope.

(** ** Votes *)
(** The vote a list of selections casts for an option: that of its first entry for
    the option, and 0 without one. *)
Fixpoint vote_for (l : list pselection) (id : bytes) : Z :=
  match l with
  | [] => 0
  | s :: t => if list_eq_dec Z.eq_dec (ps_id s) id then ps_vote s else vote_for t id
  end.
Fixpoint first_entry (l : list pselection) (id : bytes) : option pselection :=
  match l with
  | [] => None
  | s :: t => if list_eq_dec Z.eq_dec (ps_id s) id then Some s else first_entry t id
  end.
(** The entries of the first contest with the identifier. *)
Fixpoint contest_entries (l : list pcontest) (id : bytes) : list pselection :=
  match l with
  | [] => []
  | c :: t => if list_eq_dec Z.eq_dec (pc_id c) id then pc_selections c else contest_entries t id
  end.
(** The vote a ballot casts for an option of a contest. *)
Definition ballot_vote (b : pballot) (contest option : bytes) : Z :=
  vote_for (contest_entries (pb_contests b) contest) option.
Fixpoint total_votes (l : list pselection) : Z :=
  match l with [] => 0 | s :: t => ps_vote s + total_votes t end.
Fixpoint marked (l : list pselection) : Z :=
  match l with [] => 0 | s :: t => (if 1 <=? ps_vote s then 1 else 0) + marked t end.
(** The votes a voter may cast; 0 in the manifest means "as many as seats". *)
Definition vote_limit (elected allowed : Z) : Z := if allowed =? 0 then elected else allowed.
Definition overvoted (l : list pselection) (elected allowed : Z) : Prop :=
  elected < marked l \/ vote_limit elected allowed < total_votes l.
(** Votes are unsigned integers. *)
Definition unsigned_votes (l : list pselection) : Prop := Forall (fun s => 0 <= ps_vote s < 2 ^ 64) l.

(** ** Environments *)
(** The generator answers with elements of Z_Q, the buffers with powers of G and of
    the public key. *)
Record env_good (gp : params) (K : Z) (E : env) : Prop := {
  eg_rand : forall n, 0 <= e_rand E n < gpQ gp;
  eg_tq : forall n t, e_tq E n = Some t ->
    good_triple gp K (tq_t1 t) /\ good_triple gp K (tq_t2 t) /\ good_quad gp K (tq_q t);
  eg_tr : forall n t, e_tr E n = Some t -> good_triple gp K t }.
(** No precomputed values: the buffers are empty throughout. *)
Definition env_empty (E : env) : Prop := (forall n, e_tq E n = None) /\ (forall n, e_tr E n = None).

(** ** What an encrypted selection contains *)
Definition selection_holds (gp : params) (K : Z) (c : cselection) (v : Z) : Prop :=
  exists r, cs_nonce c = Some r /\ 0 <= r < gpQ gp /\ cs_ct c = spec_enc gp K v r.

(** ** What an encrypted contest contains
    [s] is the secret key, [votes] the voter's entries for the contest. *)
Definition votes_of (votes : list pselection) (d : contest_ph) : list Z :=
  map (fun x => vote_for votes (sd_id x)) (get_selections (cw_base d)).
Definition over_limit (vs : list Z) (elected allowed : Z) : Prop :=
  elected < Z.of_nat (length (filter (fun v => 1 <=? v) vs)) \/
  vote_limit elected allowed < fold_right Z.add 0 vs.
Record contest_contents (gp : params) (s : Z) (over : Prop) (votes : list pselection) (d : contest_ph)
  (cc : ccontest) (vs pvs : list Z) : Prop := {
  co_contest : cc_id cc = cd_id (cw_base d) /\ cc_seq cc = cd_seq (cw_base d);
  co_ids : map cs_id (cc_selections cc)
           = map sd_id (get_selections (cw_base d)) ++ map sd_id (get_placeholders d);
  co_marks : map cs_placeholder (cc_selections cc)
           = map (fun _ => false) (get_selections (cw_base d)) ++ map (fun _ => true) (get_placeholders d);
  co_values : map (fun x => decrypt gp (cs_ct x) s) (cc_selections cc) = vs ++ pvs;
  co_bits : Forall (fun v => v = 0 \/ v = 1) (vs ++ pvs);
  co_sum : fold_right Z.add 0 (vs ++ pvs) = cd_elected (cw_base d);
  co_real : ~ over -> vs = votes_of votes d;
  co_over : over -> vs = map (fun _ => 0) (get_selections (cw_base d)) /\
                    pvs = map (fun _ => 1) (get_placeholders d) }.

(** ** Manifests ballots can be encrypted against *)
Record manifest_ready (m : internal_manifest) : Prop := {
  mr_ids : forall d d', In d (im_contests m) -> In d' (im_contests m) ->
    cd_id (cw_base d) = cd_id (cw_base d') -> d = d';
  mr_selections : forall d, In d (im_contests m) -> NoDup (map sd_id (cd_selections (cw_base d)));
  mr_placeholders : forall d, In d (im_contests m) ->
    Z.of_nat (length (cw_placeholders d)) = cd_elected (cw_base d);
  mr_elected : forall d, In d (im_contests m) -> cd_elected (cw_base d) < 2 ^ 64;
  mr_allowed : forall d, In d (im_contests m) -> cd_allowed (cw_base d) < 2 ^ 64;
  mr_sizes : forall d, In d (im_contests m) -> Z.of_nat (length (cd_selections (cw_base d))) < 2 ^ 64 }.
Definition votes_unsigned (b : pballot) : Prop :=
  Forall (fun c => unsigned_votes (pc_selections c)) (pb_contests b).

(** No scalar of a proof is zero: each is zero with probability about 2^-256. *)
Definition no_zero_scalars (cc : ccontest) : Prop :=
  Forall (fun x => forall p, cs_proof x = Some p -> scalars_nonzero p) (cc_selections cc) /\
  forall p, cc_proof cc = Some p -> cp_c p <> 0 /\ cp_v p <> 0.

(** ** Ballots up to the randomised parts *)
(** Everything but the proofs of the selections. *)
Definition strip_selection (c : cselection) : cselection :=
  {| cs_id := cs_id c; cs_seq := cs_seq c; cs_desc := cs_desc c; cs_ct := cs_ct c;
     cs_placeholder := cs_placeholder c; cs_nonce := cs_nonce c; cs_hash := cs_hash c; cs_proof := None |}.
Definition strip_contest (c : ccontest) : ccontest :=
  {| cc_id := cc_id c; cc_seq := cc_seq c; cc_desc := cc_desc c;
     cc_selections := map strip_selection (cc_selections c); cc_nonce := cc_nonce c; cc_acc := cc_acc c;
     cc_hash := cc_hash c; cc_proof := cc_proof c; cc_hashed := cc_hashed c |}.
Definition strip_ballot (b : cballot) : cballot :=
  {| cb_id := cb_id b; cb_style := cb_style b; cb_manifest := cb_manifest b; cb_seed := cb_seed b;
     cb_contests := map strip_contest (cb_contests b); cb_code := cb_code b; cb_timestamp := cb_timestamp b;
     cb_nonce := cb_nonce b; cb_hash := cb_hash b |}.
(** Everything but the placeholder mark of plaintext selections. *)
Definition unmark_selection (s : pselection) : pselection :=
  {| ps_id := ps_id s; ps_vote := ps_vote s; ps_placeholder := false; ps_writein := ps_writein s |}.
Definition unmark_contest (c : pcontest) : pcontest :=
  {| pc_id := pc_id c; pc_selections := map unmark_selection (pc_selections c) |}.
Definition unmark (b : pballot) : pballot :=
  {| pb_id := pb_id b; pb_style := pb_style b; pb_contests := map unmark_contest (pb_contests b) |}.
