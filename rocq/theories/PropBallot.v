(** Properties C38-C42 and C57: encrypted ballots, compact ballots, ballot codes and
    contexts. *)
From Coq Require Import Permutation Psatz String.
From Verif Require Import Base GroupModel GroupSpec GroupProofs CodecModel CodecProofs HashModel HashProofs Algebra
  ElgamalModel ElgamalSpec ElgamalProofs ChaumModel ChaumProofs TallyProofs HashedProofs
  SortModel SortProofs ManifestModel ManifestSpec ManifestProofs BallotModel JsonModel EncryptModel
  PropGroup PropElgamal PropChaum PropManifest EncryptSpec EncryptProofs BallotProofs BallotProofs2 BallotProofs3
  BallotProofs4 BallotProofs5 ContextModel PropEncrypt TestParams.
Open Scope string_scope.
Open Scope list_scope.
Open Scope Z_scope.
Ltac Zify.zify_post_hook ::= idtac.

(** * C38 *)
(** Seed and code of a successful response, and the chain they have to form. *)
Definition link (x : response) : list (Z * Z) :=
  match x with
  | RespBallot (Ok c) => [(cb_seed c, cb_code c)]
  | RespCompact (Ok c) => [(cct_seed c, cct_code c)]
  | _ => []
  end.
Fixpoint chained (s : Z) (l : list (Z * Z)) : Prop :=
  match l with
  | [] => True
  | (seed, code) :: t => seed = s /\ chained code t
  end.
(** The code of a response is the hash of seed, timestamp and ballot hash. *)
Definition coded gp sha (x : response) : Prop :=
  match x with
  | RespBallot (Ok c) => cb_code c = hash_elems gp sha [HElemQ (cb_seed c); HU64 (cb_timestamp c); HElemQ (cb_hash c)]
  | RespCompact (Ok c) => exists h, cct_code c = hash_elems gp sha [HElemQ (cct_seed c); HU64 (cct_timestamp c); HElemQ h]
  | _ => True
  end.
Definition failed (x : response) : bool :=
  match x with RespBallot (Ok _) | RespCompact (Ok _) => false | _ => true end.

Section Chain.
Context (gp : params) (sha : bytes -> Z) (hmac : bytes -> bytes -> Z) (dump : json -> outcome bytes).
Definition next_seed (md : mediator) : Z :=
  match md_seed md with Some s => s | None => device_get_hash gp sha (md_device md) end.
Definition mequiv (a b : mediator) : Prop :=
  md_manifest a = md_manifest b /\ md_context a = md_context b /\ md_device a = md_device b /\ next_seed a = next_seed b.
Lemma value_ok {A} (o : outcome (A * st)) a : value_of o = Ok a -> exists s, o = Ok (a, s).
Proof. destruct o as [[x s]| |]; cbn; intros H; try discriminate. apply Ok_inj in H. subst. eauto. Qed.
Lemma step_equiv a b r : mequiv a b ->
  snd (mediator_step gp sha hmac dump a r) = snd (mediator_step gp sha hmac dump b r) /\
  mequiv (fst (mediator_step gp sha hmac dump a r)) (fst (mediator_step gp sha hmac dump b r)).
Proof.
  intros (H1 & H2 & H3 & H4). unfold mediator_step. fold (next_seed a). fold (next_seed b). rewrite H1, H2, H4.
  destruct r as [E p v|E p v]; cbn [snd fst]; (split; [reflexivity|]);
    destruct (value_of _); repeat split; cbn; assumption.
Qed.
Lemma step_failed a r : failed (snd (mediator_step gp sha hmac dump a r)) = true ->
  mequiv (fst (mediator_step gp sha hmac dump a r)) a.
Proof.
  unfold mediator_step. destruct r as [E p v|E p v]; cbn [snd fst]; destruct (value_of _); cbn [failed]; try discriminate;
    intros _; repeat split.
Qed.
Lemma step_link a r s c : link (snd (mediator_step gp sha hmac dump a r)) = [(s, c)] ->
  s = next_seed a /\ next_seed (fst (mediator_step gp sha hmac dump a r)) = c.
Proof.
  unfold mediator_step. destruct r as [E p v|E p v]; cbn [snd fst]; fold (next_seed a);
    destruct (value_of _) as [x| |] eqn:EV; cbn [link]; try discriminate; intros H; injection H as <- <-.
  - split; [|reflexivity]. apply value_ok in EV. destruct EV as (s1 & EV). apply mbind_ok in EV. destruct EV as (t & s2 & _ & EV).
    apply (encrypt_ballot_ok gp sha hmac dump) in EV.
    destruct EV as (n & _ & ds & nb & _ & _ & _ & _ & _ & _ & _ & HS & _). exact HS.
  - split; [|reflexivity]. apply value_ok in EV. destruct EV as (s1 & EV). apply mbind_ok in EV. destruct EV as (t & s2 & _ & EV).
    unfold encrypt_compact_ballot in EV. apply mbind_ok in EV. destruct EV as (nb & s3 & _ & EV).
    apply mbind_ok in EV. destruct EV as (c & s4 & EB & EV). apply lift_ok in EV. destruct EV as [EV _].
    apply compress_cipher_ok in EV. destruct EV as (n & _ & _ & ->). cbn [cct_seed].
    apply (encrypt_ballot_ok gp sha hmac dump) in EB.
    destruct EB as (n' & _ & ds & nb' & _ & _ & _ & _ & _ & _ & _ & HS & _). exact HS.
Qed.
Lemma step_coded a r : coded gp sha (snd (mediator_step gp sha hmac dump a r)).
Proof.
  unfold mediator_step. destruct r as [E p v|E p v]; cbn [snd]; fold (next_seed a);
    destruct (value_of _) as [x| |] eqn:EV; cbn [coded]; try exact I.
  - apply value_ok in EV. destruct EV as (s1 & EV). apply mbind_ok in EV. destruct EV as (t & s2 & _ & EV).
    apply (encrypt_ballot_ok gp sha hmac dump) in EV.
    destruct EV as (n & _ & ds & nb & _ & _ & _ & _ & _ & _ & _ & HS & _ & _ & _ & HC & _). rewrite HS. exact HC.
  - apply value_ok in EV. destruct EV as (s1 & EV). apply mbind_ok in EV. destruct EV as (t & s2 & _ & EV).
    unfold encrypt_compact_ballot in EV. apply mbind_ok in EV. destruct EV as (nb & s3 & _ & EV).
    apply mbind_ok in EV. destruct EV as (c & s4 & EB & EV). apply lift_ok in EV. destruct EV as [EV _].
    apply compress_cipher_ok in EV. destruct EV as (n & _ & _ & ->). cbn [cct_seed cct_code cct_timestamp].
    apply (encrypt_ballot_ok gp sha hmac dump) in EB.
    destruct EB as (n' & _ & ds & nb' & _ & _ & _ & _ & _ & _ & _ & HS & _ & _ & _ & HC & _).
    exists (cb_hash c). rewrite HS. exact HC.
Qed.
Lemma run_chain l : forall md md' xs, mediator_run gp sha hmac dump md l = (md', xs) ->
  chained (next_seed md) (flat_map link xs) /\ Forall (coded gp sha) xs.
Proof.
  induction l as [|r l IH]; intros md md' xs H; cbn [mediator_run] in H.
  - injection H as <- <-. split; [exact I|constructor].
  - destruct (mediator_step gp sha hmac dump md r) as [md1 x] eqn:ES.
    destruct (mediator_run gp sha hmac dump md1 l) as [md2 ys] eqn:ER. injection H as <- <-.
    destruct (IH _ _ _ ER) as [I1 I2].
    pose proof (step_link md r) as SL. pose proof (step_failed md r) as SF. pose proof (step_coded md r) as SC.
    rewrite ES in SL, SF, SC. cbn [fst snd] in SL, SF, SC. split; [|constructor; assumption].
    cbn [flat_map]. assert (L : (exists s c, link x = [(s, c)]) \/ link x = [] /\ failed x = true).
    { destruct x as [[c| |]|[c| |]]; cbn; eauto. }
    destruct L as [(s & c & L)|[L F]]; rewrite L.
    + destruct (SL _ _ L) as [-> HN]. cbn [app chained]. split; [reflexivity|]. rewrite <- HN. exact I1.
    + cbn [app]. destruct (SF F) as (_ & _ & _ & HN). rewrite <- HN. exact I1.
Qed.
Lemma run_equiv l : forall a b, mequiv a b ->
  snd (mediator_run gp sha hmac dump a l) = snd (mediator_run gp sha hmac dump b l) /\
  mequiv (fst (mediator_run gp sha hmac dump a l)) (fst (mediator_run gp sha hmac dump b l)).
Proof.
  induction l as [|r l IH]; intros a b H; cbn [mediator_run]; [split; [reflexivity|exact H]|].
  destruct (step_equiv a b r H) as [S1 S2].
  destruct (mediator_step gp sha hmac dump a r) as [a1 x], (mediator_step gp sha hmac dump b r) as [b1 y].
  cbn [fst snd] in S1, S2. subst y. destruct (IH _ _ S2) as [R1 R2].
  destruct (mediator_run gp sha hmac dump a1 l) as [a2 xs], (mediator_run gp sha hmac dump b1 l) as [b2 ys].
  cbn [fst snd] in *. split; [congruence|exact R2].
Qed.
Lemma run_failures l : forall md,
  let kept := map fst (filter (fun p => negb (failed (snd p))) (combine l (snd (mediator_run gp sha hmac dump md l)))) in
  snd (mediator_run gp sha hmac dump md kept) = filter (fun x => negb (failed x)) (snd (mediator_run gp sha hmac dump md l)) /\
  mequiv (fst (mediator_run gp sha hmac dump md kept)) (fst (mediator_run gp sha hmac dump md l)).
Proof.
  induction l as [|r l IH]; intros md kept; subst kept; [cbn; split; [reflexivity|repeat split]|].
  cbn [mediator_run]. pose proof (step_failed md r) as SF.
  destruct (mediator_step gp sha hmac dump md r) as [md1 x] eqn:ES. cbn [fst snd] in SF.
  specialize (IH md1). cbv zeta in IH.
  destruct (mediator_run gp sha hmac dump md1 l) as [md2 xs] eqn:ER. cbn [fst snd] in *.
  cbn [combine filter snd]. destruct (failed x) eqn:EF; cbn [negb map fst].
  - set (kept := map fst _) in *. destruct (run_equiv kept _ _ (SF eq_refl)) as [Q1 Q2].
    destruct IH as [I1 I2]. split; [congruence|].
    destruct I2 as (J1 & J2 & J3 & J4), Q2 as (K1 & K2 & K3 & K4). repeat split; congruence.
  - cbn [mediator_run]. rewrite ES. set (kept := map fst _) in *.
    destruct (mediator_run gp sha hmac dump md1 kept) as [md3 ys]. cbn [fst snd] in *.
    destruct IH as [I1 I2]. split; [congruence|exact I2].
Qed.
End Chain.

(** For every history of requests on a new mediator: the first seed is the device hash,
    every later seed is the code of the last successful request before it, and codes are
    hashes of seed, timestamp and ballot hash.  A request with undefined behaviour
    counts as failed here; nothing is claimed about what such a run does afterwards. *)
Theorem C38_chain gp sha hmac dump m cx d md reqs md' resps :
  mediator_new m cx d = Ok md -> mediator_run gp sha hmac dump md reqs = (md', resps) ->
  chained (hash_elems gp sha [HU64 (dv_device d); HU64 (dv_session d); HU64 (dv_launch d); HStr (dv_location d)])
          (flat_map link resps) /\
  Forall (coded gp sha) resps.
Proof.
  intros HN HR. unfold mediator_new in HN. destruct (bytes_eqb _ _); [|discriminate]. apply Ok_inj in HN. subst md.
  exact (run_chain gp sha hmac dump reqs _ _ _ HR).
Qed.
(** Leaving out the failed requests changes none of the other responses. *)
Theorem C38_failures gp sha hmac dump md reqs :
  let resps := snd (mediator_run gp sha hmac dump md reqs) in
  let kept := map fst (filter (fun p => negb (failed (snd p))) (combine reqs resps)) in
  snd (mediator_run gp sha hmac dump md kept) = filter (fun x => negb (failed x)) resps.
Proof. exact (proj1 (run_failures gp sha hmac dump reqs md)). Qed.
(** One response per request. *)
Theorem C38_responses gp sha hmac dump reqs : forall md,
  List.length (snd (mediator_run gp sha hmac dump md reqs)) = List.length reqs.
Proof.
  induction reqs as [|r l IH]; intros md; cbn [mediator_run]; [reflexivity|].
  destruct (mediator_step _ _ _ _ _ _) as [md1 x]. specialize (IH md1).
  destruct (mediator_run _ _ _ _ _ _) as [md2 xs]. cbn [snd List.length] in *. congruence.
Qed.

(** * C39 *)
(** Two encryptions of the same ballot with the same nonce, timestamp and seed, without
    precomputed values: whatever random numbers they draw, they give the same encrypted
    ballot, except for the randomised proofs of the selections. *)
Theorem C39_reproducible gp sha hmac dump E E' b m cx code_seed n ts v v' st1 st2 r r' s1 s2 :
  valid_params gp -> env_empty E -> env_empty E' -> (forall k, 0 <= e_rand E' k < gpQ gp) -> ts <> 0 ->
  encrypt_ballot gp sha hmac dump E b m cx code_seed (Some n) ts v st1 = Ok (r, s1) ->
  encrypt_ballot gp sha hmac dump E' b m cx code_seed (Some n) ts v' st2 = Ok (r', s2) ->
  strip_ballot r = strip_ballot r'.
Proof.
  intros V HE HE' HR HT H1 H2.
  assert (X1 : encrypt_ballot gp sha hmac dump E b m cx code_seed (Some n) ts false st1 = Ok (r, s1)).
  { destruct v; [|exact H1]. apply (sub_ballot gp sha hmac dump _ _ _ _ _ _ _ _ _ H1). }
  assert (X2 : encrypt_ballot gp sha hmac dump E' b m cx code_seed (Some n) ts false st2 = Ok (r', s2)).
  { destruct v'; [|exact H2]. apply (sub_ballot gp sha hmac dump _ _ _ _ _ _ _ _ _ H2). }
  destruct (ballot_sim gp V sha hmac dump E E' b m cx code_seed n ts HE HE' HR HT st1 st2 _ _ X1) as (y & s & HY & HS).
  rewrite HY in X2. apply Ok_inj in X2. apply (f_equal fst) in X2. cbn [fst] in X2. subst y. exact HS.
Qed.
(** Success is reproducible too. *)
Theorem C39_succeeds gp sha hmac dump E E' b m cx code_seed n ts st1 st2 r s1 :
  valid_params gp -> env_empty E -> env_empty E' -> (forall k, 0 <= e_rand E' k < gpQ gp) -> ts <> 0 ->
  encrypt_ballot gp sha hmac dump E b m cx code_seed (Some n) ts false st1 = Ok (r, s1) ->
  exists r' s2, encrypt_ballot gp sha hmac dump E' b m cx code_seed (Some n) ts false st2 = Ok (r', s2) /\
    strip_ballot r = strip_ballot r'.
Proof. intros V HE HE' HR HT H. exact (ballot_sim gp V sha hmac dump E E' b m cx code_seed n ts HE HE' HR HT st1 st2 _ _ H). Qed.
(** Expanding a compact ballot: the expansion can only give the ballot that was
    encrypted, up to the same proofs, and fails only if its own verification does. *)
Theorem C39_expand gp sha hmac dump E E' b m cx code_seed nonce ts verify st cc st' st2 :
  valid_params gp -> env_empty E -> env_empty E' -> env_good gp (el_pk cx) E' ->
  encrypt_compact_ballot gp sha hmac dump E b m cx code_seed nonce ts verify st = Ok (cc, st') ->
  cct_timestamp cc <> 0 ->
  exists nb c s1 r2 s2,
    emplace_ballot b m = Ok nb /\
    encrypt_ballot gp sha hmac dump E nb m cx code_seed nonce ts verify st = Ok (c, s1) /\
    strip_ballot c = strip_ballot r2 /\ cct_code cc = cb_code c /\
    (forall r s, expand_cipher gp sha hmac dump E' cc m cx st2 = Ok (r, s) -> strip_ballot r = strip_ballot c) /\
    (encrypt_ballot gp sha hmac dump E' (unmark nb) m cx (cct_seed cc) (Some (cct_nonce cc)) (cct_timestamp cc) true st2
      = Ok (r2, s2) -> expand_cipher gp sha hmac dump E' cc m cx st2 = Ok (r2, s2)).
Proof.
  intros V HE HE' EG H HT.
  destruct (expand_cipher_spec gp V sha hmac dump E E' b m cx code_seed nonce ts verify st cc st' st2 HE HE' EG H HT)
    as (nb & c & s1 & r2 & s2 & A1 & A2 & A3 & _ & _ & _ & A7 & A8 & A9).
  exists nb, c, s1, r2, s2. split; [exact A1|]. split; [exact A2|]. split; [exact A7|]. split; [exact A3|]. split; [|exact A8].
  intros r s HR. rewrite (A9 _ _ HR). symmetry. exact A7.
Qed.

(** * C40 *)
Theorem C40_roundtrip b m nb :
  emplace_ballot b m = Ok nb ->
  exists r, expand_plain (compress_plain nb) m = Ok r /\ unmark nb = r.
Proof. intros H. exists (unmark nb). split; [exact (expand_compress b m nb H)|reflexivity]. Qed.
(** A compact ballot with enough votes and write-in texts expands to the contests and
    options of its style in order, with its votes and texts in the order given. *)
Definition places (ds : list contest_ph) : nat :=
  fold_right (fun d n => (List.length (cd_selections (cw_base d)) + n)%nat) 0%nat ds.
Lemma places_slots ds : places ds = slots ds.
Proof.
  unfold slots. induction ds as [|d ds IH]; [reflexivity|]. cbn [flat_map places fold_right]. rewrite app_length.
  unfold get_selections at 1. rewrite sort_length. unfold places in IH. rewrite IH. reflexivity.
Qed.
Theorem C40_expand cp m ds :
  contests_for m (cpt_style cp) = Ok ds ->
  (places ds <= List.length (cpt_votes cp))%nat -> (places ds <= List.length (cpt_writeins cp))%nat ->
  exists b, expand_plain cp m = Ok b /\ pb_id b = cpt_id cp /\ pb_style b = cpt_style cp /\
    map pc_id (pb_contests b) = map (fun d => cd_id (cw_base d)) ds /\
    map (fun c => map ps_id (pc_selections c)) (pb_contests b) = map (fun d => map sd_id (get_selections (cw_base d))) ds /\
    map ps_vote (flat_map pc_selections (pb_contests b)) = firstn (places ds) (cpt_votes cp) /\
    map ps_writein (flat_map pc_selections (pb_contests b)) = firstn (places ds) (cpt_writeins cp).
Proof.
  rewrite places_slots. intros HD L1 L2. destruct (expand_contests_spec cp ds 0 L1 L2) as (cs & HC & X).
  unfold expand_plain. rewrite HD. cbn [bind]. rewrite HC. cbn [bind]. eexists. split; [reflexivity|].
  cbn [pb_id pb_style pb_contests]. split; [reflexivity|]. split; [reflexivity|]. cbn [skipn] in X.
  destruct X as [X1 X2 X3 X4 _]. repeat split; assumption.
Qed.
Theorem C40_short cp m ds :
  contests_for m (cpt_style cp) = Ok ds ->
  (List.length (cpt_votes cp) < places ds)%nat \/ (List.length (cpt_writeins cp) < places ds)%nat ->
  expand_plain cp m = Throw OutOfRange.
Proof.
  rewrite places_slots. intros HD L. unfold expand_plain. rewrite HD. cbn [bind].
  rewrite (expand_contests_short cp ds 0); [reflexivity|apply Nat.le_0_l|apply Nat.le_0_l|exact L].
Qed.
Example C40_case : exists nb, emplace_ballot b0 im0 = Ok nb /\ cpt_votes (compress_plain nb) = [0; 0; 1; 0; 0] /\
  expand_plain (compress_plain nb) im0 = Ok nb /\
  expand_plain {| cpt_id := pb_id nb; cpt_style := pb_style nb; cpt_votes := [0; 0; 1; 0];
                  cpt_writeins := cpt_writeins (compress_plain nb) |} im0 = Throw OutOfRange.
Proof. eexists. split; [vm_compute; reflexivity|]. vm_compute. repeat split. Qed.

(** * C41 *)
(** The names under which the results are collected. *)
Definition result_names (b : cballot) : list bytes :=
  flat_map (fun c => map (fun s => cc_id c ++ dash :: cs_id s) (cc_selections c) ++ [cc_id c]) (cb_contests b).
(** When these are distinct the answer is exactly: the manifest hash is the ballot's,
    the ballot hash recomputes, and every contest and selection passes its own check. *)
Definition all_valid gp sha (b : cballot) (pk ext : Z) : Prop :=
  Forall (fun c => ccontest_valid gp sha c (cc_desc c) pk ext = Ok true /\
    Forall (fun s => cselection_valid gp sha s (cs_desc s) pk ext = true) (cc_selections c)) (cb_contests b).
Theorem C41_only_if_partial gp sha b manifest pk ext :
  NoDup (result_names b) -> cballot_valid gp sha b manifest pk ext = Ok true ->
  elem_eq manifest (cb_manifest b) = true /\
  (exists h, cballot_hash gp sha (cb_id b) (cb_sorted b) manifest = Ok h /\ elem_eq (cb_hash b) h = true) /\
  all_valid gp sha b pk ext.
Proof.
  intros ND H. unfold cballot_valid in H.
  destruct (elem_eq manifest (cb_manifest b)) eqn:E1; cbn [negb] in H; [|discriminate].
  apply bind_ok in H. destruct H as (h & Hh & H). destruct (elem_eq (cb_hash b) h) eqn:E2; cbn [negb] in H; [|discriminate].
  apply bind_ok in H. destruct H as (rs & HR & H). apply Ok_inj in H.
  split; [reflexivity|]. split; [exists h; split; assumption|].
  pose proof (mapM_Forall2 _ _ _ HR) as F.
  assert (NM : map fst (concat rs) = flat_map (fun c => map (fun s => cc_id c ++ dash :: cs_id s) (cc_sorted c) ++ [cc_id c]) (cb_sorted b)).
  { clear - F. induction F as [|c r l l' Hc _ IH]; [reflexivity|]. cbn [concat flat_map]. rewrite map_app, IH. f_equal.
    unfold contest_results in Hc. apply bind_ok in Hc. destruct Hc as (v & _ & Hc). apply Ok_inj in Hc. subst r.
    rewrite map_app, map_map. reflexivity. }
  assert (NDS : NoDup (map fst (concat rs))).
  { rewrite NM. eapply Permutation_NoDup; [|exact ND]. unfold result_names.
    assert (P0 : forall c, Permutation (map (fun s => cc_id c ++ dash :: cs_id s) (cc_selections c) ++ [cc_id c])
       (map (fun s => cc_id c ++ dash :: cs_id s) (cc_sorted c) ++ [cc_id c])).
    { intros c. apply Permutation_app_tail, Permutation_map. apply sort_perm. }
    assert (P1 : Permutation (cb_contests b) (cb_sorted b)) by apply sort_perm.
    transitivity (flat_map (fun c => map (fun s => cc_id c ++ dash :: cs_id s) (cc_selections c) ++ [cc_id c]) (cb_sorted b)).
    - apply Permutation_flat_map, P1.
    - clear - P0. induction (cb_sorted b) as [|c l IH]; [reflexivity|]. cbn [flat_map]. apply Permutation_app; [apply P0|exact IH]. }
  assert (ALL : forall kv, In kv (concat rs) -> snd kv = true).
  { intros kv Hkv. rewrite forallb_forall in H. apply H. apply (map_store_keep sha (fun _ _ => 0)); [exact NDS|now right]. }
  unfold all_valid. apply Forall_forall. intros c Hc.
  assert (Hc' : In c (cb_sorted b)) by (apply sort_in, Hc).
  destruct (Forall2_pick _ _ _ _ F Hc') as (r & Hr & HC). unfold contest_results in HC.
  apply bind_ok in HC. destruct HC as (v & HV & HC). apply Ok_inj in HC. subst r.
  assert (IN : forall kv, In kv (map (fun s => (cc_id c ++ dash :: cs_id s, cselection_valid gp sha s (cs_desc s) pk ext)) (cc_sorted c)
      ++ [(cc_id c, v)]) -> snd kv = true).
  { intros kv Hkv. apply ALL. apply in_concat. eexists. split; [exact Hr|exact Hkv]. }
  split.
  - rewrite HV. f_equal. apply (IN (cc_id c, v)). apply in_app_iff. right. now left.
  - apply Forall_forall. intros s Hs.
    apply (IN (cc_id c ++ dash :: cs_id s, cselection_valid gp sha s (cs_desc s) pk ext)). apply in_app_iff. left.
    apply (in_map (fun s => (cc_id c ++ dash :: cs_id s, cselection_valid gp sha s (cs_desc s) pk ext))). apply sort_in, Hs.
Qed.
(** The other direction holds without that condition. *)
Theorem C41_if gp sha b manifest pk ext h :
  elem_eq manifest (cb_manifest b) = true ->
  cballot_hash gp sha (cb_id b) (cb_sorted b) manifest = Ok h -> elem_eq (cb_hash b) h = true ->
  all_valid gp sha b pk ext -> cballot_valid gp sha b manifest pk ext = Ok true.
Proof.
  intros H1 H2 H3 HA. unfold cballot_valid. rewrite H1. cbn [negb]. rewrite H2. cbn [bind]. rewrite H3. cbn [negb].
  destruct (mapM_all (fun c => contest_results gp sha c pk ext) (fun r => forallb snd r = true) (cb_sorted b)) as (rs & HR & F).
  { apply Forall_forall. intros c Hc. unfold all_valid in HA. rewrite Forall_forall in HA.
    assert (Hc' : In c (cb_contests b)) by (apply sort_in in Hc; exact Hc).
    destruct (HA c Hc') as [C1 C2]. unfold contest_results. rewrite C1. cbn [bind]. eexists. split; [reflexivity|].
    rewrite forallb_app. apply andb_true_iff. split; [|reflexivity]. apply forallb_forall. intros kv Hkv.
    apply in_map_iff in Hkv. destruct Hkv as (s & <- & Hs). cbn [snd]. rewrite Forall_forall in C2. apply C2. apply sort_in in Hs. exact Hs. }
  rewrite HR. cbn [bind]. f_equal. apply map_store_forall; [reflexivity|].
  clear - F. induction F as [|r l H _ IH]; [reflexivity|]. cbn [concat]. rewrite forallb_app, H. exact IH.
Qed.
(** The results are collected in a map: contest "a-b" replaces the result of option
    "b" of contest "a", and a ballot with a missing proof is accepted. *)
Definition one_contest (id opt : string) (seq : Z) (keep : bool) : outcome ccontest :=
  value_of ((let x := sel opt "c" 1 in
   let! c := encrypt_selection tp csha env0 (selection_from x false true) x (el_pk cx0) (el_ext cx0) 9 false false in
   let c' := if keep then c else strip_selection c in
   lift (ccontest_make tp csha None (s2b id) seq 8 [c'] (el_pk cx0) (el_ext cx0) 3 1 None None)) st0).
Definition clash_ballot : outcome cballot :=
  do c1 <- one_contest "a" "b" 1 false;
  do c2 <- one_contest "a-b" "c" 2 true;
  cballot_make tp csha 0 (s2b "x") (s2b "part") (im_hash im0) [c1; c2] (Some 3) 17 (Some 4) None.
Theorem C41_name_clash_refuted :
  exists b, clash_ballot = Ok b /\
    cballot_valid tp csha b (im_hash im0) (el_pk cx0) (el_ext cx0) = Ok true /\
    map (fun c => map (fun s => cselection_valid tp csha s (cs_desc s) (el_pk cx0) (el_ext cx0)) (cc_selections c)) (cb_contests b)
    = [[false]; [true]].
Proof. eexists. split; [vm_compute; reflexivity|]. split; vm_compute; reflexivity. Qed.
(** The ballots of PropEncrypt with distinct names. *)
Example C41_case : exists b, two_ballot = Ok b /\ NoDup (result_names b).
Proof.
  eexists. split; [vm_compute; reflexivity|]. vm_compute. repeat constructor; cbn; intuition discriminate.
Qed.

(** * C42 *)
(** The hash of a contest made from given selections recomputes, and does not depend
    on their order if their sequence numbers differ. *)
Theorem C42_contest gp sha pre id seq desc l pk ext pseed elected nonce hashed r :
  ccontest_make gp sha pre id seq desc l pk ext pseed elected nonce hashed = Ok r ->
  ccontest_hash gp sha (cc_id r) (cc_sorted r) desc = Ok (cc_hash r).
Proof.
  intros H. unfold ccontest_make in H.
  apply bind_ok in H. destruct H as (h & HH & H). apply bind_ok in H. destruct H as (acc & _ & H).
  apply bind_ok in H. destruct H as (agg & _ & H). apply bind_ok in H. destruct H as (p & _ & H).
  apply Ok_inj in H. subst r. exact HH.
Qed.
Theorem C42_selection_order gp sha pre id seq desc l l' pk ext pseed elected nonce hashed :
  Permutation l l' -> NoDup (map cs_seq l) ->
  match ccontest_make gp sha pre id seq desc l pk ext pseed elected nonce hashed,
        ccontest_make gp sha pre id seq desc l' pk ext pseed elected nonce hashed with
  | Ok r, Ok r' => cc_hash r = cc_hash r' /\ cc_acc r = cc_acc r' /\ cc_proof r = cc_proof r'
  | Throw e, Throw e' => e = e'
  | UB, UB => True
  | _, _ => False
  end.
Proof.
  intros P ND. unfold ccontest_make. rewrite (sort_by_perm cs_seq l l' ND P).
  destruct (ccontest_hash gp sha id (sort_by cs_seq l') desc) as [h| |]; cbn [bind]; auto.
  destruct (accumulate gp (sort_by cs_seq l')) as [acc| |]; cbn [bind]; auto.
  destruct (aggregate_nonce gp (sort_by cs_seq l')) as [agg| |]; cbn [bind]; auto.
  destruct (cproof_make gp sha pre acc agg pk pseed ext elected) as [p| |]; cbn [bind]; auto.
Qed.
(** The hash of a ballot recomputes if its contests are given in ascending order ... *)
Theorem C42_ballot_partial gp sha now id style manifest l nonce ts seed code r :
  ascending cc_seq l ->
  cballot_make gp sha now id style manifest l nonce ts seed code = Ok r ->
  cballot_hash gp sha (cb_id r) (cb_sorted r) manifest = Ok (cb_hash r).
Proof.
  intros A H. unfold cballot_make in H. destruct l as [|c l]; [discriminate|].
  apply bind_ok in H. destruct H as (h & HH & H). apply Ok_inj in H. subst r. cbn [cb_id cb_sorted cb_hash cb_contests].
  unfold cb_sorted. cbn [cb_contests]. rewrite (sort_by_sorted_id cc_seq) by exact A. exact HH.
Qed.
(** ... in particular for every encrypted ballot, in whatever order a copy of it lists
    the contests as long as their sequence numbers differ. *)
Theorem C42_encrypted gp sha hmac dump E b m cx code_seed nonce ts verify st r st' r2 :
  valid_params gp -> manifest_ready m -> votes_unsigned b -> spec_subgroup gp (el_pk cx) ->
  env_good gp (el_pk cx) E ->
  encrypt_ballot gp sha hmac dump E b m cx code_seed nonce ts verify st = Ok (r, st') ->
  cb_id r2 = cb_id r -> (cb_contests r2 = cb_contests r \/
    Permutation (cb_contests r2) (cb_contests r) /\ NoDup (map cc_seq (cb_contests r))) ->
  cballot_hash gp sha (cb_id r2) (cb_sorted r2) (im_hash m) = Ok (cb_hash r).
Proof.
  intros V MR HV HK EG H HI HP.
  destruct (ballot_results gp V sha hmac dump _ _ _ _ _ _ _ _ _ _ _ MR HV HK EG H) as (n & ds & _ & Hds & HF).
  apply (encrypt_ballot_ok gp sha hmac dump) in H.
  destruct H as (_ & _ & _ & _ & _ & _ & _ & _ & Hid & _ & _ & _ & _ & _ & Hh & _ & _).
  assert (SO : cb_sorted r = cb_contests r).
  { unfold cb_sorted. apply (ballot_sorted ds); [eapply contests_for_ascending, Hds|].
    eapply Forall2_impl; [|exact HF]. cbv beta. intros d cc (_ & dh & over & reals & phs & pvs & data & hc & t1 & CR).
    rewrite (cr_seq _ _ _ _ _ _ _ _ _ _ _ _ _ _ _ _ _ _ _ _ CR). reflexivity. }
  assert (SO2 : cb_sorted r2 = cb_contests r).
  { destruct HP as [HP|[HP ND]]; [unfold cb_sorted; rewrite HP; exact SO|].
    rewrite <- SO. unfold cb_sorted. symmetry. apply sort_by_perm; [exact ND|apply Permutation_sym, HP]. }
  rewrite SO2, HI, Hid. exact Hh.
Qed.
(** A ballot made from contests in another order carries a hash that does not
    recompute, so it is rejected. *)
Definition plain_contest (id : string) (seq h : Z) : ccontest :=
  {| cc_id := s2b id; cc_seq := seq; cc_desc := 0; cc_selections := []; cc_nonce := None;
     cc_acc := {| ct_pad := 1; ct_data := 1 |}; cc_hash := h; cc_proof := None; cc_hashed := None |}.
Theorem C42_contest_order_refuted :
  exists r h, cballot_make tp toy_sha 0 (s2b "x") (s2b "full") 7 [plain_contest "b" 2 20; plain_contest "a" 1 10]
                (Some 3) 17 (Some 4) None = Ok r /\
    cballot_hash tp toy_sha (cb_id r) (cb_sorted r) 7 = Ok h /\ cb_hash r <> h /\
    cballot_valid tp toy_sha r 7 1 1 = Ok false.
Proof.
  eexists. eexists. split; [vm_compute; reflexivity|]. split; [vm_compute; reflexivity|].
  split; [vm_compute; discriminate|vm_compute; reflexivity].
Qed.

(** * C57 *)
Theorem C57_hashes gp sha guardians quorum pk commitment manifest :
  let cx := context_make gp sha guardians quorum pk commitment manifest in
  el_base cx = hash_elems gp sha [HElemP (gpP gp); HElemQ (gpQ gp); HElemP (gpG gp); HU64 guardians; HU64 quorum; HElemQ manifest] /\
  el_ext cx = hash_elems gp sha [HElemQ (el_base cx); HElemQ commitment] /\
  el_pk cx = pk /\ el_manifest cx = manifest /\ el_guardians cx = guardians /\ el_quorum cx = quorum.
Proof. repeat split. Qed.
(** The hexadecimal overloads give the same context for every non-zero element. *)
Theorem C57_hex_partial gp sha guardians quorum pk commitment manifest :
  0 < pk < 2 ^ 4096 -> pk <= gpP gp -> 0 < commitment < 2 ^ 256 -> commitment <= gpQ gp ->
  0 < manifest < 2 ^ 256 -> manifest <= gpQ gp ->
  context_make_hex gp sha guardians quorum (to_hex_p pk) (to_hex_q commitment) (to_hex_q manifest)
  = Ok (context_make gp sha guardians quorum pk commitment manifest).
Proof.
  intros. unfold context_make_hex.
  rewrite C09_hex_roundtrip_p_partial by assumption. cbn [bind].
  rewrite C09_hex_roundtrip_q_partial by assumption. cbn [bind].
  rewrite C09_hex_roundtrip_q_partial by assumption. reflexivity.
Qed.
(** A commitment hash of zero is refused by them. *)
Theorem C57_hex_zero_refuted : exists pk manifest,
  context_make_hex tp toy_sha 3 2 (to_hex_p pk) (to_hex_q 0) (to_hex_q manifest) = Throw OutOfRange.
Proof. exists 5, 7. vm_compute. reflexivity. Qed.
(** Equal extended hashes mean equal guardians, quorum, manifest and commitment, or two
    different hashed messages with the same digest. *)
Theorem C57_binds gp sha g q k c m g' q' k' c' m' :
  valid_params gp -> 0 <= g < 2 ^ 64 -> 0 <= q < 2 ^ 64 -> 0 <= g' < 2 ^ 64 -> 0 <= q' < 2 ^ 64 ->
  0 <= c < 2 ^ 256 -> 0 <= c' < 2 ^ 256 -> 0 <= m < 2 ^ 256 -> 0 <= m' < 2 ^ 256 ->
  el_ext (context_make gp sha g q k c m) = el_ext (context_make gp sha g' q' k' c' m') ->
  (g = g' /\ q = q' /\ c = c' /\ m = m') \/
  exists x y, x <> y /\ hash_close gp sha x = hash_close gp sha y.
Proof.
  intros V G Qu G' Qu' C C' M M' H. cbn [context_make el_ext] in H.
  set (base := hash_elems gp sha [HElemP (gpP gp); HElemQ (gpQ gp); HElemP (gpG gp); HU64 g; HU64 q; HElemQ m]) in *.
  set (base' := hash_elems gp sha [HElemP (gpP gp); HElemQ (gpQ gp); HElemP (gpG gp); HU64 g'; HU64 q'; HElemQ m']) in *.
  assert (HB : forall l, 0 <= hash_elems gp sha l < 2 ^ 256).
  { intros l. pose proof (hash_elems_range gp V sha l) as R. pose proof (vp_Qhi _ V) as HQ. change (2 ^ 256) with W256. clear - R HQ. lia. }
  destruct (list_eq_dec Z.eq_dec (hash_message gp sha [HElemQ base; HElemQ c]) (hash_message gp sha [HElemQ base'; HElemQ c'])) as [E|E].
  2:{ right. exists (hash_message gp sha [HElemQ base; HElemQ c]), (hash_message gp sha [HElemQ base'; HElemQ c']). split; [exact E|exact H]. }
  apply hash_message_scalar_inj in E.
  2,3: repeat (apply Forall_cons; [cbn [scalar_ok]; first [assumption|apply HB]|]); apply Forall_nil.
  2: repeat constructor.
  2: discriminate.
  injection E as EB EC.
  destruct (list_eq_dec Z.eq_dec (hash_message gp sha [HElemP (gpP gp); HElemQ (gpQ gp); HElemP (gpG gp); HU64 g; HU64 q; HElemQ m])
     (hash_message gp sha [HElemP (gpP gp); HElemQ (gpQ gp); HElemP (gpG gp); HU64 g'; HU64 q'; HElemQ m'])) as [E|E].
  2:{ right. eexists. eexists. split; [exact E|exact EB]. }
  pose proof (vp_Qhi _ V) as HQ. pose proof (vp_Phi _ V) as HP.
  assert (SP : 0 <= gpP gp < W4096 /\ 0 <= gpG gp < W4096 /\ 0 <= gpQ gp < W256) .
  { pose proof (vp_Grng _ V) as HG. pose proof (vp_Qlo _ V) as HL. clear - HQ HP HG HL. lia. }
  apply hash_message_scalar_inj in E.
  2,3: repeat (apply Forall_cons; [cbn [scalar_ok]; first [assumption|apply SP]|]); apply Forall_nil.
  2: repeat constructor.
  2: discriminate.
  injection E as E1 E2 E3. left. repeat split; assumption.
Qed.
(** The public key takes no part in the hashes of the context. *)
Theorem C57_key_refuted gp sha g q c m k k' :
  k <> k' ->
  el_ext (context_make gp sha g q k c m) = el_ext (context_make gp sha g q k' c m) /\
  el_pk (context_make gp sha g q k c m) <> el_pk (context_make gp sha g q k' c m).
Proof. intros H. split; [reflexivity|exact H]. Qed.
(** A mediator exists exactly for contexts with the manifest's hash. *)
Theorem C57_mediator m cx d :
  0 <= im_hash m < 2 ^ 256 -> 0 <= el_manifest cx < 2 ^ 256 ->
  match mediator_new m cx d with
  | Ok md => im_hash m = el_manifest cx /\ md_manifest md = m /\ md_context md = cx /\ md_device md = d
  | Throw e => e = InvalidArgument /\ im_hash m <> el_manifest cx
  | UB => False
  end.
Proof.
  intros H1 H2. unfold mediator_new. destruct (bytes_eqb _ _) eqn:E.
  - apply bytes_eqb_eq in E. apply to_hex_q_inj in E; [|assumption..]. repeat split. exact E.
  - apply bytes_eqb_neq in E. split; [reflexivity|]. intros X. apply E. congruence.
Qed.
Example C57_case : exists md,
  mediator_new im0 cx0 {| dv_device := 1; dv_session := 2; dv_launch := 3; dv_location := s2b "here" |} = Ok md /\
  mediator_new im0 (context_make tp csha 3 2 (g_pow_p tp sk0) 77 12)
    {| dv_device := 1; dv_session := 2; dv_launch := 3; dv_location := s2b "here" |} = Throw InvalidArgument.
Proof. eexists. split; vm_compute; reflexivity. Qed.
(** A history with a failed request between two successful ones. *)
Definition md0 : mediator :=
  {| md_manifest := im0; md_context := cx0; md_seed := None;
     md_device := {| dv_device := 1; dv_session := 2; dv_launch := 3; dv_location := s2b "here" |} |}.
Definition lsha (b : bytes) : Z := fold_left (fun a x => (a + x) mod 65521) (firstn 200 b) 0 + 1.
Definition env1 : env :=
  {| e_rand := fun n => (7 + Z.of_nat n) mod 65521; e_tq := fun _ => None; e_tr := fun _ => None; e_clock := fun _ => 1600000000 |}.
Example C38_case :
  flat_map link (snd (mediator_run tp lsha chmac dump0 md0
    [ReqEncrypt env1 part_ballot false; ReqEncrypt env1 (ballot_of "none" []) false; ReqEncrypt env1 part_ballot false]))
  = [(1191, 1424); (1424, 1410)] /\
  hash_elems tp lsha [HU64 1; HU64 2; HU64 3; HStr (s2b "here")] = 1191.
Proof. vm_compute. split; reflexivity. Qed.
(** With precomputed values the same inputs give another ballot and another code. *)
Definition triple_of (K e : Z) : triple := {| tr_exp := e; tr_g := g_pow_p tp e; tr_k := pow_mod_p tp K e |}.
Definition pre0 (K : Z) : two_triples_quad :=
  {| tq_t1 := triple_of K 21; tq_t2 := triple_of K 22;
     tq_q := {| qd_exp1 := 23; qd_exp2 := 24; qd_g1 := g_pow_p tp 23;
                qd_g2k1 := mul_mod_p tp (g_pow_p tp 24) (pow_mod_p tp K 23) |} |}.
Definition env2 : env :=
  {| e_rand := e_rand env1; e_tr := e_tr env1; e_clock := e_clock env1;
     e_tq := fun n => if (n =? 0)%nat then Some (pre0 (el_pk cx0)) else None |}.
Lemma pre0_good K : good_triple tp K (tq_t1 (pre0 K)) /\ good_triple tp K (tq_t2 (pre0 K)) /\ good_quad tp K (tq_q (pre0 K)).
Proof.
  unfold good_triple, good_quad, pre0; cbn [tq_t1 tq_t2 tq_q triple_of tr_exp tr_g tr_k qd_exp1 qd_exp2 qd_g1 qd_g2k1].
  rewrite !(g_pow_p_correct tp test_params_valid), !(pow_mod_p_correct tp test_params_valid) by (split; [discriminate|reflexivity]).
  unfold mul_mod_p. rewrite <- Z.mul_mod by discriminate.
  assert (R : forall e, 0 <= e -> (e <? gpQ tp) = true -> 0 <= e < gpQ tp) by (intros e ? ?; split; [assumption|now apply Z.ltb_lt]).
  assert (R1 : 0 <= 21 < gpQ tp) by (apply R; [discriminate|vm_compute; reflexivity]).
  assert (R2 : 0 <= 22 < gpQ tp) by (apply R; [discriminate|vm_compute; reflexivity]).
  assert (R3 : 0 <= 23 < gpQ tp) by (apply R; [discriminate|vm_compute; reflexivity]).
  assert (R4 : 0 <= 24 < gpQ tp) by (apply R; [discriminate|vm_compute; reflexivity]).
  split; [split; [exact R1|split; exact eq_refl]|]. split; [split; [exact R2|split; exact eq_refl]|].
  split; [exact R3|]. split; [exact R4|]. split; exact eq_refl.
Qed.
Theorem C39_precomputed_refuted : exists r s r' s',
  encrypt_ballot tp lsha chmac dump0 env1 part_ballot im0 cx0 5 (Some 99) 1600000001 false st0 = Ok (r, s) /\
  encrypt_ballot tp lsha chmac dump0 env2 part_ballot im0 cx0 5 (Some 99) 1600000001 false st0 = Ok (r', s') /\
  env_good tp (el_pk cx0) env2 /\ cb_code r <> cb_code r'.
Proof.
  do 4 eexists. split; [vm_compute; reflexivity|]. split; [vm_compute; reflexivity|]. split; [|vm_compute; discriminate].
  constructor.
  - intros n. apply Z.mod_pos_bound. reflexivity.
  - intros n t H. unfold env2, e_tq in H. revert H. generalize (el_pk cx0). intros K H.
    destruct (n =? 0)%nat; [|discriminate H]. pose proof (pre0_good K) as G. apply (f_equal (fun o => match o with Some x => x | None => t end)) in H.
    cbv beta iota in H. rewrite H in G. exact G.
  - discriminate.
Qed.

Print Assumptions C38_chain.
Print Assumptions C38_failures.
Print Assumptions C38_responses.
Print Assumptions C39_reproducible.
Print Assumptions C39_succeeds.
Print Assumptions C39_expand.
Print Assumptions C40_roundtrip.
Print Assumptions C40_expand.
Print Assumptions C40_short.
Print Assumptions C41_only_if_partial.
Print Assumptions C41_if.
Print Assumptions C41_name_clash_refuted.
Print Assumptions C42_contest.
Print Assumptions C42_selection_order.
Print Assumptions C42_ballot_partial.
Print Assumptions C42_encrypted.
Print Assumptions C42_contest_order_refuted.
Print Assumptions C57_hashes.
Print Assumptions C57_hex_partial.
Print Assumptions C57_hex_zero_refuted.
Print Assumptions C57_binds.
Print Assumptions C57_key_refuted.
Print Assumptions C57_mediator.
Print Assumptions C39_precomputed_refuted.
