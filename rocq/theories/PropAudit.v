(** Property C81: what an auditor reads of a published ballot. *)
From Coq Require Import Psatz Permutation String.
From Verif Require Import Base GroupModel GroupSpec GroupProofs CodecModel HashModel Algebra ElgamalModel ElgamalSpec ChaumModel HashedProofs
  SortModel SortProofs ManifestModel BallotModel JsonModel EncryptModel EncryptSpec EncryptProofs BallotProofs BallotProofs2 TallyProofs
  PropElgamal PropManifest PropEncrypt SerializeModel SerializeSpec SerializeProofs SerializeProofs2 PropSerialize TestParams
  CopyProofs PropCopy AuditSpec AuditProofs.
Local Open Scope string_scope.
Local Open Scope list_scope.
Local Open Scope Z_scope.
Local Notation length := List.length.

(** * C81 *)
(** Whatever ballot is written and read back, valid or not: verification says the same of both, for
    every manifest hash, key and extended base hash. *)
Theorem C81_verdict gp sha dump parse wn b s b' m pk ext :
  faithful dump parse -> stored_ballot b = true -> to_text dump (cballot_to_json wn) b = Ok s ->
  of_text parse (cballot_of_json gp) s = Ok b' ->
  cballot_valid gp sha b' m pk ext = cballot_valid gp sha b m pk ext.
Proof.
  intros F St W R. destruct (written _ _ _ _ W) as [j [J _]].
  rewrite (read_written _ _ _ _ _ _ _ F J W), (cballot_back gp wn b j J St) in R.
  destruct (legible_ballot gp wn b); [|discriminate R]. apply Ok_inj in R. subst b'. apply read_valid.
Qed.
Theorem C81_verdict_submitted gp sha dump parse b s b' m pk ext :
  faithful dump parse -> stored_ballot (sb_ballot b) = true -> to_text dump sballot_to_json b = Ok s ->
  of_text parse (sballot_of_json gp) s = Ok b' ->
  cballot_valid gp sha (sb_ballot b') m pk ext = cballot_valid gp sha (sb_ballot b) m pk ext.
Proof.
  intros F St W R. destruct (written _ _ _ _ W) as [j [J _]].
  pose proof (sballot_writes b) as C. destruct (complete_ballot false (sb_ballot b)) eqn:Ec; [|rewrite J in C; discriminate].
  rewrite (read_written _ _ _ _ _ _ _ F J W), (sballot_back gp b j J St Ec) in R.
  destruct (legible_ballot gp false (sb_ballot b)); [|discriminate R]. apply Ok_inj in R. subst b'. apply read_valid.
Qed.

(** What holds of the ballot an auditor reads: the state, a good verdict, no nonces, and for each
    contest the voter's votes as encrypted, in sequence order. *)
Record audited (gp : params) (sha : bytes -> Z) (s : Z) (b : pballot) (m : internal_manifest) (cx : context) (state : box_state)
  (t : sballot) : Prop := {
  au_state : sb_state t = state;
  au_valid : cballot_valid gp sha (sb_ballot t) (im_hash m) (el_pk cx) (el_ext cx) = Ok true;
  au_nonces : without_nonces (sb_ballot t);
  au_votes : exists ds, contests_for m (pb_style b) = Ok ds /\
    Forall2 (fun d cc' => exists cc vs pvs,
      contest_contents gp s (too_many (entries b d) d) (entries b d) d cc vs pvs /\ contest_read false cc cc')
      ds (cb_contests (sb_ballot t)) }.
Lemma read_without_nonces b : without_nonces (bal_read false b).
Proof.
  unfold without_nonces, all_nonces. cbn [bal_read cb_nonce cb_contests nonce_read]. constructor; [reflexivity|].
  apply Forall_forall. intros n I. apply in_flat_map in I. destruct I as (c & Hc & I). apply in_map_iff in Hc.
  destruct Hc as (c0 & <- & _). cbn [con_read cc_nonce cc_selections nonce_read] in I. destruct I as [<- |I]; [reflexivity|].
  rewrite map_map in I. apply in_map_iff in I. destruct I as (x & <- & _). reflexivity.
Qed.
Lemma con_read_ok wn c : contest_read wn c (con_read wn c).
Proof.
  unfold contest_read. do 8 (split; [reflexivity|]). exists (cc_sorted c). split; [apply sort_perm|].
  split; [apply sort_sorted|]. cbn [con_read cc_selections]. induction (cc_sorted c); cbn [map]; constructor; [reflexivity|assumption].
Qed.
(** From the vote to the auditor: every ballot that is encrypted, submitted, written and read. *)
Theorem C81_published_partial gp sha hmac dump E b m cx code_seed nonce ts verify st r st' s wdump wparse state t text :
  prime_params gp -> manifest_ready m -> numbered m -> votes_unsigned b ->
  (forall d, In d (im_contests m) -> cd_elected (cw_base d) <= gpQ gp) ->
  0 <= s < 2 ^ 256 -> el_pk cx = spec_key gp s -> env_good gp (el_pk cx) E ->
  0 <= im_hash m < gpQ gp -> 0 <= code_seed < gpQ gp -> (forall n, nonce = Some n -> 0 <= n < gpQ gp) ->
  (forall j x, dump j = Ok x -> is_bytes x) -> faithful wdump wparse ->
  encrypt_ballot gp sha hmac dump E b m cx code_seed nonce ts verify st = Ok (r, st') ->
  0 <= cb_timestamp r < 2 ^ 64 -> Forall no_zero_scalars (cb_contests r) -> nonzero_ballot r ->
  submitted_from r state = Ok t -> to_text wdump sballot_to_json t = Ok text ->
  exists t', of_text wparse (sballot_of_json gp) text = Ok t' /\ audited gp sha s b m cx state t'.
Proof.
  intros PP MR NM HV HQ Hs HK EG HM HC HN DB F H HT NZ NB HSub W. pose proof (pp_valid _ PP) as V.
  assert (HS : spec_subgroup gp (el_pk cx)) by (rewrite HK; apply (spec_key_subgroup gp s V); lia).
  pose proof (vp_Qhi _ V) as QH. change W256 with (2 ^ 256) in QH.
  assert (X : forall v, 0 <= v < gpQ gp -> in_q v = true) by (unfold in_q; intros; lia).
  destruct (ballot_fits gp V sha hmac dump DB E b m cx code_seed nonce ts verify st r st' MR NM HV HS EG HQ
              (X _ HM) (X _ HC) (fun n e => X _ (HN n e)) H ltac:(unfold u64; lia) NZ) as [St L].
  specialize (L ltac:(lia) ltac:(lia) NB).
  rewrite (C80_encrypted _ _ _ _ _ _ _ _ _ _ _ _ _ _ _ state H) in HSub. apply Ok_inj in HSub. subst t.
  destruct (written _ _ _ _ W) as [j [J _]].
  pose proof (sballot_writes {| sb_ballot := r; sb_state := state |}) as C. cbn [sb_ballot] in C.
  destruct (complete_ballot false r) eqn:Ec; [|rewrite J in C; discriminate].
  rewrite (read_written _ _ _ _ _ _ _ F J W), (sballot_back gp _ j J St Ec). cbn [sb_ballot sb_state]. rewrite L.
  eexists. split; [reflexivity|]. constructor; cbn [sb_ballot sb_state].
  - reflexivity.
  - rewrite read_valid. exact (C36_ballot_partial _ _ _ _ _ _ _ _ _ _ _ _ _ _ _ V MR HV HS EG HQ H NZ).
  - apply read_without_nonces.
  - destruct (C35_ballot _ _ _ _ _ _ _ _ _ _ _ _ _ _ _ s PP MR HV Hs HK EG H) as (ds & Hds & HF).
    exists ds. split; [exact Hds|]. cbn [bal_read cb_contests]. unfold cb_sorted. rewrite (ballot_sorted ds).
    + clear - HF. induction HF as [|d cc ds cs (vs & pvs & CC) _ IH]; cbn [map]; constructor; [|exact IH].
      exists cc, vs, pvs. split; [exact CC|apply con_read_ok].
    + eapply contests_for_ascending, Hds.
    + eapply Forall2_impl; [|exact HF]. cbv beta. intros d cc (vs & pvs & CC). destruct (co_contest _ _ _ _ _ _ _ _ CC) as [_ K]. first [exact K|exact (eq_sym K)].
Qed.
(** The published text itself does not depend on the nonces (C54); the auditor's count of it does not
    need the order: decryption and ids go together. *)
Theorem C81_options gp s cc cc' : contest_read false cc cc' ->
  Permutation (map (fun x => (cs_id x, cs_placeholder x, decrypt gp (cs_ct x) s)) (cc_selections cc))
              (map (fun x => (cs_id x, cs_placeholder x, decrypt gp (cs_ct x) s)) (cc_selections cc')).
Proof.
  intros (_ & _ & _ & _ & _ & _ & _ & _ & m & PM & _ & F). rewrite PM. clear PM.
  replace (map (fun x => (cs_id x, cs_placeholder x, decrypt gp (cs_ct x) s)) (cc_selections cc'))
    with (map (fun x => (cs_id x, cs_placeholder x, decrypt gp (cs_ct x) s)) m); [reflexivity|].
  induction F as [|x x' l l' E _ IH]; [reflexivity|]. cbn [map]. rewrite IH, E. reflexivity.
Qed.

(** ** A ballot made with the code seed zero verifies, is written, and cannot be read. *)
Theorem C81_zero_seed gp sha hmac dump E b m cx nonce ts verify st r st' state t wdump wparse text :
  valid_params gp -> faithful wdump wparse ->
  encrypt_ballot gp sha hmac dump E b m cx 0 nonce ts verify st = Ok (r, st') -> stored_ballot r = true ->
  submitted_from r state = Ok t -> to_text wdump sballot_to_json t = Ok text ->
  of_text wparse (sballot_of_json gp) text = Throw OutOfRange.
Proof.
  intros V F H St HSub W. rewrite (C80_encrypted _ _ _ _ _ _ _ _ _ _ _ _ _ _ _ state H) in HSub. apply Ok_inj in HSub. subst t.
  destruct (written _ _ _ _ W) as [j [J _]].
  pose proof (sballot_writes {| sb_ballot := r; sb_state := state |}) as C. cbn [sb_ballot] in C.
  destruct (complete_ballot false r) eqn:Ec; [|rewrite J in C; discriminate].
  rewrite (read_written _ _ _ _ _ _ _ F J W), (sballot_back gp _ j J St Ec). cbn [sb_ballot sb_state].
  replace (legible_ballot gp false r) with false; [reflexivity|].
  apply (encrypt_ballot_ok gp sha hmac dump) in H. destruct H as (n' & _ & _ & _ & _ & _ & _ & _ & _ & _ & _ & Hseed & _).
  unfold legible_ballot. rewrite Hseed. unfold legible_q at 2. cbn [Z.ltb Z.compare andb].
  rewrite andb_false_r. reflexivity.
Qed.

(** ** The sample election *)
Definition nzb (v : Z) : bool := negb (v =? 0).
Definition nonzero_b (b : cballot) : bool :=
  nzb (cb_manifest b) && nzb (cb_seed b) && nzb (cb_code b) && nzb (cb_hash b) &&
  forallb (fun c => nzb (cc_desc c) && nzb (cc_hash c) &&
    forallb (fun x => nzb (cs_desc x) && nzb (cs_hash x) && opt (fun p => nzb (dp_c p)) (cs_proof x)) (cc_selections c) &&
    opt (fun h => some_bit (hc_data h) && some_bit (hc_mac h)) (cc_hashed c)) (cb_contests b).
Lemma nonzero_b_ok b : nonzero_b b = true -> nonzero_ballot b.
Proof.
  assert (N : forall v, nzb v = true -> v <> 0) by (unfold nzb; intros v; destruct (Z.eqb_spec v 0); [discriminate|auto]).
  unfold nonzero_b, nonzero_ballot. rewrite !andb_true_iff. intros [[[[H1 H2] H3] H4] H5].
  do 4 (split; [apply N; assumption|]). rewrite Forall_forall. rewrite forallb_forall in H5. intros c I. specialize (H5 c I).
  rewrite !andb_true_iff in H5. destruct H5 as [[[K1 K2] K3] K4]. unfold nonzero_contest. do 2 (split; [apply N; assumption|]). split.
  - rewrite Forall_forall. rewrite forallb_forall in K3. intros x J. specialize (K3 x J). rewrite !andb_true_iff in K3.
    destruct K3 as [[L1 L2] L3]. unfold nonzero_selection. do 2 (split; [apply N; assumption|]). intros p E. rewrite E in L3. apply N, L3.
  - intros h E. rewrite E in K4. cbn [opt] in K4. apply andb_true_iff in K4. exact K4.
Qed.
Lemma im0_numbered : numbered im0.
Proof.
  assert (H : forallb (fun d => u64 (cd_seq (cw_base d)) && forallb (fun x => u64 (sd_seq x)) (cd_selections (cw_base d) ++ cw_placeholders d))
                (im_contests im0) = true) by (vm_compute; reflexivity).
  rewrite forallb_forall in H. intros d I. specialize (H d I). apply andb_true_iff in H. destruct H as [H1 H2]. split; [exact H1|].
  rewrite forallb_forall in H2. intros x J. apply H2, in_or_app. exact J.
Qed.
Lemma im0_seats : forall d, In d (im_contests im0) -> cd_elected (cw_base d) <= gpQ tp.
Proof.
  assert (H : forallb (fun d => cd_elected (cw_base d) <=? gpQ tp) (im_contests im0) = true) by (vm_compute; reflexivity).
  rewrite forallb_forall in H. intros d I. apply Z.leb_le, H, I.
Qed.
Lemma dump0_bytes : forall j x, dump0 j = Ok x -> is_bytes x.
Proof. intros j x H. apply Ok_inj in H. subst x. repeat constructor; discriminate. Qed.
Example C81_case : exists r st' t text t',
  encrypt_ballot tp csha chmac dump0 env0 part_ballot im0 cx0 5 (Some 99) 1600000001 false st0 = Ok (r, st') /\
  submitted_from r BS_cast = Ok t /\ to_text sample_dump sballot_to_json t = Ok text /\
  of_text sample_parse (sballot_of_json tp) text = Ok t' /\ audited tp csha sk0 part_ballot im0 cx0 BS_cast t'.
Proof.
  destruct C35_case as (r & st' & E & _ & NZ & _).
  pose proof (C80_encrypted _ _ _ _ _ _ _ _ _ _ _ _ _ _ _ BS_cast E) as S.
  assert (NB : nonzero_ballot r /\ cb_timestamp r = 1600000001).
  { assert (X : match encrypt_ballot tp csha chmac dump0 env0 part_ballot im0 cx0 5 (Some 99) 1600000001 false st0 with
                | Ok (r, _) => nonzero_b r && (cb_timestamp r =? 1600000001) | _ => false end = true) by (vm_compute; reflexivity).
    rewrite E in X. apply andb_true_iff in X. destruct X as [X Y]. split; [apply nonzero_b_ok, X|apply Z.eqb_eq, Y]. }
  destruct NB as [NB TS].
  assert (JW : exists j, sballot_to_json {| sb_ballot := r; sb_state := BS_cast |} = Ok j).
  { pose proof (sballot_writes {| sb_ballot := r; sb_state := BS_cast |}) as C. cbn [sb_ballot] in C.
    assert (CC : complete_ballot false r = true).
    { apply encrypt_ballot_complete in E. revert E. unfold complete_ballot. rewrite !andb_true_iff. intros [H _]. split; [|reflexivity].
      revert H. rewrite !forallb_forall. intros H c I. specialize (H c I). revert H. unfold complete_contest. rewrite !andb_true_iff.
      intros [[[H H1] H2] _]. split; [split; [split; [|exact H1]|exact H2]|reflexivity]. revert H. rewrite !forallb_forall. intros H x J.
      specialize (H x J). revert H. unfold complete_selection. rewrite !andb_true_iff. intros [H _]. auto. }
    rewrite CC in C. exact C. }
  destruct JW as [j J].
  assert (W : to_text sample_dump sballot_to_json {| sb_ballot := r; sb_state := BS_cast |} = Ok (enc j)).
  { unfold to_text. rewrite J. reflexivity. }
  assert (U : votes_unsigned part_ballot) by (repeat constructor; vm_compute; congruence).
  assert (K : 0 <= sk0 < 2 ^ 256) by (split; [discriminate|reflexivity]).
  assert (M : 0 <= im_hash im0 < gpQ tp) by (vm_compute; split; congruence).
  assert (C5 : 0 <= 5 < gpQ tp) by (vm_compute; split; congruence).
  assert (N : forall n, Some 99 = Some n -> 0 <= n < gpQ tp).
  { intros n H. injection H as <-. vm_compute. split; congruence. }
  assert (T : 0 <= cb_timestamp r < 2 ^ 64) by (rewrite TS; split; [discriminate|reflexivity]).
  destruct (C81_published_partial tp csha chmac dump0 env0 part_ballot im0 cx0 5 (Some 99) 1600000001 false st0 r st' sk0
    sample_dump sample_parse BS_cast _ _ test_params_prime im0_ready im0_numbered U im0_seats K cx0_key (env0_good _) M C5 N dump0_bytes
    sample_faithful E T NZ NB S W) as (t' & R & A).
  exists r, st', {| sb_ballot := r; sb_state := BS_cast |}, (enc j), t'. auto.
Qed.
(** The same ballot with code seed 0. *)
Theorem C81_zero_seed_refuted : exists r st' t text,
  encrypt_ballot tp csha chmac dump0 env0 part_ballot im0 cx0 0 (Some 99) 1600000001 true st0 = Ok (r, st') /\
  submitted_from r BS_cast = Ok t /\ to_text sample_dump sballot_to_json t = Ok text /\
  of_text sample_parse (sballot_of_json tp) text = Throw OutOfRange.
Proof.
  assert (X : match encrypt_ballot tp csha chmac dump0 env0 part_ballot im0 cx0 0 (Some 99) 1600000001 true st0 with
              | Ok (r, _) => stored_ballot r && is_ok (sballot_to_json {| sb_ballot := r; sb_state := BS_cast |}) | _ => false end = true)
    by (vm_compute; reflexivity).
  destruct (encrypt_ballot tp csha chmac dump0 env0 part_ballot im0 cx0 0 (Some 99) 1600000001 true st0) as [[r st']|e|] eqn:E;
    try discriminate X. apply andb_true_iff in X. destruct X as [St W].
  destruct (sballot_to_json {| sb_ballot := r; sb_state := BS_cast |}) as [j|e|] eqn:J; try discriminate W.
  pose proof (C80_encrypted _ _ _ _ _ _ _ _ _ _ _ _ _ _ _ BS_cast E) as S.
  assert (T : to_text sample_dump sballot_to_json {| sb_ballot := r; sb_state := BS_cast |} = Ok (enc j)).
  { unfold to_text. rewrite J. reflexivity. }
  exists r, st', {| sb_ballot := r; sb_state := BS_cast |}, (enc j). split; [reflexivity|]. split; [exact S|]. split; [exact T|].
  exact (C81_zero_seed _ _ _ _ _ _ _ _ _ _ _ _ _ _ _ _ _ _ _ test_params_valid sample_faithful E St S T).
Qed.

Print Assumptions C81_verdict.
Print Assumptions C81_verdict_submitted.
Print Assumptions C81_published_partial.
Print Assumptions C81_options.
Print Assumptions C81_zero_seed.
Print Assumptions C81_zero_seed_refuted.
