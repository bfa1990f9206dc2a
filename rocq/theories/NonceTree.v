(** The nonces of an encrypted ballot when nothing is precomputed. *)
From Coq Require Import String Permutation.
From Verif Require Import Base GroupModel GroupSpec GroupProofs CodecModel HashModel Algebra
  ElgamalModel ElgamalSpec ElgamalProofs ChaumModel ChaumProofs TallyProofs HashedProofs
  SortModel SortProofs ManifestModel ManifestSpec ManifestProofs BallotModel JsonModel EncryptModel
  PropElgamal PropChaum PropManifest EncryptSpec EncryptProofs BallotProofs BallotProofs2.
Open Scope string_scope.
Open Scope list_scope.
Open Scope Z_scope.
Ltac Zify.zify_post_hook ::= idtac.

Section T.
Context (gp : params) (V : valid_params gp) (sha : bytes -> Z) (hmac : bytes -> bytes -> Z)
        (dump : json -> outcome bytes).
Notation Q := (gpQ gp).

Definition tree_nonce (seed : Z) (d : selection) (x : cselection) : Prop :=
  cs_nonce x = Some (nonce_of gp sha (selection_hash gp sha d) (HElemQ seed) (sd_seq d)).
Lemma encrypt_selection_nonce E s d K ext seed ph verify st c st' : env_empty E ->
  encrypt_selection gp sha E s d K ext seed ph verify st = Ok (c, st') -> tree_nonce seed d c.
Proof.
  intros [EE _]. unfold encrypt_selection.
  destruct (pselection_valid s (sd_id d)); cbn [negb]; [|discriminate].
  intros H. apply mbind_ok in H. destruct H as (tq & s1 & H1 & H).
  unfold ask_tq in H1. apply pair_ok in H1. destruct H1 as [Htq _]. rewrite EE in Htq. subst tq.
  apply mbind_ok in H. destruct H as (c0 & s2 & H2 & H).
  assert (HC : c = c0).
  { destruct verify; cbn [negb] in H.
    - destruct (cselection_valid gp sha c0 _ K ext); [|discriminate].
      apply ret_ok in H. apply H.
    - apply ret_ok in H. apply H. }
  subst c0. clear H.
  apply mbind_ok in H2. destruct H2 as (ct & s3 & _ & H2).
  apply mbind_ok in H2. destruct H2 as (u & s4 & _ & H2).
  apply mbind_ok in H2. destruct H2 as (v & s5 & _ & H2).
  apply mbind_ok in H2. destruct H2 as (w & s6 & _ & H2).
  apply mbind_ok in H2. destruct H2 as (p & s7 & _ & H2).
  apply ret_ok in H2. destruct H2 as [-> _]. reflexivity.
Qed.
Lemma reals_nonces E n over K ext seed verify : env_empty E -> forall ds count st cs count' st',
  mfold (encrypt_real gp sha E n over K ext seed verify) ds count st = Ok ((cs, count'), st') ->
  Forall2 (tree_nonce seed) ds cs.
Proof.
  intros EE. induction ds as [|d ds IH]; intros count st cs count' st' H; apply mfold_ok in H.
  - destruct H as (-> & _). constructor.
  - destruct H as (y & c1 & s1 & ys & H1 & H2 & ->). constructor; [|eapply IH; exact H2].
    unfold encrypt_real in H1. destruct (find _ n); [|discriminate].
    apply mbind_ok in H1. destruct H1 as (c & s2 & H3 & H1). apply ret_ok in H1. destruct H1 as [E1 _].
    inversion E1. subst. eapply encrypt_selection_nonce; [exact EE|exact H3].
Qed.
Lemma phs_nonces E over el K ext seed verify : env_empty E -> forall ds count st cs count' st',
  mfold (encrypt_placeholder gp sha E over el K ext seed verify) ds count st = Ok ((cs, count'), st') ->
  Forall2 (tree_nonce seed) ds cs.
Proof.
  intros EE. induction ds as [|d ds IH]; intros count st cs count' st' H; apply mfold_ok in H.
  - destruct H as (-> & _). constructor.
  - destruct H as (y & c1 & s1 & ys & H1 & H2 & ->). constructor; [|eapply IH; exact H2].
    unfold encrypt_placeholder in H1.
    apply mbind_ok in H1. destruct H1 as (c & s2 & H3 & H1). apply ret_ok in H1. destruct H1 as [E1 _].
    inversion E1. subst. eapply encrypt_selection_nonce; [exact EE|exact H3].
Qed.
Lemma ccontest_make_kept pre id seq desc l pk ext ps n nonce hashed r :
  ccontest_make gp sha pre id seq desc l pk ext ps n nonce hashed = Ok r ->
  cc_selections r = l /\ cc_nonce r = nonce /\ cc_hashed r = hashed.
Proof.
  unfold ccontest_make. intros H.
  apply bind_ok in H. destruct H as (h & _ & H). apply bind_ok in H. destruct H as (acc & _ & H).
  apply bind_ok in H. destruct H as (agg & _ & H). apply bind_ok in H. destruct H as (p & _ & H).
  apply Ok_inj in H. subst r. auto.
Qed.
Lemma encrypt_contest_nonces E c m d K ext seed verify st r st' : env_empty E ->
  encrypt_contest gp sha hmac dump E c m d K ext seed verify st = Ok (r, st') ->
  exists dh, contest_hash gp sha (cw_base d) = Ok dh /\
    let cn := nonce_of gp sha dh (HElemQ seed) (cd_seq (cw_base d)) in
    cc_nonce r = Some cn /\
    Forall2 (tree_nonce cn) (get_selections (cw_base d) ++ get_placeholders d) (cc_selections r) /\
    exists hc, cc_hashed r = Some hc /\
      hc_pad hc = g_pow_p gp (nonce_of gp sha cn (HStr (s2b "constant-extended-data")) 0).
Proof.
  intros EE. unfold encrypt_contest. set (b := cw_base d) in *. set (check := pcontest_valid _ _ _ _ _ _).
  clearbody check. intros H.
  assert (HM : check = SUCCESS \/ check = OVERVOTE) by (destruct check; auto; discriminate).
  match type of H with match check with SUCCESS | OVERVOTE => ?k | _ => _ end st = _ => 
    assert (H' : k st = Ok (r, st')) by (destruct HM as [-> | ->]; exact H) end.
  clear H. rename H' into H.
  apply mbind_ok in H. destruct H as (dh & s1 & H1 & H). apply lift_ok in H1. destruct H1 as [Hdh ->].
  exists dh. split; [exact Hdh|]. cbn zeta in H. unfold nonces_get in H. cbn iota zeta in H.
  set (cn := hash_elems gp sha [HElemQ (nseed (nonces_new gp sha dh (HElemQ seed))); HU64 (cd_seq b)]) in *.
  assert (Hcn : cn = nonce_of gp sha dh (HElemQ seed) (cd_seq b)) by reflexivity.
  clearbody cn. set (pn := fst _) in H. clearbody pn.
  apply mbind_ok in H. destruct H as (data & s2 & _ & H).
  apply mbind_ok in H. destruct H as ((reals & count) & s3 & Hreal & H).
  apply mbind_ok in H. destruct H as ((phs & count') & s4 & Hph & H).
  apply mbind_ok in H. destruct H as (n1 & s5 & H1 & H). apply lift_ok in H1. destruct H1 as [Hn1 ->].
  assert (Rcn : 0 <= cn < Q) by (rewrite Hcn; apply nonce_of_range, V).
  rewrite (clone_q_id gp cn Rcn) in Hn1. apply Ok_inj in Hn1. subst n1.
  apply mbind_ok in H. destruct H as (t1 & s6 & H1 & H). unfold ask_tr in H1. apply pair_ok in H1. destruct H1 as [Ht1 _].
  rewrite (proj2 EE) in Ht1. subst t1.
  apply mbind_ok in H. destruct H as (hc & s7 & H1 & H). apply lift_ok in H1. destruct H1 as [Hhc ->].
  apply mbind_ok in H. destruct H as (n2 & s8 & H1 & H). apply lift_ok in H1. destruct H1 as [Hn2 ->].
  rewrite (clone_q_id gp cn Rcn) in Hn2. apply Ok_inj in Hn2. subst n2.
  apply mbind_ok in H. destruct H as (t2 & s9 & _ & H).
  apply mbind_ok in H. destruct H as (r0 & s10 & H1 & H). apply lift_ok in H1. destruct H1 as [Hmake ->].
  assert (r = r0).
  { destruct verify; cbn [negb] in H.
    - apply mbind_ok in H. destruct H as (ok & s11 & _ & H).
      destruct ok; [|discriminate]. apply ret_ok in H. apply H.
    - apply ret_ok in H. apply H. }
  subst r0. apply ccontest_make_kept in Hmake. destruct Hmake as (M1 & M2 & M3).
  rewrite <- Hcn. cbn zeta. split; [exact M2|]. split.
  - rewrite M1. apply Forall2_app; [eapply reals_nonces|eapply phs_nonces]; eassumption.
  - exists hc. split; [exact M3|]. unfold hashed_encrypt in Hhc.
    apply bind_ok in Hhc. destruct Hhc as (padded & _ & Hhc). apply Ok_inj in Hhc. subst hc. reflexivity.
Qed.
End T.
