(** Why an encryption fails. *)
From Coq Require Import Permutation Psatz String.
From Verif Require Import CopyProofs Base GroupModel GroupSpec GroupProofs CodecModel HashModel Algebra
  ElgamalModel ElgamalSpec ElgamalProofs ChaumModel ChaumProofs TallyProofs HashedProofs
  SortModel SortProofs ManifestModel ManifestSpec ManifestProofs BallotModel JsonModel EncryptModel
  PropElgamal PropChaum PropManifest EncryptSpec EncryptProofs BallotProofs BallotProofs2 BallotProofs3 BallotProofs4 BallotProofs5
  PropEncrypt StatusModel StatusSpec.
Open Scope list_scope.
Open Scope Z_scope.
Ltac Zify.zify_post_hook ::= idtac.

(** ** Loops *)
Lemma mfold_refused {A B C} e (f : C -> A -> M (B * C)) l :
  (forall a, In a l -> forall c st, (exists y c' s', f c a st = Ok ((y, c'), s')) \/ f c a st = Throw e) ->
  (exists a, In a l /\ forall c st, f c a st = Throw e) ->
  forall c st, mfold f l c st = Throw e.
Proof.
  induction l as [|a l IH]; intros H (x & Hx & HX) c st; [destruct Hx|]. cbn [mfold]. unfold mbind at 1.
  destruct (H a (or_introl eq_refl) c st) as [(y & c' & s' & E1)|E1]; rewrite E1; [|reflexivity].
  destruct Hx as [->|Hx]; [rewrite HX in E1; discriminate E1|].
  unfold mbind. rewrite IH; [reflexivity| |exists x; auto]. intros z Hz. apply H. now right.
Qed.
Lemma mmap_refused {A B} e (f : A -> M B) l :
  (forall a, In a l -> forall st, (exists y s', f a st = Ok (y, s')) \/ f a st = Throw e) ->
  (exists a, In a l /\ forall st, f a st = Throw e) ->
  forall st, mmap f l st = Throw e.
Proof.
  induction l as [|a l IH]; intros H (x & Hx & HX) st; [destruct Hx|]. cbn [mmap]. unfold mbind at 1.
  destruct (H a (or_introl eq_refl) st) as [(y & s' & E1)|E1]; rewrite E1; [|reflexivity].
  destruct Hx as [->|Hx]; [rewrite HX in E1; discriminate E1|].
  unfold mbind. rewrite IH; [reflexivity| |exists x; auto]. intros z Hz. apply H. now right.
Qed.
Lemma mmap_total {A B} (f : A -> M B) l :
  (forall a, In a l -> forall st, exists y s', f a st = Ok (y, s')) ->
  forall st, exists ys s', mmap f l st = Ok (ys, s') /\ List.length ys = List.length l.
Proof.
  induction l as [|a l IH]; intros H st; cbn [mmap]; [exists [], st; split; reflexivity|].
  destruct (H a (or_introl eq_refl) st) as (y & s' & E1).
  destruct (IH (fun z Hz => H z (or_intror Hz)) s') as (ys & s2 & E2 & L).
  exists (y :: ys), s2. unfold mbind. rewrite E1, E2. split; [reflexivity|]. cbn [List.length]. congruence.
Qed.
(** The checked run is the unchecked run or fails at a check. *)
Definition checked_as {A} (t f : M A) : Prop := forall st, t st = f st \/ t st = Throw RuntimeError.
Lemma checked_refl {A} (f : M A) : checked_as f f.
Proof. intros st. now left. Qed.
Lemma checked_bind {A B} (m m' : M A) (k k' : A -> M B) :
  checked_as m m' -> (forall a st s, m' st = Ok (a, s) -> k a s = k' a s \/ k a s = Throw RuntimeError) ->
  checked_as (mbind m k) (mbind m' k').
Proof.
  intros H1 H2 st. unfold mbind. destruct (H1 st) as [-> | ->]; [|now right].
  destruct (m' st) as [[a s]| |] eqn:E; [|now left|now left]. exact (H2 a st s E).
Qed.
Lemma checked_mfold {A B C} (f g : C -> A -> M (B * C)) l :
  (forall c a, checked_as (f c a) (g c a)) -> forall c, checked_as (mfold f l c) (mfold g l c).
Proof.
  intros H. induction l as [|a l IH]; intros c; cbn [mfold]; [apply checked_refl|].
  apply checked_bind; [apply H|]. intros [y c1] st s _.
  apply (checked_bind (mfold f l c1) (mfold g l c1)); [apply IH|]. intros [ys c2] st' s' _. now left.
Qed.
Lemma checked_mmap {A B} (f g : A -> M B) l :
  (forall a, checked_as (f a) (g a)) -> checked_as (mmap f l) (mmap g l).
Proof.
  intros H. induction l as [|a l IH]; cbn [mmap]; [apply checked_refl|].
  apply checked_bind; [apply H|]. intros y st s _.
  apply (checked_bind (mmap f l) (mmap g l)); [apply IH|]. intros ys st' s' _. now left.
Qed.
Lemma mmap_Forall {A B} (P : B -> Prop) (f : A -> M B) l : (forall a st y s, In a l -> f a st = Ok (y, s) -> P y) ->
  forall st ys s, mmap f l st = Ok (ys, s) -> Forall P ys.
Proof.
  induction l as [|a l IH]; intros H st ys s E; cbn [mmap] in E.
  - apply ret_ok in E. destruct E as [-> _]. constructor.
  - apply mbind_ok in E. destruct E as (y & s1 & E1 & E). apply mbind_ok in E. destruct E as (zs & s2 & E2 & E).
    apply ret_ok in E. destruct E as [-> _]. constructor; [apply (H a st y s1 (or_introl eq_refl) E1)|].
    apply (IH (fun a0 st0 y0 s0 Hi => H a0 st0 y0 s0 (or_intror Hi)) _ _ _ E2).
Qed.

Section Status.
Context (gp : params) (V : valid_params gp) (sha : bytes -> Z) (hmac : bytes -> bytes -> Z)
        (dump : json -> outcome bytes).
Notation Q := (gpQ gp).

(** ** Refusals *)
Lemma selection_refused E s d pk ext seed ph verify st : pselection_valid s (sd_id d) = false ->
  encrypt_selection gp sha E s d pk ext seed ph verify st = Throw InvalidArgument.
Proof. intros H. unfold encrypt_selection. rewrite H. reflexivity. Qed.

Section Refused.
Context (HD : forall j, exists t, dump j = Ok t) (K : Z) (HK : spec_subgroup gp K).
Lemma contest_refused E c m d ext seed st dh :
  env_good gp K E -> Forall (fun s => 0 <= ps_vote s) (pc_selections c) ->
  contest_hash gp sha (cw_base d) = Ok dh ->
  (forall x, In x (get_selections (cw_base d) ++ get_placeholders d) ->
    nonzero_nonce gp sha (nonce_of gp sha dh (HElemQ seed) (cd_seq (cw_base d))) x) ->
  is_overvote (pcontest_valid c (cd_id (cw_base d)) (Z.of_nat (List.length (get_selections (cw_base d))))
      (cd_elected (cw_base d)) (cd_allowed (cw_base d)) true) = false ->
  (exists x, In x (get_selections (cw_base d)) /\ 1 < vote_for (pc_selections c) (sd_id x)) ->
  encrypt_contest gp sha hmac dump E c m d K ext seed false st = Throw InvalidArgument.
Proof.
  intros EG Hl Hdh Hnz HO (x0 & Hx0 & Hv0). unfold encrypt_contest. set (b := cw_base d) in *.
  set (check := pcontest_valid _ _ _ _ _ _) in *.
  assert (HC : check = SUCCESS \/ check <> SUCCESS /\ check <> OVERVOTE).
  { destruct check; first [left; reflexivity | discriminate HO | right; split; discriminate]. }
  destruct HC as [HC|[C1 C2]]; [|destruct check; first [congruence|reflexivity]].
  rewrite HC. rewrite Hdh. unfold mbind at 1, lift at 1. cbv zeta.
  destruct (extended_total dump c m SUCCESS HD) as (data & HDT).
  set (cn := nonce_of gp sha dh (HElemQ seed) (cd_seq b)) in Hnz.
  destruct (nonces_get gp sha (nonces_new gp sha dh (HElemQ seed)) (cd_seq b)) as [cn' ns1] eqn:EN.
  assert (ECN : cn = cn') by (unfold cn, nonce_of; rewrite EN; reflexivity). subst cn'.
  unfold mbind at 1, lift at 1. rewrite HDT. rewrite (emplace_selections c d). fold b. cbn [is_overvote].
  unfold mbind at 1. rewrite (mfold_refused InvalidArgument); [reflexivity| |].
  - intros x Hx k s. unfold encrypt_real. destruct (find_emplaced (pc_selections c) _ _ Hx) as (e & Fe & E1 & E2). rewrite Fe.
    assert (HN : nonzero_nonce gp sha cn x) by (apply Hnz, in_app_iff; now left).
    destruct (Z_le_gt_dec (ps_vote e) 1) as [L|L].
    + left. destruct (selection_total gp V sha K E e x ext cn false s EG E1 L HN) as (y & s' & HY).
      unfold mbind. rewrite HY. eexists. eexists. eexists. reflexivity.
    + right. unfold mbind. rewrite selection_refused; [reflexivity|].
      unfold pselection_valid. rewrite E1, bytes_eqb_refl. cbn [negb].
      destruct (Z.ltb_spec 1 (ps_vote e)) as [X|X]; [reflexivity|lia].
  - exists x0. split; [exact Hx0|]. intros k s. unfold encrypt_real.
    destruct (find_emplaced (pc_selections c) _ _ Hx0) as (e & Fe & E1 & E2). rewrite Fe.
    unfold mbind. rewrite selection_refused; [reflexivity|].
    unfold pselection_valid. rewrite E1, bytes_eqb_refl. cbn [negb].
    destruct (Z.ltb_spec 1 (ps_vote e)) as [X|X]; [reflexivity|]. rewrite E2 in X. lia.
Qed.
End Refused.

(** ** Checks of proofs only add runtime errors *)
Lemma checked_selection E s d pk ext seed ph :
  checked_as (encrypt_selection gp sha E s d pk ext seed ph true) (encrypt_selection gp sha E s d pk ext seed ph false).
Proof.
  unfold encrypt_selection. destruct (negb (pselection_valid s (sd_id d))); [apply checked_refl|].
  apply checked_bind; [apply checked_refl|]. intros tq st s1 _.
  refine (checked_bind _ _ _ _ (checked_refl _) _ s1). intros c st' s2 _. cbn [negb].
  destruct (cselection_valid _ _ _ _ _ _); [now left|now right].
Qed.
Lemma made_valid t id seq dh l pk ext pn n no hc r :
  0 <= n <= Q -> n < 2 ^ 64 ->
  ccontest_make gp sha t id seq dh l pk ext pn n no hc = Ok r ->
  exists v, ccontest_valid gp sha r dh pk ext = Ok v.
Proof.
  intros HN H64 H. unfold ccontest_make in H.
  apply bind_ok in H. destruct H as (h & Hh & H). apply bind_ok in H. destruct H as (acc & Ha & H).
  apply bind_ok in H. destruct H as (agg & _ & H). apply bind_ok in H. destruct H as (p & Hp & H).
  apply Ok_inj in H. subst r. unfold ccontest_valid, cc_sorted. cbn [cc_id cc_selections cc_proof]. rewrite Hh, Ha. cbn [bind].
  assert (HC : cp_const p = n).
  { unfold cproof_make in Hp. destruct (match t with Some _ => _ | None => _ end) as [[u a] b].
    apply bind_ok in Hp. destruct Hp as (v & _ & Hp). apply Ok_inj in Hp. subst p. reflexivity. }
  unfold cproof_valid, from_uint64_q, make_q. rewrite HC. cbn [Nat.ltb Nat.leb negb andb].
  replace (Q <? n) with false by (symmetry; apply Z.ltb_ge; lia). cbn [orb bind].
  eexists. reflexivity.
Qed.
Lemma checked_contest E c m d pk ext seed :
  0 <= cd_elected (cw_base d) <= Q -> cd_elected (cw_base d) < 2 ^ 64 ->
  checked_as (encrypt_contest gp sha hmac dump E c m d pk ext seed true)
             (encrypt_contest gp sha hmac dump E c m d pk ext seed false).
Proof.
  intros HQ H64. unfold encrypt_contest. set (b := cw_base d) in *. set (check := pcontest_valid _ _ _ _ _ _).
  assert (G : checked_as (
      let! dh := lift (contest_hash gp sha b) in
      let ns := nonces_new gp sha dh (HElemQ seed) in
      let '(contest_nonce, ns1) := nonces_get gp sha ns (cd_seq b) in
      let proof_nonce := fst (nonces_next gp sha ns1) in
      let! data := lift (extended_data dump c m check) in
      let over := is_overvote check in
      let normalized := pc_selections (emplace_contest c d) in
      let! (reals, count) :=
        mfold (encrypt_real gp sha E normalized over pk ext contest_nonce true) (get_selections b) 0 in
      let! (phs, count') :=
        mfold (encrypt_placeholder gp sha E over (cd_elected b) pk ext contest_nonce true)
              (get_placeholders d) count in
      let! n1 := lift (clone_q gp contest_nonce) in
      let data_nonce := nonce_of gp sha n1 (HStr (s2b "constant-extended-data")) 0 in
      let! t1 := ask_tr E in
      let! hashed := lift (hashed_encrypt gp sha hmac t1 data data_nonce pk ext BYTES_512 true) in
      let! n2 := lift (clone_q gp contest_nonce) in
      let! t2 := ask_tr E in
      let! r := lift (ccontest_make gp sha t2 (pc_id c) (cd_seq b) dh (reals ++ phs) pk ext
                                    proof_nonce (cd_elected b) (Some n2) (Some hashed)) in
      if negb true then ret r
      else
        let! ok := lift (ccontest_valid gp sha r dh pk ext) in
        if ok : bool then ret r else lift (Throw RuntimeError)) (
      let! dh := lift (contest_hash gp sha b) in
      let ns := nonces_new gp sha dh (HElemQ seed) in
      let '(contest_nonce, ns1) := nonces_get gp sha ns (cd_seq b) in
      let proof_nonce := fst (nonces_next gp sha ns1) in
      let! data := lift (extended_data dump c m check) in
      let over := is_overvote check in
      let normalized := pc_selections (emplace_contest c d) in
      let! (reals, count) :=
        mfold (encrypt_real gp sha E normalized over pk ext contest_nonce false) (get_selections b) 0 in
      let! (phs, count') :=
        mfold (encrypt_placeholder gp sha E over (cd_elected b) pk ext contest_nonce false)
              (get_placeholders d) count in
      let! n1 := lift (clone_q gp contest_nonce) in
      let data_nonce := nonce_of gp sha n1 (HStr (s2b "constant-extended-data")) 0 in
      let! t1 := ask_tr E in
      let! hashed := lift (hashed_encrypt gp sha hmac t1 data data_nonce pk ext BYTES_512 true) in
      let! n2 := lift (clone_q gp contest_nonce) in
      let! t2 := ask_tr E in
      let! r := lift (ccontest_make gp sha t2 (pc_id c) (cd_seq b) dh (reals ++ phs) pk ext
                                    proof_nonce (cd_elected b) (Some n2) (Some hashed)) in
      if negb false then ret r
      else
        let! ok := lift (ccontest_valid gp sha r dh pk ext) in
        if ok : bool then ret r else lift (Throw RuntimeError))).
  { apply checked_bind; [apply checked_refl|]. intros dh _ s0 _. cbv zeta.
    destruct (nonces_get gp sha (nonces_new gp sha dh (HElemQ seed)) (cd_seq b)) as [cn ns1].
    refine (checked_bind _ _ _ _ (checked_refl _) _ s0). intros data _ s1 _.
    refine (checked_bind _ _ _ _ _ _ s1).
    { apply checked_mfold. intros k x. unfold encrypt_real. destruct (find _ _); [|apply checked_refl].
      apply checked_bind; [apply checked_selection|]. intros y _ s _. now left. }
    intros [reals count] _ s2 _. refine (checked_bind _ _ _ _ _ _ s2).
    { apply checked_mfold. intros k x. unfold encrypt_placeholder.
      apply checked_bind; [apply checked_selection|]. intros y _ s _. now left. }
    intros [phs count'] _ s3 _. refine (checked_bind _ _ _ _ (checked_refl _) _ s3). intros n1 _ s4 _.
    refine (checked_bind _ _ _ _ (checked_refl _) _ s4). intros t1 _ s5 _.
    refine (checked_bind _ _ _ _ (checked_refl _) _ s5). intros hashed _ s6 _.
    refine (checked_bind _ _ _ _ (checked_refl _) _ s6). intros n2 _ s7 _.
    refine (checked_bind _ _ _ _ (checked_refl _) _ s7). intros t2 _ s8 _.
    refine (checked_bind _ _ _ _ (checked_refl _) _ s8). intros r s9 s10 HR. cbn [negb].
    apply lift_ok in HR. destruct HR as [HR _].
    destruct (made_valid _ _ _ _ _ _ _ _ _ _ _ _ HQ H64 HR) as (v & HV). unfold mbind, lift. rewrite HV.
    destruct v; [now left|now right]. }
  destruct check; first [exact G|apply checked_refl].
Qed.
(** What the unchecked run of a contest gives can be checked. *)
Lemma contest_checkable E c m d pk ext seed verify st r st' :
  0 <= cd_elected (cw_base d) <= Q -> cd_elected (cw_base d) < 2 ^ 64 ->
  encrypt_contest gp sha hmac dump E c m d pk ext seed verify st = Ok (r, st') ->
  exists v, ccontest_valid gp sha r (cc_desc r) pk ext = Ok v.
Proof.
  intros HQ H64. unfold encrypt_contest. set (b := cw_base d) in *. set (check := pcontest_valid _ _ _ _ _ _).
  intros H. assert (G : exists dh t2 reals phs pn n2 hc s1 s2, 
     lift (ccontest_make gp sha t2 (pc_id c) (cd_seq b) dh (reals ++ phs) pk ext pn (cd_elected b) (Some n2) (Some hc)) s1 = Ok (r, s2)).
  { destruct check; try discriminate H.
    all: apply mbind_ok in H; destruct H as (dh & ? & _ & H); cbv zeta in H;
      destruct (nonces_get gp sha (nonces_new gp sha dh (HElemQ seed)) (cd_seq b)) as [cn ns1];
      apply mbind_ok in H; destruct H as (data & ? & _ & H);
      apply mbind_ok in H; destruct H as ([reals count] & ? & _ & H);
      apply mbind_ok in H; destruct H as ([phs count'] & ? & _ & H);
      apply mbind_ok in H; destruct H as (n1 & ? & _ & H);
      apply mbind_ok in H; destruct H as (t1 & ? & _ & H);
      apply mbind_ok in H; destruct H as (hc & ? & _ & H);
      apply mbind_ok in H; destruct H as (n2 & ? & _ & H);
      apply mbind_ok in H; destruct H as (t2 & s1 & _ & H);
      apply mbind_ok in H; destruct H as (r0 & s2 & HR & H);
      assert (r0 = r) by
        (destruct verify; cbn [negb] in H;
         [apply mbind_ok in H; destruct H as (ok & ? & _ & H); destruct ok; [|discriminate H]; apply ret_ok in H; symmetry; apply H
         |apply ret_ok in H; symmetry; apply H]); subst r0;
      exists dh, t2, reals, phs, (fst (nonces_next gp sha ns1)), n2, hc, s1, s2; exact HR. }
  destruct G as (dh & t2 & reals & phs & pn & n2 & hc & s1 & s2 & HR). apply lift_ok in HR. destruct HR as [HR _].
  assert (HC : cc_desc r = dh).
  { unfold ccontest_make in HR. apply bind_ok in HR. destruct HR as (h & Hh & H1). apply bind_ok in H1. destruct H1 as (acc & Ha & H1).
    apply bind_ok in H1. destruct H1 as (agg & _ & H1). apply bind_ok in H1. destruct H1 as (p & Hp & H1).
    apply Ok_inj in H1. subst r. reflexivity. }
  rewrite HC. eapply made_valid; eassumption.
Qed.
Lemma checked_ballot E b m cx code_seed nonce ts :
  (forall d, In d (im_contests m) -> 0 <= cd_elected (cw_base d) <= Q /\ cd_elected (cw_base d) < 2 ^ 64) ->
  checked_as (encrypt_ballot gp sha hmac dump E b m cx code_seed nonce ts true)
             (encrypt_ballot gp sha hmac dump E b m cx code_seed nonce ts false).
Proof.
  intros HM. unfold encrypt_ballot. destruct (get_style m (pb_style b)) as [style|] eqn:ES; [|apply checked_refl].
  apply checked_bind; [apply checked_refl|]. intros n _ s0 _. set (seed := nonce_seed gp sha (im_hash m) (pb_id b) n).
  refine (checked_bind _ _ _ _ _ _ s0).
  { unfold encrypt_contests. rewrite ES. apply checked_bind; [apply checked_refl|]. intros nb _ s1 _.
    refine (checked_bind _ _ _ _ (checked_refl _) _ s1). intros ds s1x s2 Hds.
    apply lift_ok in Hds. destruct Hds as [Hds _].
    assert (X : forall l, (forall d, In d l -> In d ds) -> checked_as
      (mmap (fun d => match find (fun c => bytes_eqb (pc_id c) (cd_id (cw_base d))) (pb_contests nb) with
        | None => lift (Throw RuntimeError)
        | Some c => encrypt_contest gp sha hmac dump E c m d (el_pk cx) (el_ext cx) seed true end) l)
      (mmap (fun d => match find (fun c => bytes_eqb (pc_id c) (cd_id (cw_base d))) (pb_contests nb) with
        | None => lift (Throw RuntimeError)
        | Some c => encrypt_contest gp sha hmac dump E c m d (el_pk cx) (el_ext cx) seed false end) l)).
    { induction l as [|d l IH]; intros HI; cbn [mmap]; [apply checked_refl|].
      apply checked_bind.
      - destruct (find _ (pb_contests nb)); [|apply checked_refl].
        destruct (HM d) as [A B]; [eapply BallotProofs2.contests_for_in; [exact Hds|apply HI; now left]|].
        apply checked_contest; assumption.
      - intros y st s _. refine (checked_bind _ _ _ _ (IH _) _ s); [intros z Hz; apply HI; now right|]. intros ys _ s3 _. now left. }
    apply X. auto. }
  intros cs s1 s2 HCS. 
  refine (checked_bind _ _ _ _ (checked_refl _) _ s2). intros t _ s3 _.
  refine (checked_bind _ _ _ _ (checked_refl _) _ s3). intros now _ s4 _.
  refine (checked_bind _ _ _ _ (checked_refl _) _ s4). intros r s5 s6 HR. cbn [negb].
  apply lift_ok in HR. destruct HR as [HR _].
  assert (FC : Forall (fun cc => exists v, ccontest_valid gp sha cc (cc_desc cc) (el_pk cx) (el_ext cx) = Ok v) cs).
  { unfold encrypt_contests in HCS. rewrite ES in HCS.
    apply mbind_ok in HCS. destruct HCS as (nb & s7 & _ & HCS). apply mbind_ok in HCS. destruct HCS as (ds & s8 & Hds & HCS).
    apply lift_ok in Hds. destruct Hds as [Hds _]. revert HCS. apply mmap_Forall. intros d st y s Hd HY.
    destruct (find _ (pb_contests nb)); [|discriminate HY].
    destruct (HM d) as [A B]; [eapply BallotProofs2.contests_for_in; eassumption|]. eapply contest_checkable; eassumption. }
  assert (HV : exists v, cballot_valid gp sha r (im_hash m) (el_pk cx) (el_ext cx) = Ok v).
  { unfold cballot_valid. unfold cballot_make in HR. destruct cs as [|c0 cs0] eqn:EC; [discriminate HR|]. rewrite <- EC in *.
    apply bind_ok in HR. destruct HR as (h & _ & HR). apply Ok_inj in HR. subst r. unfold cb_sorted. cbn [cb_manifest cb_id cb_contests cb_hash].
    destruct (elem_eq _ _); cbn [negb]; [|eauto].
    assert (HS : cballot_hash gp sha (pb_id b) (sort_by cc_seq cs) (im_hash m)
       = Ok (hash_elems gp sha (HStr (pb_id b) :: HElemQ (im_hash m) :: map (fun c => HElemQ (cc_hash c)) (sort_by cc_seq cs)))).
    { unfold cballot_hash. destruct (sort_by cc_seq cs) as [|x xs] eqn:ESo; [|reflexivity].
      apply (f_equal (@List.length _)) in ESo. rewrite sort_length, EC in ESo. discriminate ESo. }
    rewrite HS. cbn [bind]. destruct (negb _); [eauto|].
    assert (HR : exists rs, mapM (fun c => contest_results gp sha c (el_pk cx) (el_ext cx)) (sort_by cc_seq cs) = Ok rs).
    { assert (FS : Forall (fun cc => exists v, ccontest_valid gp sha cc (cc_desc cc) (el_pk cx) (el_ext cx) = Ok v) (sort_by cc_seq cs)).
      { eapply Permutation_Forall; [|exact FC]. apply sort_perm. }
      clear HS. induction FS as [|x xs (v & Hv) _ IH]; cbn [mapM]; [eauto|]. unfold contest_results at 1. rewrite Hv. cbn [bind].
      destruct IH as (rs & ->). cbn [bind]. eauto. }
    destruct HR as (rs & ->). cbn [bind]. eauto. }
  destruct HV as (v & HV). unfold mbind, lift. rewrite HV. destruct v; [now left|now right].
Qed.

(** ** Exactly the unacceptable contests and ballots are refused *)
Section Exact.
Context (HD : forall j, exists t, dump j = Ok t) (K : Z) (HK : spec_subgroup gp K).

Lemma noticed_dec vs e a : {noticed vs e a} + {~ noticed vs e a}.
Proof.
  unfold noticed. destruct (Z_lt_dec e (Z.of_nat (List.length (filter (fun v => 1 <=? v) vs)))); [left; now left|].
  destruct (Z_lt_dec (vote_limit e a) (fold_right Z.add 0 vs mod 2 ^ 64)); [left; now right|right; tauto].
Qed.
Lemma small_dec (vs : list Z) : {Forall (fun v => v <= 1) vs} + {~ Forall (fun v => v <= 1) vs}.
Proof. apply Forall_dec. intros v. apply Z_le_dec. Qed.
Lemma check_over c d : Z.of_nat (List.length (pc_selections c)) < W64 -> pc_id c = cd_id (cw_base d) ->
  (List.length (pc_selections c) <= List.length (get_selections (cw_base d)))%nat ->
  (is_overvote (pcontest_valid c (cd_id (cw_base d)) (Z.of_nat (List.length (get_selections (cw_base d))))
      (cd_elected (cw_base d)) (cd_allowed (cw_base d)) true) = true
   <-> noticed (map ps_vote (pc_selections c)) (cd_elected (cw_base d)) (cd_allowed (cw_base d))).
Proof.
  intros HL HI Hlen. rewrite (pcontest_valid_eq _ _ _ _ _ _ HL), HI, bytes_eqb_refl. cbn [negb].
  replace (Z.of_nat (List.length (get_selections (cw_base d))) <? Z.of_nat (List.length (pc_selections c))) with false
    by (symmetry; apply Z.ltb_ge; lia).
  unfold noticed. change (2 ^ 64) with W64. rewrite <- marked_filter, <- total_sum, <- !Z.ltb_lt, <- orb_true_iff.
  destruct (_ || _); cbn [is_overvote]; tauto.
Qed.
Lemma contest_exact E c m d ext seed st dh :
  env_good gp K E -> Forall (fun s => 0 <= ps_vote s) (pc_selections c) ->
  Z.of_nat (List.length (pc_selections c)) < W64 ->
  NoDup (map sd_id (cd_selections (cw_base d))) ->
  Z.of_nat (List.length (cw_placeholders d)) = cd_elected (cw_base d) -> cd_elected (cw_base d) < W64 ->
  contest_hash gp sha (cw_base d) = Ok dh ->
  get_selections (cw_base d) ++ get_placeholders d <> [] ->
  (forall x, In x (get_selections (cw_base d) ++ get_placeholders d) ->
    nonzero_nonce gp sha (nonce_of gp sha dh (HElemQ seed) (cd_seq (cw_base d))) x) ->
  (contest_acceptable c d /\ exists r st', encrypt_contest gp sha hmac dump E c m d K ext seed false st = Ok (r, st')) \/
  (~ contest_acceptable c d /\ encrypt_contest gp sha hmac dump E c m d K ext seed false st = Throw InvalidArgument).
Proof.
  intros EG Hl HL ND HPH HE Hdh Hne Hnz. unfold contest_acceptable.
  assert (LG : List.length (get_selections (cw_base d)) = List.length (cd_selections (cw_base d)))
    by (unfold get_selections; apply sort_length).
  destruct (list_eq_dec Z.eq_dec (pc_id c) (cd_id (cw_base d))) as [HI|HI].
  2:{ right. split; [tauto|]. unfold encrypt_contest. rewrite (pcontest_valid_eq _ _ _ _ _ _ HL).
      replace (bytes_eqb (pc_id c) (cd_id (cw_base d))) with false by (symmetry; apply bytes_eqb_neq, HI). reflexivity. }
  destruct (le_dec (List.length (pc_selections c)) (List.length (cd_selections (cw_base d)))) as [Hn|Hn].
  2:{ right. split; [tauto|]. unfold encrypt_contest. rewrite (pcontest_valid_eq _ _ _ _ _ _ HL), HI, bytes_eqb_refl. cbn [negb].
      replace (Z.of_nat (List.length (get_selections (cw_base d))) <? Z.of_nat (List.length (pc_selections c))) with true
        by (symmetry; apply Z.ltb_lt; lia). reflexivity. }
  assert (Hn' : (List.length (pc_selections c) <= List.length (get_selections (cw_base d)))%nat) by lia.
  pose proof (check_over c d HL HI Hn') as CO.
  destruct (noticed_dec (map ps_vote (pc_selections c)) (cd_elected (cw_base d)) (cd_allowed (cw_base d))) as [N|N].
  - left. split; [tauto|].
    eapply (contest_total gp V sha hmac dump HD K HK); try eassumption; [apply nodup_sorted, ND|left; apply CO, N].
  - destruct (small_dec (votes_of (pc_selections c) d)) as [S|S].
    + left. split; [tauto|]. eapply (contest_total gp V sha hmac dump HD K HK); try eassumption; [apply nodup_sorted, ND|right].
      intros x Hx. rewrite Forall_forall in S. apply S. unfold votes_of. apply (in_map (fun y => vote_for (pc_selections c) (sd_id y))), Hx.
    + right. split; [tauto|]. eapply (contest_refused HD K); try eassumption.
      * destruct (is_overvote _); [exfalso; apply N, CO; reflexivity|reflexivity].
      * destruct (Exists_dec (fun x => 1 < vote_for (pc_selections c) (sd_id x)) (get_selections (cw_base d))) as [X|X].
        { intros x. destruct (Z_lt_dec 1 (vote_for (pc_selections c) (sd_id x))); auto. }
        -- apply Exists_exists in X. exact X.
        -- exfalso. apply S. unfold votes_of. apply Forall_map. apply Forall_forall. intros x Hx.
           destruct (Z_le_gt_dec (vote_for (pc_selections c) (sd_id x)) 1) as [L|L]; [exact L|].
           exfalso. apply X. apply Exists_exists. exists x. split; [exact Hx|lia].
Qed.
Lemma votes_emplaced_of l d : votes_of (map (emplaced l) (get_selections (cw_base d))) d = votes_of l d.
Proof. unfold votes_of. apply map_ext_in. intros x Hx. apply vote_for_emplaced, Hx. Qed.
Lemma emplaced_acceptable b d :
  contest_acceptable (emplaced_contest (pb_contests b) d) d <-> acceptable (entries b d) d.
Proof.
  unfold contest_acceptable, acceptable. destruct (emplaced_contest_spec (pb_contests b) d) as [ID ESS].
  rewrite ID, ESS, map_length. unfold get_selections at 1. rewrite sort_length, votes_emplaced.
  rewrite votes_emplaced_of. unfold entries, votes_of. intuition.
Qed.
Lemma acceptable_dec b d : {acceptable (entries b d) d} + {~ acceptable (entries b d) d}.
Proof.
  unfold acceptable. destruct (noticed_dec (votes_of (entries b d) d) (cd_elected (cw_base d)) (cd_allowed (cw_base d))); [left; now left|].
  destruct (small_dec (votes_of (entries b d) d)); [left; now right|right; tauto].
Qed.
Lemma ballot_dec b ds : ballot_acceptable b ds \/ exists d, In d ds /\ ~ acceptable (entries b d) d.
Proof.
  unfold ballot_acceptable. induction ds as [|d ds IH]; [left; intros x []|].
  destruct (acceptable_dec b d) as [A|A]; [|right; exists d; split; [now left|exact A]].
  destruct IH as [IH|(x & Hx & HX)]; [left|right; exists x; split; [now right|exact HX]].
  intros x [<-|Hx]; [exact A|exact (IH x Hx)].
Qed.
Lemma ballot_exact E b m cx code_seed nonce ts st ds n :
  el_pk cx = K -> manifest_ready m -> votes_unsigned b -> env_good gp K E ->
  n = match nonce with Some n => n | None => e_rand E (n_rand st) end ->
  usable gp sha b m n ds ->
  (ballot_acceptable b ds /\ exists r st', encrypt_ballot gp sha hmac dump E b m cx code_seed nonce ts false st = Ok (r, st')) \/
  (~ ballot_acceptable b ds /\ encrypt_ballot gp sha hmac dump E b m cx code_seed nonce ts false st = Throw InvalidArgument).
Proof.
  intros HP MR HV EG Hn [H1 H2 H4]. unfold encrypt_ballot.
  destruct (contests_for_style _ _ _ H1) as (style & ES). rewrite ES.
  assert (HNO : exists s0, (match nonce with Some n => ret n | None => draw E end) st = Ok (n, s0)).
  { destruct nonce as [n0|]; cbn; subst n; eexists; reflexivity. }
  destruct HNO as (s0 & HNO). clear Hn.
  set (seed := nonce_seed gp sha (im_hash m) (pb_id b) n) in *.
  set (f := fun nb d =>
        match find (fun c => bytes_eqb (pc_id c) (cd_id (cw_base d))) (pb_contests nb) with
        | None => lift (Throw RuntimeError)
        | Some c => encrypt_contest gp sha hmac dump E c m d (el_pk cx) (el_ext cx) seed false
        end).
  assert (HN : exists nb, emplace_ballot b m = Ok nb /\ pb_contests nb = map (emplaced_contest (pb_contests b)) ds).
  { unfold emplace_ballot. rewrite ES, (get_style_id _ _ _ ES), H1. cbn [bind]. eexists. split; [reflexivity|]. reflexivity. }
  destruct HN as (nb & HN & HNC).
  assert (HC : encrypt_contests gp sha hmac dump E b m cx seed false s0 = mmap (f nb) ds s0).
  { unfold encrypt_contests. rewrite ES, (get_style_id _ _ _ ES), HN, H1. reflexivity. }
  assert (HF : forall d, In d ds -> forall s,
     (acceptable (entries b d) d /\ exists y s', f nb d s = Ok (y, s')) \/
     (~ acceptable (entries b d) d /\ f nb d s = Throw InvalidArgument)).
  { intros d Hd s. unfold f. rewrite HNC, (emplaced_find (pb_contests b) ds); [| |exact Hd].
    2:{ intros x y Hx Hy. apply (mr_ids _ MR); eapply BallotProofs2.contests_for_in; eassumption. }
    pose proof (BallotProofs2.contests_for_in _ _ _ _ H1 Hd) as HM.
    destruct (H4 d Hd) as (dh & A1 & A2 & A3). rewrite Forall_forall in A3.
    destruct (emplaced_contest_spec (pb_contests b) d) as [ID ESS]. rewrite HP.
    destruct (contest_exact E (emplaced_contest (pb_contests b) d) m d (el_ext cx) seed s dh EG) as [[X Y]|[X Y]].
    - rewrite ESS. apply emplaced_unsigned, entries_unsigned, HV.
    - rewrite ESS, map_length. unfold get_selections. rewrite sort_length. apply (mr_sizes _ MR), HM.
    - apply (mr_selections _ MR), HM.
    - apply (mr_placeholders _ MR), HM.
    - apply (mr_elected _ MR), HM.
    - exact A1.
    - exact A2.
    - exact A3.
    - left. split; [apply emplaced_acceptable, X|exact Y].
    - right. split; [intros Z; apply X, emplaced_acceptable, Z|exact Y]. }
  destruct (ballot_dec b ds) as [A|(d0 & Hd0 & A)].
  - left. split; [exact A|]. unfold mbind at 1. rewrite HNO. fold seed.
    destruct (mmap_total (f nb) ds) with (st := s0) as (cs & s1 & HCS & HL).
    { intros d Hd s. destruct (HF d Hd s) as [[_ Y]|[X _]]; [exact Y|destruct (X (A d Hd))]. }
    unfold mbind at 1. rewrite HC, HCS.
    assert (HT : exists t s2, (if ts =? 0 then ask_clock E else ret ts) s1 = Ok (t, s2)).
    { destruct (ts =? 0); eexists; eexists; reflexivity. }
    destruct HT as (t & s2 & HT). unfold mbind at 1. rewrite HT.
    assert (HW : exists now s3, (if t =? 0 then ask_clock E else ret 0) s2 = Ok (now, s3)).
    { destruct (t =? 0); eexists; eexists; reflexivity. }
    destruct HW as (now & s3 & HW). unfold mbind at 1. rewrite HW.
    unfold cballot_make, cballot_hash. destruct cs as [|c0 cs].
    { destruct ds; [congruence|discriminate HL]. }
    cbn [bind]. unfold mbind at 1, lift at 1. cbn [negb]. eexists. eexists. reflexivity.
  - right. split; [intros Z; exact (A (Z d0 Hd0))|].
    unfold mbind at 1. rewrite HNO. fold seed. unfold mbind at 1. rewrite HC, (mmap_refused InvalidArgument (f nb) ds); [reflexivity| |].
    + intros d Hd s. destruct (HF d Hd s) as [[_ Y]|[_ Y]]; [left; exact Y|right; exact Y].
    + exists d0. split; [exact Hd0|]. intros s. destruct (HF d0 Hd0 s) as [[X _]|[_ Y]]; [destruct (A X)|exact Y].
Qed.

Lemma vote_for_bounded l id : unsigned_votes l -> 0 <= vote_for l id < 2 ^ 64.
Proof.
  induction 1 as [|s l H _ IH]; cbn [vote_for]; [split; reflexivity || discriminate|].
  destruct (list_eq_dec _ _ _); assumption.
Qed.
Lemma entries_bounded b d : votes_unsigned b -> unsigned_votes (entries b d).
Proof.
  unfold votes_unsigned, entries. induction 1 as [|c l H _ IH]; cbn [contest_entries]; [constructor|].
  destruct (list_eq_dec _ _ _); assumption.
Qed.
Lemma emplaced_ballot_unsigned b m nb : votes_unsigned b -> emplace_ballot b m = Ok nb -> votes_unsigned nb.
Proof.
  intros HV HN. destruct (emplace_ballot_spec _ _ _ HN) as (style & ds & _ & _ & _ & _ & HC).
  unfold votes_unsigned. rewrite HC. apply Forall_map, Forall_forall. intros d _.
  rewrite (proj2 (emplaced_contest_spec (pb_contests b) d)). unfold unsigned_votes. apply Forall_map, Forall_forall.
  intros x _. rewrite (proj2 (emplaced_spec _ x)). apply vote_for_bounded, (entries_bounded b d HV).
Qed.
Lemma find_entries l d c : find (fun x => bytes_eqb (pc_id x) (cd_id (cw_base d))) l = Some c ->
  contest_entries l (cd_id (cw_base d)) = pc_selections c.
Proof.
  induction l as [|x l IH]; cbn [find contest_entries]; [discriminate|].
  destruct (list_eq_dec Z.eq_dec (pc_id x) (cd_id (cw_base d))) as [E|E].
  - rewrite E, bytes_eqb_refl. intros H. injection H as ->. reflexivity.
  - replace (bytes_eqb (pc_id x) (cd_id (cw_base d))) with false by (symmetry; apply bytes_eqb_neq, E). exact IH.
Qed.
Lemma emplaced_ballot_votes b m nb ds d : manifest_ready m -> emplace_ballot b m = Ok nb ->
  contests_for m (pb_style b) = Ok ds -> In d ds -> votes_of (entries nb d) d = votes_of (entries b d) d.
Proof.
  intros MR HN H1 Hd. destruct (emplace_ballot_spec _ _ _ HN) as (style & ds' & _ & H1' & _ & _ & HC).
  rewrite H1 in H1'. apply Ok_inj in H1'. subst ds'.
  unfold entries at 1. rewrite (find_entries _ d (emplaced_contest (pb_contests b) d)).
  - rewrite (proj2 (emplaced_contest_spec (pb_contests b) d)). apply votes_emplaced_of.
  - rewrite HC. apply emplaced_find; [|exact Hd].
    intros x y Hx Hy. apply (mr_ids _ MR); eapply BallotProofs2.contests_for_in; eassumption.
Qed.
Lemma compact_exact E b m cx code_seed nonce ts st ds n :
  el_pk cx = K -> manifest_ready m -> votes_unsigned b -> env_good gp K E ->
  n = match nonce with Some n => n | None => e_rand E (n_rand st) end ->
  usable gp sha b m n ds ->
  (ballot_acceptable b ds /\ code_seed <= Q /\ n <= Q /\
     exists r st', encrypt_compact_ballot gp sha hmac dump E b m cx code_seed nonce ts false st = Ok (r, st')) \/
  (ballot_acceptable b ds /\ ~ (code_seed <= Q /\ n <= Q) /\
     encrypt_compact_ballot gp sha hmac dump E b m cx code_seed nonce ts false st = Throw OutOfRange) \/
  (~ ballot_acceptable b ds /\
     encrypt_compact_ballot gp sha hmac dump E b m cx code_seed nonce ts false st = Throw InvalidArgument).
Proof.
  intros HP MR HV EG Hn HU. unfold encrypt_compact_ballot.
  assert (HN : exists nb, emplace_ballot b m = Ok nb).
  { destruct (contests_for_style _ _ _ (us_style _ _ _ _ _ _ HU)) as (style & ES).
    unfold emplace_ballot. rewrite ES, (get_style_id _ _ _ ES), (us_style _ _ _ _ _ _ HU). eexists. reflexivity. }
  destruct HN as (nb & HN). rewrite HN.
  destruct (emplace_ballot_spec _ _ _ HN) as (style & ds' & _ & _ & HID & HST & _).
  assert (HU' : usable gp sha nb m n ds).
  { destruct HU as [U1 U2 U3]. constructor; [rewrite HST; exact U1|exact U2|rewrite HID; exact U3]. }
  assert (HA : ballot_acceptable nb ds <-> ballot_acceptable b ds).
  { unfold ballot_acceptable, acceptable. split; intros H d Hd; specialize (H d Hd);
      rewrite (emplaced_ballot_votes b m nb ds d MR HN (us_style _ _ _ _ _ _ HU) Hd) in *; exact H. }
  destruct (ballot_exact E nb m cx code_seed nonce ts st ds n HP MR (emplaced_ballot_unsigned b m nb HV HN) EG Hn HU')
    as [[A (r & s1 & HR)]|[A HR]].
  - assert (HX : forall X : outcome (compact_cipher * EncryptModel.st),
      mbind (lift (Ok nb)) (fun nb0 => mbind (encrypt_ballot gp sha hmac dump E nb0 m cx code_seed nonce ts false)
        (fun c => lift (compress_cipher gp nb0 c))) st = lift (compress_cipher gp nb r) s1).
    { intros _. unfold mbind at 1, lift at 1. unfold mbind. rewrite HR. reflexivity. }
    rewrite (HX UB). clear HX.
    apply (encrypt_ballot_ok gp sha hmac dump) in HR.
    destruct HR as (n' & HN' & ds2 & nb2 & _ & _ & _ & _ & _ & _ & _ & HS & HNO & _ & _ & HCO & _).
    assert (n' = n) as ->.
    { destruct nonce as [n1|]; destruct HN' as [HN'|[HN' HN2]]; congruence. }
    unfold compress_cipher. rewrite HNO, HS.
    assert (CC : clone_q gp (cb_code r) = Ok (cb_code r)).
    { apply (clone_q_id gp). rewrite HCO. apply (hash_elems_range gp V). }
    destruct (Z_le_gt_dec code_seed Q) as [S1|S1].
    + rewrite (clone_q_small gp) by (apply Z.leb_le; exact S1). cbn [bind]. rewrite CC. cbn [bind].
      destruct (Z_le_gt_dec n Q) as [S2|S2].
      * rewrite (clone_q_small gp) by (apply Z.leb_le; exact S2). left.
        split; [apply HA, A|]. split; [exact S1|]. split; [exact S2|]. eexists. eexists. reflexivity.
      * rewrite (clone_q_big gp) by (apply Z.leb_gt; lia). right. left.
        split; [apply HA, A|]. split; [lia|reflexivity].
    + rewrite (clone_q_big gp) by (apply Z.leb_gt; lia). right. left.
      split; [apply HA, A|]. split; [lia|reflexivity].
  - right. right. split; [intros Z; apply A, HA, Z|].
    unfold mbind at 1, lift at 1. unfold mbind. rewrite HR. reflexivity.
Qed.
End Exact.
Lemma checked_compact E b m cx code_seed nonce ts :
  (forall d, In d (im_contests m) -> 0 <= cd_elected (cw_base d) <= Q /\ cd_elected (cw_base d) < 2 ^ 64) ->
  checked_as (encrypt_compact_ballot gp sha hmac dump E b m cx code_seed nonce ts true)
             (encrypt_compact_ballot gp sha hmac dump E b m cx code_seed nonce ts false).
Proof.
  intros HM. unfold encrypt_compact_ballot. apply checked_bind; [apply checked_refl|]. intros nb _ s0 _.
  refine (checked_bind _ _ _ _ (checked_ballot E nb m cx code_seed nonce ts HM) _ s0). intros c _ s1 _. now left.
Qed.
End Status.
