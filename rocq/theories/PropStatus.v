(** C87: what the C functions that encrypt answer. *)
From Coq Require Import Psatz String.
From Verif Require Import Base GroupModel GroupSpec GroupProofs CodecProofs HashModel Algebra ElgamalModel ElgamalSpec
  ElgamalProofs HashedProofs ManifestProofs TestParams TallyProofs SortModel SortProofs ManifestModel BallotModel JsonModel EncryptModel PropManifest
  EncryptSpec EncryptProofs BallotProofs BallotProofs2 BallotProofs4 BallotProofs5 PropEncrypt StatusModel StatusSpec StatusProofs.
Open Scope list_scope.
Open Scope Z_scope.

(** * Ballots *)
(** A ballot with a known style, encrypted without checking the proofs: success exactly if every
    contest of its style is overvoted and noticed, or has votes of 0 and 1 only. *)
Theorem C87_ballot gp sha hmac dump E b m cx code_seed nonce ds :
  valid_params gp -> (forall j, exists t, dump j = Ok t) -> spec_subgroup gp (el_pk cx) ->
  manifest_ready m -> votes_unsigned b -> env_good gp (el_pk cx) E ->
  usable gp sha b m (used_nonce E nonce) ds ->
  answers (c_encrypt_ballot gp sha hmac dump E b m cx code_seed nonce false) (ballot_acceptable b ds).
Proof.
  intros V HD HK MR HV EG HU. unfold c_encrypt_ballot, answers.
  destruct (ballot_exact gp V sha hmac dump HD (el_pk cx) HK E b m cx code_seed nonce 0 st0 ds (used_nonce E nonce)
    eq_refl MR HV EG eq_refl HU) as [[A (r & s & HR)]|[A HR]]; rewrite HR.
  - left. split; [exact A|]. eexists. reflexivity.
  - right. split; [exact A|]. reflexivity.
Qed.
(** The check of the proofs adds one answer, RUNTIME_ERROR, ... *)
Theorem C87_checked gp sha hmac dump E b m cx code_seed nonce :
  (forall d, In d (im_contests m) -> 0 <= cd_elected (cw_base d) <= gpQ gp /\ cd_elected (cw_base d) < 2 ^ 64) ->
  answers_checked (c_encrypt_ballot gp sha hmac dump E b m cx code_seed nonce true)
                  (c_encrypt_ballot gp sha hmac dump E b m cx code_seed nonce false).
Proof.
  intros HM. unfold c_encrypt_ballot, answers_checked.
  destruct (checked_ballot gp sha hmac dump E b m cx code_seed nonce 0 HM st0) as [-> | ->]; [left|right]; reflexivity.
Qed.
(** ... given to an acceptable ballot only if a scalar of a proof is zero. *)
Theorem C87_check_fails gp sha hmac dump E b m cx code_seed nonce r :
  valid_params gp -> manifest_ready m -> votes_unsigned b -> spec_subgroup gp (el_pk cx) ->
  env_good gp (el_pk cx) E ->
  (forall d, In d (im_contests m) -> 0 <= cd_elected (cw_base d) <= gpQ gp /\ cd_elected (cw_base d) < 2 ^ 64) ->
  c_encrypt_ballot gp sha hmac dump E b m cx code_seed nonce false = Ok (EgSuccess, Some r) ->
  (c_encrypt_ballot gp sha hmac dump E b m cx code_seed nonce true = Ok (EgSuccess, Some r) <->
   Forall no_zero_scalars (cb_contests r)).
Proof.
  intros V MR HV HK EG HM. unfold c_encrypt_ballot.
  assert (HM' : forall d, In d (im_contests m) -> cd_elected (cw_base d) <= gpQ gp) by (intros d Hd; apply (HM d Hd)).
  destruct (encrypt_ballot gp sha hmac dump E b m cx code_seed nonce 0 false st0) as [[r1 s1]|e|] eqn:HR;
    cbn [value_of answer]; [|destruct e; discriminate|discriminate].
  intros H. assert (r1 = r) as ->. { apply Ok_inj in H. congruence. }
  pose proof (C36_verify_iff_partial gp sha hmac dump E b m cx code_seed nonce 0 st0 r s1 V MR HV HK EG HM') as I.
  destruct (checked_ballot gp sha hmac dump E b m cx code_seed nonce 0 HM st0) as [HT|HT]; rewrite HT in *.
  - rewrite HR in *. cbn [value_of answer]. split; [intros _; apply I; reflexivity|reflexivity].
  - cbn [value_of answer]. split; [discriminate|]. intros Z. destruct I as [_ I]. specialize (I (conj HR Z)). discriminate I.
Qed.
(** An unknown style is refused, and so is a style that no contest belongs to. *)
Theorem C87_unknown_style gp sha hmac dump E b m cx code_seed nonce verify :
  get_style m (pb_style b) = None \/ contests_for m (pb_style b) = Ok [] ->
  c_encrypt_ballot gp sha hmac dump E b m cx code_seed nonce verify = Ok (EgInvalidArgument, None).
Proof.
  unfold c_encrypt_ballot. intros [H|H].
  - rewrite (C62_unknown_style gp sha hmac dump) by exact H. reflexivity.
  - unfold encrypt_ballot. destruct (contests_for_style _ _ _ H) as (style & ES). rewrite ES.
    assert (HNO : exists n s0, (match nonce with Some n => ret n | None => draw E end) st0 = Ok (n, s0)).
    { destruct nonce; eexists; eexists; reflexivity. }
    destruct HNO as (n & s0 & HNO). unfold mbind at 1. rewrite HNO.
    unfold encrypt_contests, emplace_ballot. rewrite ES, (get_style_id _ _ _ ES), H.
    unfold mbind, lift, ask_clock, ret. cbn. destruct (_ =? 0); reflexivity.
Qed.
(** * Compact ballots *)
(** The same; the code seed and the nonce must also be elements, or else BAD_ALLOC is answered. *)
Theorem C87_compact_partial gp sha hmac dump E b m cx code_seed nonce ds :
  valid_params gp -> (forall j, exists t, dump j = Ok t) -> spec_subgroup gp (el_pk cx) ->
  manifest_ready m -> votes_unsigned b -> env_good gp (el_pk cx) E ->
  usable gp sha b m (used_nonce E nonce) ds ->
  code_seed < gpQ gp -> used_nonce E nonce < gpQ gp ->
  answers (c_encrypt_compact gp sha hmac dump E b m cx code_seed nonce false) (ballot_acceptable b ds).
Proof.
  intros V HD HK MR HV EG HU H1 H2. unfold c_encrypt_compact, answers.
  destruct (compact_exact gp V sha hmac dump HD (el_pk cx) HK E b m cx code_seed nonce 0 st0 ds (used_nonce E nonce)
    eq_refl MR HV EG eq_refl HU) as [(A & _ & _ & r & s & HR)|[(_ & N & _)|[A HR]]]; [|lia|]; rewrite HR.
  - left. split; [exact A|]. eexists. reflexivity.
  - right. split; [exact A|]. reflexivity.
Qed.
Theorem C87_compact_seed gp sha hmac dump E b m cx code_seed nonce ds :
  valid_params gp -> (forall j, exists t, dump j = Ok t) -> spec_subgroup gp (el_pk cx) ->
  manifest_ready m -> votes_unsigned b -> env_good gp (el_pk cx) E ->
  usable gp sha b m (used_nonce E nonce) ds -> ballot_acceptable b ds ->
  c_encrypt_compact gp sha hmac dump E b m cx code_seed nonce false = Ok (EgBadAlloc, None) <->
  gpQ gp < code_seed \/ gpQ gp < used_nonce E nonce.
Proof.
  intros V HD HK MR HV EG HU HA. unfold c_encrypt_compact.
  destruct (compact_exact gp V sha hmac dump HD (el_pk cx) HK E b m cx code_seed nonce 0 st0 ds (used_nonce E nonce)
    eq_refl MR HV EG eq_refl HU) as [(A & X & Y & r & s & HR)|[(_ & N & HR)|[A HR]]]; [| |tauto]; rewrite HR; cbn.
  - split; [discriminate|lia].
  - split; [lia|reflexivity].
Qed.
Theorem C87_compact_checked gp sha hmac dump E b m cx code_seed nonce :
  (forall d, In d (im_contests m) -> 0 <= cd_elected (cw_base d) <= gpQ gp /\ cd_elected (cw_base d) < 2 ^ 64) ->
  answers_checked (c_encrypt_compact gp sha hmac dump E b m cx code_seed nonce true)
                  (c_encrypt_compact gp sha hmac dump E b m cx code_seed nonce false).
Proof.
  intros HM. unfold c_encrypt_compact, answers_checked.
  destruct (checked_compact gp sha hmac dump E b m cx code_seed nonce 0 HM st0) as [-> | ->]; [left|right]; reflexivity.
Qed.

(** * The mediator *)
Theorem C87_mediator gp sha hmac dump E md b ds :
  valid_params gp -> (forall j, exists t, dump j = Ok t) -> spec_subgroup gp (el_pk (md_context md)) ->
  manifest_ready (md_manifest md) -> votes_unsigned b -> env_good gp (el_pk (md_context md)) E ->
  usable gp sha b (md_manifest md) (used_nonce E None) ds ->
  answers (snd (c_mediator_encrypt gp sha hmac dump E md b false)) (ballot_acceptable b ds).
Proof.
  intros V HD HK MR HV EG HU. unfold c_mediator_encrypt, mediator_step, answers.
  set (seed := match md_seed md with Some s => s | None => _ end).
  unfold mbind, ask_clock.
  match goal with |- context [encrypt_ballot _ _ _ _ _ _ _ _ _ _ ?t _ ?s] => set (ts := t); set (s1 := s) end.
  destruct (ballot_exact gp V sha hmac dump HD (el_pk (md_context md)) HK E b (md_manifest md) (md_context md) seed None ts s1 ds
    (used_nonce E None) eq_refl MR HV EG eq_refl HU) as [[A (r & s & HR)]|[A HR]]; rewrite HR; cbn [value_of snd answer].
  - left. split; [exact A|]. eexists. reflexivity.
  - right. split; [exact A|]. reflexivity.
Qed.
Theorem C87_mediator_compact gp sha hmac dump E md b ds :
  valid_params gp -> (forall j, exists t, dump j = Ok t) -> spec_subgroup gp (el_pk (md_context md)) ->
  manifest_ready (md_manifest md) -> votes_unsigned b -> env_good gp (el_pk (md_context md)) E ->
  usable gp sha b (md_manifest md) (used_nonce E None) ds ->
  (forall s, md_seed md = Some s -> s < gpQ gp) ->
  answers (snd (c_mediator_compact gp sha hmac dump E md b false)) (ballot_acceptable b ds).
Proof.
  intros V HD HK MR HV EG HU HS. unfold c_mediator_compact, mediator_step, answers.
  set (seed := match md_seed md with Some s => s | None => _ end).
  assert (HQ : seed < gpQ gp).
  { subst seed. destruct (md_seed md) as [s|]; [exact (HS s eq_refl)|].
    apply (ChaumProofs.hash_elems_range gp V). }
  assert (HN : used_nonce E None < gpQ gp) by (apply (eg_rand _ _ _ EG)).
  unfold mbind, ask_clock.
  match goal with |- context [encrypt_compact_ballot _ _ _ _ _ _ _ _ _ _ ?t _ ?s] => set (ts := t); set (s1 := s) end.
  destruct (compact_exact gp V sha hmac dump HD (el_pk (md_context md)) HK E b (md_manifest md) (md_context md) seed None ts s1 ds
    (used_nonce E None) eq_refl MR HV EG eq_refl HU) as [(A & _ & _ & r & s & HR)|[(_ & N & _)|[A HR]]]; [|lia|];
    rewrite HR; cbn [value_of snd answer].
  - left. split; [exact A|]. eexists. reflexivity.
  - right. split; [exact A|]. reflexivity.
Qed.
(** A ballot answered with SUCCESS has the mediator's seed, its code is the next seed, and its proofs
    are valid if they were to be checked; another answer keeps the seed. *)
Theorem C87_mediator_moves gp sha hmac dump E md b verify md' x :
  c_mediator_encrypt gp sha hmac dump E md b verify = (md', x) ->
  (forall r, x = Ok (EgSuccess, Some r) -> cb_seed r = next_seed gp sha md /\ moved md md' (cb_code r) /\
     (verify = true -> cballot_valid gp sha r (im_hash (md_manifest md)) (el_pk (md_context md)) (el_ext (md_context md)) = Ok true)) /\
  ((forall r, x <> Ok (EgSuccess, Some r)) -> moved md md' (next_seed gp sha md)).
Proof.
  unfold c_mediator_encrypt, mediator_step. change (match md_seed md with Some s => s | None => _ end) with (next_seed gp sha md).
  set (seed := next_seed gp sha md). unfold mbind, ask_clock.
  match goal with |- context [encrypt_ballot _ _ _ _ _ _ _ _ _ _ ?t _ ?s] => set (ts := t); set (s1 := s) end.
  destruct (encrypt_ballot gp sha hmac dump E b (md_manifest md) (md_context md) seed None ts verify s1) as [[r s2]|e|] eqn:HR;
    cbn [value_of answer]; intros H; injection H as <- <-; (split; [intros r0 H0|intros HN]).
  - injection H0 as <-. apply encrypt_ballot_ok in HR.
    destruct HR as (n & _ & ds & nb & _ & _ & _ & _ & _ & _ & _ & HS & _ & _ & _ & _ & HV).
    split; [exact HS|]. split; [repeat split|exact HV].
  - exfalso. apply (HN r). reflexivity.
  - destruct e; discriminate H0.
  - repeat split.
  - discriminate H0.
  - repeat split.
Qed.
(** Compact ballots likewise: the values kept are those of a full ballot with valid proofs. *)
Lemma compact_run gp sha hmac dump E b m cx seed nonce ts verify st r st' :
  encrypt_compact_ballot gp sha hmac dump E b m cx seed nonce ts verify st = Ok (r, st') ->
  exists nb c, encrypt_ballot gp sha hmac dump E nb m cx seed nonce ts verify st = Ok (c, st') /\
    cct_seed r = cb_seed c /\ cct_code r = cb_code c /\ cct_timestamp r = cb_timestamp c /\ cb_nonce c = Some (cct_nonce r).
Proof.
  unfold encrypt_compact_ballot. intros H. apply mbind_ok in H. destruct H as (nb & s1 & H1 & H). apply lift_ok in H1. destruct H1 as [_ ->].
  apply mbind_ok in H. destruct H as (c & s2 & H1 & H). apply lift_ok in H. destruct H as [H ->].
  exists nb, c. split; [exact H1|]. unfold compress_cipher in H.
  destruct (cb_nonce c) as [n|]; [|discriminate H].
  assert (CQ : forall v w, clone_q gp v = Ok w -> v = w).
  { intros v w. unfold clone_q, make_q. change (4 <? 4)%nat with false. cbn [andb negb]. destruct (gpQ gp <? v); [discriminate|].
    intros X. apply Ok_inj in X. exact X. }
  apply bind_ok in H. destruct H as (s' & H2 & H). apply bind_ok in H. destruct H as (k & H3 & H).
  apply bind_ok in H. destruct H as (n' & H4 & H). apply Ok_inj in H. subst r. apply CQ in H2, H3, H4. subst.
  cbn. auto.
Qed.
Theorem C87_mediator_compact_moves gp sha hmac dump E md b verify md' x :
  c_mediator_compact gp sha hmac dump E md b verify = (md', x) ->
  (forall r, x = Ok (EgSuccess, Some r) -> cct_seed r = next_seed gp sha md /\ moved md md' (cct_code r) /\
     exists c, cb_code c = cct_code r /\ cb_seed c = cct_seed r /\ cb_timestamp c = cct_timestamp r /\ cb_nonce c = Some (cct_nonce r) /\
     (verify = true -> cballot_valid gp sha c (im_hash (md_manifest md)) (el_pk (md_context md)) (el_ext (md_context md)) = Ok true)) /\
  ((forall r, x <> Ok (EgSuccess, Some r)) -> moved md md' (next_seed gp sha md)).
Proof.
  unfold c_mediator_compact, mediator_step. change (match md_seed md with Some s => s | None => _ end) with (next_seed gp sha md).
  set (seed := next_seed gp sha md). unfold mbind, ask_clock.
  match goal with |- context [encrypt_compact_ballot _ _ _ _ _ _ _ _ _ _ ?t _ ?s] => set (ts := t); set (s1 := s) end.
  destruct (encrypt_compact_ballot gp sha hmac dump E b (md_manifest md) (md_context md) seed None ts verify s1) as [[r s2]|e|] eqn:HR;
    cbn [value_of answer]; intros H; injection H as <- <-; (split; [intros r0 H0|intros HN]).
  - injection H0 as <-. apply compact_run in HR. destruct HR as (nb & c & HR & C1 & C2 & C3 & C4). apply encrypt_ballot_ok in HR.
    destruct HR as (n & _ & ds & nb' & _ & _ & _ & _ & _ & _ & _ & HS & _ & _ & _ & _ & HV).
    split; [congruence|]. split; [repeat split|]. exists c. repeat (split; [congruence|]). exact HV.
  - exfalso. apply (HN r). reflexivity.
  - destruct e; discriminate H0.
  - repeat split.
  - discriminate H0.
  - repeat split.
Qed.
(** The direct calls: SUCCESS with the check of proofs means that they are valid. *)
Theorem C87_valid gp sha hmac dump E b m cx code_seed nonce r :
  c_encrypt_ballot gp sha hmac dump E b m cx code_seed nonce true = Ok (EgSuccess, Some r) ->
  cballot_valid gp sha r (im_hash m) (el_pk cx) (el_ext cx) = Ok true /\ cb_seed r = code_seed /\
  (forall n, nonce = Some n -> cb_nonce r = Some n).
Proof.
  unfold c_encrypt_ballot.
  destruct (encrypt_ballot gp sha hmac dump E b m cx code_seed nonce 0 true st0) as [[r0 s2]|e|] eqn:HR;
    cbn [value_of answer]; intros H; [|destruct e; discriminate H|discriminate H]. injection H as <-.
  apply encrypt_ballot_ok in HR. destruct HR as (n & HN & ds & nb' & _ & _ & _ & _ & _ & _ & _ & HS & HM & _ & _ & _ & HV).
  split; [exact (HV eq_refl)|]. split; [exact HS|]. intros n0 ->. destruct HN as [HN|[HN _]]; [congruence|discriminate HN].
Qed.
Theorem C87_compact_valid gp sha hmac dump E b m cx code_seed nonce r :
  c_encrypt_compact gp sha hmac dump E b m cx code_seed nonce true = Ok (EgSuccess, Some r) ->
  cct_seed r = code_seed /\ (forall n, nonce = Some n -> cct_nonce r = n) /\
  exists c, cb_code c = cct_code r /\ cb_seed c = cct_seed r /\ cb_timestamp c = cct_timestamp r /\ cb_nonce c = Some (cct_nonce r) /\
    cballot_valid gp sha c (im_hash m) (el_pk cx) (el_ext cx) = Ok true.
Proof.
  unfold c_encrypt_compact.
  destruct (encrypt_compact_ballot gp sha hmac dump E b m cx code_seed nonce 0 true st0) as [[r0 s2]|e|] eqn:HR;
    cbn [value_of answer]; intros H; [|destruct e; discriminate H|discriminate H]. injection H as <-.
  apply compact_run in HR. destruct HR as (nb & c & HR & C1 & C2 & C3 & C4).
  apply encrypt_ballot_ok in HR. destruct HR as (n & HN & ds & nb' & _ & _ & _ & _ & _ & _ & _ & HS & HM & _ & _ & _ & HV).
  split; [congruence|]. split.
  - intros n0 ->. destruct HN as [HN|[HN _]]; [congruence|discriminate HN].
  - exists c. repeat (split; [congruence|]). exact (HV eq_refl).
Qed.
(** A mediator is made exactly for a context of the same manifest. *)
Theorem C87_mediator_new m cx d : 0 <= im_hash m < 2 ^ 256 -> 0 <= el_manifest cx < 2 ^ 256 ->
  (exists md, c_mediator_new m cx d = Ok (EgSuccess, Some md)) <-> im_hash m = el_manifest cx.
Proof.
  intros H1 H2. unfold c_mediator_new, mediator_new. destruct (bytes_eqb _ _) eqn:EB; cbn [answer_one].
  - apply bytes_eqb_eq in EB. split; [intros _|eexists; reflexivity]. apply to_hex_q_inj; assumption.
  - split; [intros (md & H); discriminate H|]. intros H. rewrite H, bytes_eqb_refl in EB. discriminate EB.
Qed.

(** * Contests and selections *)
Theorem C87_contest gp sha hmac dump E c m d pk ext seed dh :
  valid_params gp -> (forall j, exists t, dump j = Ok t) -> spec_subgroup gp pk ->
  manifest_ready m -> In d (im_contests m) -> unsigned_votes (pc_selections c) ->
  Z.of_nat (length (pc_selections c)) < 2 ^ 64 -> env_good gp pk E ->
  contest_hash gp sha (cw_base d) = Ok dh -> get_selections (cw_base d) ++ get_placeholders d <> [] ->
  Forall (fun x => nonce_of gp sha (selection_hash gp sha x)
      (HElemQ (nonce_of gp sha dh (HElemQ seed) (cd_seq (cw_base d)))) (sd_seq x) <> 0)
    (get_selections (cw_base d) ++ get_placeholders d) ->
  answers (c_encrypt_contest gp sha hmac dump E c m d pk ext seed false) (contest_acceptable c d).
Proof.
  intros V HD HK MR Hd HV HL EG Hdh Hne Hnz. rewrite Forall_forall in Hnz. unfold c_encrypt_contest, answers.
  destruct (contest_exact gp V sha hmac dump HD pk HK E c m d ext seed st0 dh EG) as [[A (r & s & HR)]|[A HR]].
  - eapply Forall_impl; [|exact HV]. intros x Hx. apply Hx.
  - exact HL.
  - apply (mr_selections _ MR), Hd.
  - apply (mr_placeholders _ MR), Hd.
  - apply (mr_elected _ MR), Hd.
  - exact Hdh.
  - exact Hne.
  - exact Hnz.
  - left. split; [exact A|]. rewrite HR. eexists. reflexivity.
  - right. split; [exact A|]. rewrite HR. reflexivity.
Qed.
Theorem C87_contest_checked gp sha hmac dump E c m d pk ext seed :
  0 <= cd_elected (cw_base d) <= gpQ gp -> cd_elected (cw_base d) < 2 ^ 64 ->
  answers_checked (c_encrypt_contest gp sha hmac dump E c m d pk ext seed true)
                  (c_encrypt_contest gp sha hmac dump E c m d pk ext seed false).
Proof.
  intros H1 H2. unfold c_encrypt_contest, answers_checked.
  destruct (checked_contest gp sha hmac dump E c m d pk ext seed H1 H2 st0) as [-> | ->]; [left|right]; reflexivity.
Qed.
Theorem C87_selection gp sha E s d pk ext seed placeholder :
  valid_params gp -> env_good gp pk E -> 0 <= ps_vote s ->
  nonce_of gp sha (selection_hash gp sha d) (HElemQ seed) (sd_seq d) <> 0 ->
  answers (c_encrypt_selection gp sha E s d pk ext seed placeholder false)
    (ps_id s = sd_id d /\ (ps_vote s = 0 \/ ps_vote s = 1)).
Proof.
  intros V EG HV HN. unfold c_encrypt_selection, answers.
  destruct (list_eq_dec Z.eq_dec (ps_id s) (sd_id d)) as [HI|HI].
  - destruct (Z_le_gt_dec (ps_vote s) 1) as [L|L].
    + left. split; [split; [exact HI|lia]|].
      destruct (selection_total gp V sha pk E s d ext seed placeholder st0 EG HI L HN) as (r & s' & ->). eexists. reflexivity.
    + right. split; [lia|]. rewrite selection_refused; [reflexivity|].
      unfold pselection_valid. rewrite HI, bytes_eqb_refl. cbn [negb].
      destruct (Z.ltb_spec 1 (ps_vote s)); [reflexivity|lia].
  - right. split; [tauto|]. rewrite selection_refused; [reflexivity|].
    unfold pselection_valid. replace (bytes_eqb _ _) with false by (symmetry; apply bytes_eqb_neq, HI). reflexivity.
Qed.
Theorem C87_selection_checked gp sha E s d pk ext seed placeholder :
  answers_checked (c_encrypt_selection gp sha E s d pk ext seed placeholder true)
                  (c_encrypt_selection gp sha E s d pk ext seed placeholder false).
Proof.
  unfold c_encrypt_selection, answers_checked.
  destruct (checked_selection gp sha E s d pk ext seed placeholder st0) as [-> | ->]; [left|right]; reflexivity.
Qed.
(** SUCCESS with the check of proofs means valid proofs, and a selection is marked as placeholder
    if it is to be. *)
Theorem C87_selection_valid gp sha E s d pk ext seed placeholder r :
  c_encrypt_selection gp sha E s d pk ext seed placeholder true = Ok (EgSuccess, Some r) ->
  cselection_valid gp sha r (selection_hash gp sha d) pk ext = true /\ cs_placeholder r = placeholder.
Proof.
  unfold c_encrypt_selection, encrypt_selection. destruct (negb (pselection_valid s (sd_id d))); [discriminate|].
  match goal with |- context [value_of ?x] => destruct x as [[r0 s1]|e|] eqn:HR end;
    cbn [value_of answer]; intros H; [|destruct e; discriminate H|discriminate H]. injection H as <-.
  apply mbind_ok in HR. destruct HR as (tq & s2 & _ & HR). apply mbind_ok in HR. destruct HR as (c & s3 & HC & HR).
  cbn [negb] in HR. destruct (cselection_valid gp sha c (selection_hash gp sha d) pk ext) eqn:EV; [|discriminate HR].
  apply ret_ok in HR. destruct HR as [-> _]. split; [exact EV|]. clear EV.
  destruct tq as [t|].
  - apply mbind_ok in HC. destruct HC as (p & s4 & _ & HC). apply ret_ok in HC. destruct HC as [-> _]. reflexivity.
  - apply mbind_ok in HC. destruct HC as (ct & s4 & _ & HC).
    apply mbind_ok in HC. destruct HC as (u & s5 & _ & HC). apply mbind_ok in HC. destruct HC as (v & s6 & _ & HC).
    apply mbind_ok in HC. destruct HC as (w & s7 & _ & HC). apply mbind_ok in HC. destruct HC as (p & s8 & _ & HC).
    apply ret_ok in HC. destruct HC as [-> _]. reflexivity.
Qed.
Theorem C87_contest_valid gp sha hmac dump E c m d pk ext seed r :
  c_encrypt_contest gp sha hmac dump E c m d pk ext seed true = Ok (EgSuccess, Some r) ->
  exists dh, contest_hash gp sha (cw_base d) = Ok dh /\ ccontest_valid gp sha r dh pk ext = Ok true.
Proof.
  unfold c_encrypt_contest, encrypt_contest. set (check := pcontest_valid _ _ _ _ _ _). clearbody check.
  match goal with |- context [value_of ?x] => destruct x as [[r0 s1]|e|] eqn:HR end;
    cbn [value_of answer]; intros H; [|destruct e; discriminate H|discriminate H]. injection H as <-.
  assert (HM : check = SUCCESS \/ check = OVERVOTE) by (destruct check; auto; discriminate HR).
  match type of HR with match check with SUCCESS | OVERVOTE => ?k | _ => _ end _ = _ =>
    assert (H' : k st0 = Ok (r0, s1)) by (destruct HM as [-> | ->]; exact HR) end.
  clear HR. apply mbind_ok in H'. destruct H' as (dh & s2 & H1 & H). apply lift_ok in H1. destruct H1 as [Hdh ->].
  exists dh. split; [exact Hdh|]. cbn zeta in H. unfold nonces_get in H. cbn iota zeta in H.
  apply mbind_ok in H. destruct H as (data & s3 & _ & H).
  apply mbind_ok in H. destruct H as ((reals & count) & s4 & _ & H).
  apply mbind_ok in H. destruct H as ((phs & count') & s5 & _ & H).
  apply mbind_ok in H. destruct H as (n1 & s6 & _ & H). apply mbind_ok in H. destruct H as (t1 & s7 & _ & H).
  apply mbind_ok in H. destruct H as (hc & s8 & _ & H). apply mbind_ok in H. destruct H as (n2 & s9 & _ & H).
  apply mbind_ok in H. destruct H as (t2 & s10 & _ & H). apply mbind_ok in H. destruct H as (r1 & s11 & _ & H).
  cbn [negb] in H. apply mbind_ok in H. destruct H as (ok & s12 & H1 & H). apply lift_ok in H1. destruct H1 as [HV ->].
  destruct ok; [|discriminate H]. apply ret_ok in H. destruct H as [-> _]. exact HV.
Qed.

(** * Texts *)
(** Every answer has its text, different answers different texts; a number that is no answer
    has none. *)
Theorem C87_text s s' t : eg_get_status (eg_code s) = Ok t -> eg_get_status (eg_code s') = Ok t -> s = s'.
Proof.
  intros H H'. assert (E : eg_get_status (eg_code s) = eg_get_status (eg_code s')) by congruence. clear H H'.
  destruct s, s'; try reflexivity; vm_compute in E; discriminate E.
Qed.
Theorem C87_text_names s : eg_get_status (eg_code s) = Ok (status_text s).
Proof. destruct s; vm_compute; reflexivity. Qed.
Theorem C87_text_total code : (exists t, eg_get_status code = Ok t) <-> exists s, code = eg_code s.
Proof.
  split.
  - intros (t & H). unfold eg_get_status in H. destruct (Z.ltb_spec code 0); [discriminate H|].
    destruct (nth_error eg_status_codes (Z.to_nat code)) eqn:EN; [|discriminate H].
    assert (L : (Z.to_nat code < length eg_status_codes)%nat) by (apply nth_error_Some; congruence).
    change (length eg_status_codes) with 9%nat in L.
    assert (C : code = 0 \/ code = 1 \/ code = 2 \/ code = 3 \/ code = 4 \/ code = 5 \/ code = 6 \/ code = 7 \/ code = 8) by lia.
    destruct C as [C|[C|[C|[C|[C|[C|[C|[C|C]]]]]]]]; rewrite C;
      [exists EgSuccess|exists EgInvalidArgument|exists EgOutOfRange|exists EgIoError|exists EgBadAccess|exists EgBadAlloc
      |exists EgAlreadyExists|exists EgRuntimeError|exists EgUnknown]; reflexivity.
  - intros (s & ->). destruct s; eexists; reflexivity.
Qed.
(** The header means to give numbers it does not know the text of UNKNOWN; it reads past the end
    of its array instead. *)
Theorem C87_text_refuted : exists code, eg_code EgUnknown < code /\ eg_get_status code = UB.
Proof. exists 9. split; reflexivity. Qed.

(** * Where the answers mislead *)
(** A compact ballot of an unknown style crashes the program, where a full one is refused. *)
Theorem C87_compact_style_refuted : exists b m cx, forall gp sha hmac dump E code_seed nonce verify,
  c_encrypt_compact gp sha hmac dump E b m cx code_seed nonce verify = UB.
Proof.
  exists (ballot_of "nowhere" []), im0, cx0. intros gp sha hmac dump E code_seed nonce verify.
  unfold c_encrypt_compact, encrypt_compact_ballot, emplace_ballot.
  assert (H : get_style im0 (pb_style (ballot_of "nowhere" [])) = None) by (vm_compute; reflexivity).
  rewrite H. reflexivity.
Qed.
Theorem C87_mediator_style_refuted : exists b md, forall gp sha hmac dump E verify,
  snd (c_mediator_compact gp sha hmac dump E md b verify) = UB.
Proof.
  exists (ballot_of "nowhere" []),
    {| md_manifest := im0; md_context := cx0; md_device := {| dv_device := 1; dv_session := 2; dv_launch := 3; dv_location := [] |};
       md_seed := None |}.
  intros gp sha hmac dump E verify.
  assert (H : get_style im0 (pb_style (ballot_of "nowhere" [])) = None) by (vm_compute; reflexivity).
  unfold c_mediator_compact, mediator_step, encrypt_compact_ballot, emplace_ballot, mbind, ask_clock.
  cbn [md_manifest]. rewrite H. reflexivity.
Qed.
(** The context of another manifest is reported as lack of memory. *)
Theorem C87_mediator_new_refuted : exists m cx, im_hash m <> el_manifest cx /\
  forall d, c_mediator_new m cx d = Ok (EgBadAlloc, None).
Proof.
  exists im0, (context_make tp csha 3 2 (g_pow_p tp sk0) 77 (im_hash im0 + 1)).
  split; [vm_compute; discriminate|]. intros d. unfold c_mediator_new, mediator_new.
  match goal with |- context [bytes_eqb ?a ?b] => assert (H : bytes_eqb a b = false) by (vm_compute; reflexivity) end.
  rewrite H. reflexivity.
Qed.
(** A style without districts is no invalid argument but a RUNTIME_ERROR, the answer to failed
    proofs, although nothing is checked. *)
Definition bare_manifest : internal_manifest :=
  {| im_units := im_units im0; im_candidates := im_candidates im0; im_contests := im_contests im0;
     im_styles := [style_of "bare" []]; im_hash := im_hash im0 |}.
Theorem C87_bare_style_refuted : exists b m, manifest_ready m /\ get_style m (pb_style b) <> None /\
  forall gp sha hmac dump E cx code_seed nonce,
  c_encrypt_ballot gp sha hmac dump E b m cx code_seed nonce false = Ok (EgRuntimeError, None).
Proof.
  exists (ballot_of "bare" []), bare_manifest. split.
  { destruct im0_ready. constructor; assumption. }
  split; [vm_compute; discriminate|]. intros. unfold c_encrypt_ballot, encrypt_ballot.
  assert (H : get_style bare_manifest (pb_style (ballot_of "bare" [])) =
    Some (style_of "bare" [])) by (vm_compute; reflexivity).
  assert (H2 : contests_for bare_manifest (s2b "bare") = Throw RuntimeError) by (vm_compute; reflexivity).
  rewrite H. assert (HNO : exists n s0, (match nonce with Some n => ret n | None => draw E end) st0 = Ok (n, s0)).
  { destruct nonce; eexists; eexists; reflexivity. }
  destruct HNO as (n & s0 & HNO). unfold mbind at 1. rewrite HNO.
  unfold encrypt_contests, emplace_ballot. rewrite H. cbn [bs_id style_of]. rewrite H2. reflexivity.
Qed.

(** * A case *)
Definition double_ballot : pballot :=
  ballot_of "full" [{| pc_id := s2b "mayor"; pc_selections := [vote "s-b" 1] |}; board_vote [vote "s-z" 2]].
Lemma part_usable : exists ds, usable tp csha part_ballot im0 99 ds /\ ballot_acceptable part_ballot ds.
Proof.
  eexists. split.
  - constructor; [vm_compute; reflexivity|discriminate|].
    intros d [<-|[]]. eexists. split; [vm_compute; reflexivity|]. split; [vm_compute; discriminate|].
    vm_compute. repeat constructor; discriminate.
  - intros d [<-|[]]. right. vm_compute. repeat constructor; discriminate.
Qed.
Example C87_case_good : exists r,
  c_encrypt_ballot tp csha chmac dump0 env0 part_ballot im0 cx0 5 (Some 99) false = Ok (EgSuccess, Some r).
Proof.
  destruct part_usable as (ds & HU & HA).
  destruct (C87_ballot tp csha chmac dump0 env0 part_ballot im0 cx0 5 (Some 99) ds test_params_valid) as [[_ X]|[X _]].
  - intros j. eexists. reflexivity.
  - rewrite cx0_key. apply (spec_key_subgroup tp sk0 test_params_valid); discriminate.
  - apply im0_ready.
  - repeat constructor; vm_compute; congruence.
  - apply env0_good.
  - exact HU.
  - exact X.
  - destruct (X HA).
Qed.
(** Two votes for one option of a contest with two seats are within the limit, so not an overvote. *)
Lemma double_usable : exists ds, usable tp csha double_ballot im0 99 ds /\ ~ ballot_acceptable double_ballot ds.
Proof.
  eexists. split.
  - constructor; [vm_compute; reflexivity|discriminate|].
    intros d [<-|[<-|[]]]; eexists; (split; [vm_compute; reflexivity|]); (split; [vm_compute; discriminate|]);
    vm_compute; repeat constructor; discriminate.
  - intros H. assert (HB : forall d, acceptable (entries double_ballot d) d -> cd_id (cw_base d) = s2b "board" -> In d (im_contests im0) -> False).
    { intros d HA HI Hd. vm_compute in Hd. repeat (destruct Hd as [<-|Hd]; [try discriminate HI|]); [..|destruct Hd].
      all: destruct HA as [[X|X]|X]; vm_compute in X; try discriminate X.
      all: inversion X as [|? ? Y1 Y2]; subst; try (apply Y1; reflexivity).
      all: repeat match goal with Y : Forall _ (_ :: _) |- _ => inversion Y; subst; clear Y end; 
        match goal with Y : ?a = Gt -> False |- _ => apply Y; reflexivity end. }
    eapply HB; [apply H; first [left; reflexivity|right; left; reflexivity]| |]; vm_compute; auto.
Qed.
(** With the check of proofs, directly and through a new mediator. *)
Definition good_b {A} (x : outcome (eg_status * option A)) : bool :=
  match x with Ok (EgSuccess, Some _) => true | _ => false end.
Lemma good_b_ok {A} (x : outcome (eg_status * option A)) : good_b x = true -> exists a, x = Ok (EgSuccess, Some a).
Proof. destruct x as [[[] [a|]]| |]; cbn; intros H; try discriminate H. eauto. Qed.
Definition device0 : device := {| dv_device := 1; dv_session := 2; dv_launch := 3; dv_location := [65] |}.
Definition mediator0 : mediator := {| md_manifest := im0; md_context := cx0; md_device := device0; md_seed := None |}.
Example C87_case_checked :
  (exists r, c_encrypt_ballot tp csha chmac dump0 env0 part_ballot im0 cx0 5 (Some 99) true = Ok (EgSuccess, Some r)) /\
  (exists r, snd (c_mediator_encrypt tp csha chmac dump0 env0 mediator0 part_ballot true) = Ok (EgSuccess, Some r)) /\
  (exists r, snd (c_mediator_compact tp csha chmac dump0 env0 mediator0 part_ballot true) = Ok (EgSuccess, Some r)).
Proof. repeat split; apply good_b_ok; vm_compute; reflexivity. Qed.

Example C87_case_bad :
  c_encrypt_ballot tp csha chmac dump0 env0 double_ballot im0 cx0 5 (Some 99) false = Ok (EgInvalidArgument, None) /\
  c_encrypt_compact tp csha chmac dump0 env0 double_ballot im0 cx0 5 (Some 99) false = Ok (EgInvalidArgument, None) /\
  c_encrypt_compact tp csha chmac dump0 env0 part_ballot im0 cx0 70000 (Some 99) false = Ok (EgBadAlloc, None).
Proof.
  destruct double_usable as (ds & HU & HA). destruct part_usable as (ds' & HU' & HA').
  assert (HD : forall j, exists t, dump0 j = Ok t) by (intros j; eexists; reflexivity).
  assert (HK : spec_subgroup tp (el_pk cx0)) by (rewrite cx0_key; apply (spec_key_subgroup tp sk0 test_params_valid); discriminate).
  assert (HV : votes_unsigned double_ballot) by (repeat constructor; vm_compute; congruence).
  split; [|split].
  - destruct (C87_ballot tp csha chmac dump0 env0 double_ballot im0 cx0 5 (Some 99) ds test_params_valid HD HK im0_ready HV
      (env0_good _) HU) as [[X _]|[_ X]]; [destruct (HA X)|exact X].
  - destruct (C87_compact_partial tp csha chmac dump0 env0 double_ballot im0 cx0 5 (Some 99) ds test_params_valid HD HK im0_ready HV
      (env0_good _) HU) as [[X _]|[_ X]]; [reflexivity|reflexivity|destruct (HA X)|exact X].
  - apply (C87_compact_seed tp csha chmac dump0 env0 part_ballot im0 cx0 70000 (Some 99) ds' test_params_valid HD HK im0_ready);
      [repeat constructor; vm_compute; congruence|apply env0_good|exact HU'|exact HA'|left; reflexivity].
Qed.
Example C87_case_contest : exists d dh, In d (im_contests im0) /\ contest_hash tp csha (cw_base d) = Ok dh /\
  get_selections (cw_base d) ++ get_placeholders d <> [] /\
  Forall (fun x => nonce_of tp csha (selection_hash tp csha x)
      (HElemQ (nonce_of tp csha dh (HElemQ 42) (cd_seq (cw_base d)))) (sd_seq x) <> 0)
    (get_selections (cw_base d) ++ get_placeholders d) /\
  contest_acceptable over_contest d /\ ~ contest_acceptable (board_vote [vote "s-z" 2]) d /\
  unsigned_votes (pc_selections over_contest).
Proof.
  eexists. eexists. split; [left; vm_compute; reflexivity|]. split; [vm_compute; reflexivity|].
  split; [vm_compute; discriminate|]. split; [vm_compute; repeat constructor; discriminate|].
  split; [|split].
  - split; [vm_compute; reflexivity|]. split; [vm_compute; lia|]. left. left. vm_compute. reflexivity.
  - intros (_ & _ & [[X|X]|X]); vm_compute in X; [discriminate X|discriminate X|].
    repeat match goal with Y : Forall _ (_ :: _) |- _ => inversion Y; subst; clear Y end.
    match goal with Y : ?a = Gt -> False |- _ => apply Y; reflexivity end.
  - repeat constructor; vm_compute; congruence.
Qed.

Print Assumptions C87_ballot.
Print Assumptions C87_checked.
Print Assumptions C87_check_fails.
Print Assumptions C87_unknown_style.
Print Assumptions C87_compact_partial.
Print Assumptions C87_compact_seed.
Print Assumptions C87_compact_checked.
Print Assumptions C87_mediator.
Print Assumptions C87_mediator_compact.
Print Assumptions C87_mediator_moves.
Print Assumptions C87_mediator_compact_moves.
Print Assumptions C87_valid.
Print Assumptions C87_compact_valid.
Print Assumptions C87_text_names.
Print Assumptions C87_selection_valid.
Print Assumptions C87_contest_valid.
Print Assumptions C87_mediator_new.
Print Assumptions C87_contest.
Print Assumptions C87_contest_checked.
Print Assumptions C87_selection.
Print Assumptions C87_selection_checked.
Print Assumptions C87_text.
Print Assumptions C87_text_total.
Print Assumptions C87_text_refuted.
Print Assumptions C87_compact_style_refuted.
Print Assumptions C87_mediator_style_refuted.
Print Assumptions C87_mediator_new_refuted.
Print Assumptions C87_bare_style_refuted.
