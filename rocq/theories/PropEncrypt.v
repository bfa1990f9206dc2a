(** Properties C34-C37, C43, C60-C62: plaintext ballots and their encryption. *)
From Coq Require Import Permutation Psatz String.
From Verif Require Import Base GroupModel GroupSpec GroupProofs CodecModel HashModel Algebra
  ElgamalModel ElgamalSpec ElgamalProofs ChaumModel ChaumProofs TallyProofs HashedProofs
  SortModel SortProofs ManifestModel ManifestSpec ManifestProofs BallotModel JsonModel EncryptModel
  PropElgamal PropChaum PropManifest EncryptSpec EncryptProofs BallotProofs BallotProofs2 BallotProofs3
  BallotProofs4 BallotProofs5 DataSpec DataProofs TestParams.
Open Scope string_scope.
Open Scope list_scope.
Open Scope Z_scope.
Ltac Zify.zify_post_hook ::= idtac.

(** ** A sample election: constant stand-ins for the hash functions keep it cheap
    to evaluate. *)
Definition csha (_ : bytes) : Z := 5.
Definition chmac (_ _ : bytes) : Z := 6.
Definition dump0 (j : json) : outcome bytes := Ok (s2b "json").
Definition env0 : env :=
  {| e_rand := fun n => (Z.of_nat n * 7 + 11) mod 65521; e_tq := fun _ => None; e_tr := fun _ => None;
     e_clock := fun n => 1600000000 + Z.of_nat n |}.
Definition im0 : internal_manifest :=
  match internal_manifest_of tp csha iso_sample sample with
  | Ok i => i
  | _ => {| im_units := []; im_candidates := []; im_contests := []; im_styles := []; im_hash := 0 |}
  end.
Definition sk0 : Z := 12345.
Definition cx0 : context := context_make tp csha 3 2 (g_pow_p tp sk0) 77 (im_hash im0).
Definition vote (i : string) (v : Z) : pselection :=
  {| ps_id := s2b i; ps_vote := v; ps_placeholder := false; ps_writein := [] |}.
Definition ballot_of (style : string) (l : list pcontest) : pballot :=
  {| pb_id := s2b "ballot"; pb_style := s2b style; pb_contests := l |}.
Definition board_vote (l : list pselection) : pcontest := {| pc_id := s2b "board"; pc_selections := l |}.
Definition b0 : pballot := ballot_of "full" [board_vote [vote "s-z" 1]].

(** Environments, manifests and ballots as in the sample meet the conditions of the
    theorems below. *)
Lemma env0_good K : env_good tp K env0.
Proof. constructor; [|discriminate|discriminate]. intros n. apply Z.mod_pos_bound. reflexivity. Qed.
Lemma env0_empty : env_empty env0.
Proof. split; reflexivity. Qed.

(** The internal manifest of a valid manifest with 64-bit numbers is ready. *)
Definition sized (m : manifest) : Prop :=
  Forall (fun c => 0 <= cd_elected c < 2 ^ 64 /\ 0 <= cd_allowed c < 2 ^ 64 /\
                   Z.of_nat (List.length (cd_selections c)) < 2 ^ 64) (mf_contests m).
Lemma clone_allowed c b : contest_clone c = Ok b -> cd_allowed b = cd_allowed c \/ cd_allowed b = cd_elected c \/ cd_allowed b = 0.
Proof.
  unfold contest_clone. destruct (cd_title c); [destruct (cd_subtitle c); [|discriminate]|];
    intros E; apply Ok_inj in E; subst; cbn; [auto|]. destruct (cd_variation c); cbn; auto.
Qed.
Lemma Forall2_in_r {A B} (R : A -> B -> Prop) l l' y : Forall2 R l l' -> In y l' -> exists x, In x l /\ R x y.
Proof.
  induction 1 as [|x z l l' H _ IH]; intros HI; [destruct HI|].
  destruct HI as [<- | HI]; [exists x; split; [now left|exact H]|].
  destruct (IH HI) as (w & Hw & HR). exists w. split; [now right|exact HR].
Qed.
Lemma Forall2_pick {A B} (R : A -> B -> Prop) l l' x : Forall2 R l l' -> In x l -> exists y, In y l' /\ R x y.
Proof.
  induction 1 as [|a y l l' H _ IH]; intros HI; [destruct HI|].
  destruct HI as [<- | HI]; [exists y; split; [now left|exact H]|].
  destruct (IH HI) as (w & Hw & HR). exists w. split; [now right|exact HR].
Qed.
Theorem C35_manifest_ready gp sha fmt m im :
  internal_manifest_of gp sha fmt m = Ok im -> manifest_valid m = true -> sized m -> manifest_ready im.
Proof.
  intros HI HV HS. apply C44_valid_iff in HV. apply internal_contests in HI.
  destruct HI as (_ & _ & _ & _ & F).
  assert (SRC : forall w, In w (im_contests im) -> exists c, In c (mf_contests m) /\ with_placeholders c = Ok w).
  { intros w Hw. destruct (Forall2_in_r _ _ _ _ F Hw) as (c & Hc & E). exists c. split; [|exact E].
    unfold get_contests in Hc. apply sort_in in Hc. exact Hc. }
  assert (SZ : forall c, In c (mf_contests m) -> 0 <= cd_elected c < 2 ^ 64 /\ 0 <= cd_allowed c < 2 ^ 64 /\
                   Z.of_nat (List.length (cd_selections c)) < 2 ^ 64) by (apply Forall_forall, HS).
  constructor.
  - intros d d' Hd Hd' E. destruct (SRC d Hd) as (c & Hc & W), (SRC d' Hd') as (c' & Hc' & W').
    assert (X : c = c').
    { apply (nodup_key cd_id (mf_contests m)); try assumption; [apply (wfm_contests _ HV)|].
      apply with_placeholders_ok in W. apply with_placeholders_ok in W'.
      destruct W as [W _], W' as [W' _]. apply clone_fields in W. apply clone_fields in W'.
      destruct W as [W _], W' as [W' _]. congruence. }
    subst c'. rewrite W in W'. apply Ok_inj in W'. exact W'.
  - intros d Hd. destruct (SRC d Hd) as (c & Hc & W). apply with_placeholders_ok in W. destruct W as [W _].
    apply clone_fields in W. destruct W as (_ & _ & _ & _ & _ & _ & ->). apply (wfc_ids _ (wfm_each_contest _ HV c Hc)).
  - intros d Hd. destruct (SRC d Hd) as (c & Hc & W). apply with_placeholders_ok in W. destruct W as [W ->].
    apply clone_fields in W. destruct W as (_ & _ & _ & _ & -> & _). apply placeholders_length. apply (SZ c Hc).
  - intros d Hd. destruct (SRC d Hd) as (c & Hc & W). apply with_placeholders_ok in W. destruct W as [W _].
    apply clone_fields in W. destruct W as (_ & _ & _ & _ & -> & _). apply (SZ c Hc).
  - intros d Hd. destruct (SRC d Hd) as (c & Hc & W). apply with_placeholders_ok in W. destruct W as [W _].
    destruct (SZ c Hc) as (S1 & S2 & _). destruct (clone_allowed _ _ W) as [-> | [-> | ->]]; [apply S2|apply S1|reflexivity].
  - intros d Hd. destruct (SRC d Hd) as (c & Hc & W). apply with_placeholders_ok in W. destruct W as [W _].
    apply clone_fields in W. destruct W as (_ & _ & _ & _ & _ & _ & ->). apply (SZ c Hc).
Qed.
Lemma im0_ready : manifest_ready im0.
Proof.
  apply (C35_manifest_ready tp csha iso_sample sample); [vm_compute; reflexivity|vm_compute; reflexivity|].
  repeat constructor; vm_compute; congruence.
Qed.

(** * C34 *)
(** A selection is accepted exactly when it has the expected id and votes 0 or 1. *)
Theorem C34_selection s id : 0 <= ps_vote s ->
  pselection_valid s id = true <-> ps_id s = id /\ (ps_vote s = 0 \/ ps_vote s = 1).
Proof.
  intros H. unfold pselection_valid. destruct (bytes_eqb (ps_id s) id) eqn:EB; cbn [negb].
  - apply bytes_eqb_eq in EB. destruct (Z.ltb_spec 1 (ps_vote s)) as [L|L]; split; try discriminate.
    + intros [_ X]. clear - X L. lia.
    + intros _. split; [exact EB|]. clear - H L. lia.
    + reflexivity.
  - apply bytes_eqb_neq in EB. split; [discriminate|]. intros [X _]. congruence.
Qed.
(** The five answers for a contest, as long as the votes add up to less than 2^64. *)
Definition enough_room (c : pcontest) (n : Z) : Prop := Z.of_nat (List.length (pc_selections c)) <= n.
Theorem C34_contest_partial c id n elected allowed support :
  unsigned_votes (pc_selections c) -> Z.of_nat (List.length (pc_selections c)) < 2 ^ 64 ->
  total_votes (pc_selections c) < 2 ^ 64 ->
  let over := overvoted (pc_selections c) elected allowed in
  match pcontest_valid c id n elected allowed support with
  | INVALID_OBJECT_ID_ERROR => pc_id c <> id
  | TOO_MANY_SELECTIONS_ERROR => pc_id c = id /\ ~ enough_room c n
  | OVERVOTE => pc_id c = id /\ enough_room c n /\ over /\ support = true
  | OVERVOTE_ERROR => pc_id c = id /\ enough_room c n /\ over /\ support = false
  | SUCCESS => pc_id c = id /\ enough_room c n /\ ~ over
  end.
Proof.
  intros HU HL HT over. rewrite (pcontest_valid_eq _ _ _ _ _ _ HL).
  assert (HN : 0 <= total_votes (pc_selections c)).
  { apply total_nonneg. eapply Forall_impl; [|exact HU]. intros s [H _]. exact H. }
  rewrite Z.mod_small by (split; assumption).
  destruct (bytes_eqb (pc_id c) id) eqn:EB; cbn [negb]; [|apply bytes_eqb_neq in EB; exact EB].
  apply bytes_eqb_eq in EB. unfold enough_room.
  destruct (Z.ltb_spec n (Z.of_nat (List.length (pc_selections c)))) as [X|X].
  - split; [exact EB|]. clear - X. lia.
  - assert (O : over <-> (elected <? marked (pc_selections c)) || (vote_limit elected allowed <? total_votes (pc_selections c)) = true).
    { unfold over, overvoted. rewrite orb_true_iff, !Z.ltb_lt. reflexivity. }
    destruct (_ || _); [destruct support|]; (split; [exact EB|]; split; [exact X|]).
    + split; [apply O|]; reflexivity.
    + split; [apply O|]; reflexivity.
    + intros Y. apply O in Y. discriminate.
Qed.
(** Without that condition the total is taken modulo 2^64 and an overvote can pass. *)
Theorem C34_contest_modular c id n elected allowed support :
  Z.of_nat (List.length (pc_selections c)) < 2 ^ 64 ->
  pcontest_valid c id n elected allowed support = SUCCESS <->
  pc_id c = id /\ enough_room c n /\ marked (pc_selections c) <= elected /\
  total_votes (pc_selections c) mod 2 ^ 64 <= vote_limit elected allowed.
Proof.
  intros HL. rewrite (pcontest_valid_eq _ _ _ _ _ _ HL). change (2 ^ 64) with W64. unfold enough_room.
  destruct (bytes_eqb (pc_id c) id) eqn:EB; cbn [negb].
  - apply bytes_eqb_eq in EB. destruct (Z.ltb_spec n (Z.of_nat (List.length (pc_selections c)))) as [X|X].
    + split; [discriminate|]. intros (_ & Y & _). clear - X Y. lia.
    + destruct (Z.ltb_spec elected (marked (pc_selections c))) as [Y|Y]; cbn [orb].
      * split; [destruct support; discriminate|]. intros (_ & _ & Z & _). clear - Y Z. lia.
      * destruct (Z.ltb_spec (vote_limit elected allowed) (total_votes (pc_selections c) mod W64)) as [Z|Z].
        -- split; [destruct support; discriminate|]. intros (_ & _ & _ & U). clear - Z U. lia.
        -- split; [auto|reflexivity].
  - apply bytes_eqb_neq in EB. split; [discriminate|]. intros (X & _). congruence.
Qed.
Theorem C34_wrap_refuted :
  exists c id n elected allowed, unsigned_votes (pc_selections c) /\
    overvoted (pc_selections c) elected allowed /\ pcontest_valid c id n elected allowed true = SUCCESS.
Proof.
  exists (board_vote [vote "s-x" (2 ^ 63); vote "s-y" (2 ^ 63)]), (s2b "board"), 3, 2, 2.
  split; [repeat constructor; vm_compute; congruence|]. split; [|vm_compute; reflexivity].
  right. vm_compute. reflexivity.
Qed.
Example C34_case :
  pcontest_valid (board_vote [vote "s-x" 1; vote "s-y" 1]) (s2b "board") 3 2 2 true = SUCCESS /\
  pcontest_valid (board_vote [vote "s-x" 1; vote "s-y" 1; vote "s-z" 1]) (s2b "board") 3 2 2 true = OVERVOTE /\
  pcontest_valid (board_vote [vote "s-x" 3]) (s2b "board") 3 2 2 false = OVERVOTE_ERROR /\
  pcontest_valid (board_vote [vote "s-x" 1]) (s2b "mayor") 3 2 2 false = INVALID_OBJECT_ID_ERROR /\
  pcontest_valid (board_vote [vote "s-x" 0; vote "s-y" 0]) (s2b "board") 1 2 2 false = TOO_MANY_SELECTIONS_ERROR.
Proof. vm_compute. repeat split. Qed.

(** * C35 *)
(** The voter's entries for a contest. *)
Definition entries (b : pballot) (d : contest_ph) : list pselection :=
  contest_entries (pb_contests b) (cd_id (cw_base d)).
Definition too_many (l : list pselection) (d : contest_ph) : Prop :=
  over_limit (votes_of l d) (cd_elected (cw_base d)) (cd_allowed (cw_base d)).

(** Whole ballots: one encrypted contest per contest of the style, in order, each with
    the contents described by [contest_contents]. *)
Theorem C35_ballot gp sha hmac dump E b m cx code_seed nonce ts verify st r st' s :
  prime_params gp -> manifest_ready m -> votes_unsigned b ->
  0 <= s < 2 ^ 256 -> el_pk cx = spec_key gp s -> env_good gp (el_pk cx) E ->
  encrypt_ballot gp sha hmac dump E b m cx code_seed nonce ts verify st = Ok (r, st') ->
  exists ds, contests_for m (pb_style b) = Ok ds /\
    Forall2 (fun d cc => exists vs pvs,
      contest_contents gp s (too_many (entries b d) d) (entries b d) d cc vs pvs) ds (cb_contests r).
Proof.
  intros PP MR HV Hs HK EG H. exact (ballot_contents gp (pp_valid _ PP) sha hmac dump PP s E b m cx code_seed nonce ts verify st r st' MR HV Hs HK EG H).
Qed.
(** A single contest; its votes must add up to less than 2^64. *)
Theorem C35_contest gp sha hmac dump E c m d ext seed verify st r st' s :
  prime_params gp -> 0 <= s < 2 ^ 256 -> env_good gp (spec_key gp s) E ->
  unsigned_votes (pc_selections c) -> Z.of_nat (List.length (pc_selections c)) < 2 ^ 64 ->
  total_votes (pc_selections c) < 2 ^ 64 ->
  NoDup (map sd_id (cd_selections (cw_base d))) ->
  Z.of_nat (List.length (cw_placeholders d)) = cd_elected (cw_base d) -> cd_elected (cw_base d) < 2 ^ 64 ->
  encrypt_contest gp sha hmac dump E c m d (spec_key gp s) ext seed verify st = Ok (r, st') ->
  exists vs pvs, contest_contents gp s (overvoted (pc_selections c) (cd_elected (cw_base d)) (cd_allowed (cw_base d)))
    (pc_selections c) d r vs pvs.
Proof.
  intros PP Hs EG HU HL HT ND HP HE H. pose proof (pp_valid _ PP) as V.
  assert (HN : Forall (fun x => 0 <= ps_vote x) (pc_selections c)).
  { eapply Forall_impl; [|exact HU]. intros x [X _]. exact X. }
  assert (HK : spec_subgroup gp (spec_key gp s)) by (apply (spec_key_subgroup gp s V); clear - Hs; lia).
  destruct (encrypt_contest_spec gp V sha hmac dump _ HK E c m d ext seed verify st r st' EG HN HL (nodup_sorted d ND) HP HE H)
    as (dh & over & reals & phs & pvs & data & hc & t1 & CR).
  destruct (contents_of_result gp V sha hmac dump PP s _ _ _ _ _ _ _ _ _ _ _ _ _ _ _ Hs HP CR) as (vs & CC).
  exists vs, pvs. refine (contest_contents_ext gp sha hmac _ _ _ _ _ _ _ _ _ _ eq_refl CC).
  pose proof (cr_over _ _ _ _ _ _ _ _ _ _ _ _ _ _ _ _ _ _ _ _ CR) as O.
  rewrite (Z.mod_small (total_votes (pc_selections c))) in O by (split; [apply total_nonneg, HN|exact HT]).
  exact O.
Qed.

(** * C36 *)
(** Verification inside the encryption accepts exactly the runs in which no scalar of
    a proof is zero, and then changes nothing. *)
Theorem C36_verify_iff_partial gp sha hmac dump E b m cx code_seed nonce ts st r st' :
  valid_params gp -> manifest_ready m -> votes_unsigned b -> spec_subgroup gp (el_pk cx) ->
  env_good gp (el_pk cx) E -> (forall d, In d (im_contests m) -> cd_elected (cw_base d) <= gpQ gp) ->
  encrypt_ballot gp sha hmac dump E b m cx code_seed nonce ts true st = Ok (r, st') <->
  encrypt_ballot gp sha hmac dump E b m cx code_seed nonce ts false st = Ok (r, st') /\
  Forall no_zero_scalars (cb_contests r).
Proof. intros V. exact (verify_iff gp V sha hmac dump E b m cx code_seed nonce ts st r st'). Qed.
(** A ballot encrypted without verification passes the check of the whole ballot. *)
Theorem C36_ballot_partial gp sha hmac dump E b m cx code_seed nonce ts verify st r st' :
  valid_params gp -> manifest_ready m -> votes_unsigned b -> spec_subgroup gp (el_pk cx) ->
  env_good gp (el_pk cx) E -> (forall d, In d (im_contests m) -> cd_elected (cw_base d) <= gpQ gp) ->
  encrypt_ballot gp sha hmac dump E b m cx code_seed nonce ts verify st = Ok (r, st') ->
  Forall no_zero_scalars (cb_contests r) ->
  cballot_valid gp sha r (im_hash m) (el_pk cx) (el_ext cx) = Ok true.
Proof. intros V. exact (ballot_valid_true gp V sha hmac dump E b m cx code_seed nonce ts verify st r st'). Qed.
(** Every selection and contest in it passes its own check exactly when its own
    scalars are not zero. *)
Theorem C36_parts_partial gp sha hmac dump E b m cx code_seed nonce ts verify st r st' :
  valid_params gp -> manifest_ready m -> votes_unsigned b -> spec_subgroup gp (el_pk cx) ->
  env_good gp (el_pk cx) E -> (forall d, In d (im_contests m) -> cd_elected (cw_base d) <= gpQ gp) ->
  encrypt_ballot gp sha hmac dump E b m cx code_seed nonce ts verify st = Ok (r, st') ->
  Forall (fun cc =>
    (Forall (fun x => cselection_valid gp sha x (cs_desc x) (el_pk cx) (el_ext cx) = true) (cc_selections cc) /\
     ccontest_valid gp sha cc (cc_desc cc) (el_pk cx) (el_ext cx) = Ok true)
    <-> no_zero_scalars cc) (cb_contests r).
Proof.
  intros V MR HV HK EG HQ H. exact (proj1 (ballot_fine gp V sha hmac dump E b m cx code_seed nonce ts verify st r st' MR HV HK EG HQ H)).
Qed.

(** * C37 *)
(** A completed contest lists the options of the description in order; the first entry
    of the voter for an option is kept as it is, a missing one becomes a vote of 0. *)
Definition completed (l : list pselection) (x : selection) (s : pselection) : Prop :=
  ps_id s = sd_id x /\ ps_vote s = vote_for l (sd_id x) /\
  (first_entry l (sd_id x) = Some s \/
   (first_entry l (sd_id x) = None /\ ps_vote s = 0 /\ ps_placeholder s = false /\ ps_writein s = [])).
Theorem C37_complete_partial b m nb :
  emplace_ballot b m = Ok nb ->
  exists ds, contests_for m (pb_style b) = Ok ds /\ pb_id nb = pb_id b /\ pb_style nb = pb_style b /\
    Forall2 (fun d c => pc_id c = cd_id (cw_base d) /\
                        Forall2 (completed (entries b d)) (get_selections (cw_base d)) (pc_selections c))
            ds (pb_contests nb).
Proof.
  intros H. apply emplace_ballot_spec in H. destruct H as (style & ds & _ & Hds & H1 & H2 & H3).
  exists ds. split; [exact Hds|]. split; [exact H1|]. split; [exact H2|]. rewrite H3. clear - ds.
  induction ds as [|d ds IH]; cbn [map]; constructor; [|exact IH].
  destruct (emplaced_contest_spec (pb_contests b) d) as [E1 E2]. split; [exact E1|]. rewrite E2.
  change (contest_entries (pb_contests b) (cd_id (cw_base d))) with (entries b d). generalize (entries b d). intros l. clear.
  induction (get_selections (cw_base d)) as [|x xs IH]; cbn [map]; constructor; [|exact IH].
  destruct (emplaced_spec l x) as [E1 E2]. split; [exact E1|]. split; [exact E2|].
  rewrite emplaced_first in E2 |- *. destruct (first_entry l (sd_id x)) as [s|] eqn:EF; [now left|].
  right. split; [reflexivity|]. repeat split.
Qed.
(** Which ballots can be completed: a known style with a unit.  An unknown style is
    undefined behaviour here, and an exception in encryptBallot. *)
Theorem C37_defined b m :
  match emplace_ballot b m with
  | Ok _ => exists style, get_style m (pb_style b) = Some style /\ bs_units style <> []
  | Throw _ => exists style, get_style m (pb_style b) = Some style /\ bs_units style = []
  | UB => get_style m (pb_style b) = None
  end.
Proof.
  unfold emplace_ballot. destruct (get_style m (pb_style b)) as [style|] eqn:ES; [|reflexivity].
  rewrite (get_style_id _ _ _ ES). unfold contests_for. rewrite ES.
  destruct (bs_units style) as [|u us] eqn:EU; cbn [bind]; exists style; split; try reflexivity; rewrite EU; congruence.
Qed.
(** Completing is idempotent. *)
Theorem C37_idempotent b m nb :
  manifest_ready m -> emplace_ballot b m = Ok nb -> emplace_ballot nb m = Ok nb.
Proof.
  intros MR H. pose proof H as H0. apply emplace_ballot_spec in H. destruct H as (style & ds & ES & Hds & H1 & H2 & H3).
  unfold emplace_ballot. rewrite H2, ES, (get_style_id _ _ _ ES), Hds. cbn [bind].
  destruct nb as [i y cs]. cbn [pb_id pb_style pb_contests] in *. subst i y. do 2 f_equal. rewrite H3. apply map_ext_in.
  intros d Hd. rewrite (emplaced_find (pb_contests b) ds); [| |exact Hd].
  2:{ intros x y Hx Hy. apply (mr_ids _ MR); eapply contests_for_in; eassumption. }
  destruct (emplaced_contest_spec (pb_contests b) d) as [E1 E2].
  unfold emplace_contest. destruct (emplaced_contest (pb_contests b) d) as [i ss]. cbn [pc_id pc_selections] in *. subst i ss.
  f_equal. apply map_ext_in. intros x Hx.
  pose proof (mr_selections _ MR d (contests_for_in _ _ _ _ Hds Hd)) as ND. apply nodup_sorted in ND.
  set (l := contest_entries _ _). clearbody l. clear - Hx ND.
  induction (get_selections (cw_base d)) as [|y ys IH]; [destruct Hx|]. cbn [map find].
  rewrite (proj1 (emplaced_spec l y)). cbn [map] in ND. inversion ND as [|? ? N1 N2]; subst.
  destruct (bytes_eqb (sd_id y) (sd_id x)) eqn:EB.
  - apply bytes_eqb_eq in EB. destruct Hx as [-> | Hx]; [reflexivity|]. exfalso. apply N1. rewrite EB. now apply in_map.
  - destruct Hx as [-> | Hx]; [rewrite bytes_eqb_refl in EB; discriminate|]. apply IH; assumption.
Qed.
(** No error is reported for votes that belong to no contest of the style, to no option
    of a contest, or that repeat an option: they are dropped. *)
Theorem C37_unknown_votes_refuted :
  exists b b', emplace_ballot b im0 = emplace_ballot b' im0 /\ is_ok (emplace_ballot b im0) = true /\
    pb_contests b = [board_vote [vote "s-z" 1; vote "s-z" 7; vote "write-in" 1];
                     {| pc_id := s2b "sheriff"; pc_selections := [vote "s-q" 1] |}] /\
    pb_contests b' = [board_vote [vote "s-z" 1]].
Proof. eexists (ballot_of "full" _), (ballot_of "full" _). cbn [ballot_of pb_contests].
  split; [|split; [|split; reflexivity]]; vm_compute; reflexivity. Qed.
Theorem C37_style_refuted : exists b, emplace_ballot b im0 = UB.
Proof. exists (ballot_of "none" []). vm_compute. reflexivity. Qed.
Example C37_case : exists nb, emplace_ballot b0 im0 = Ok nb /\
  map (fun c => (pc_id c, map (fun s => (ps_id s, ps_vote s)) (pc_selections c))) (pb_contests nb)
  = [(s2b "board", [(s2b "s-x", 0); (s2b "s-y", 0); (s2b "s-z", 1)]);
     (s2b "mayor", [(s2b "s-a", 0); (s2b "s-b", 0)])].
Proof. eexists. split; vm_compute; reflexivity. Qed.

(** * C43 *)
Definition sum_nonces (l : list cselection) : Z :=
  fold_right Z.add 0 (map (fun c => match cs_nonce c with Some n => n | None => 0 end) l).
(** The accumulation is the encryption of the sum of the votes under the sum of the
    nonces, whatever constant is claimed. *)
Theorem C43_accumulation gp sha pre id seq desc l K ext pseed elected nonce hashed r vs :
  valid_params gp -> spec_subgroup gp K ->
  Forall2 (selection_holds gp K) l vs -> Forall (fun v => 0 <= v) vs ->
  ccontest_make gp sha pre id seq desc l K ext pseed elected nonce hashed = Ok r ->
  cc_selections r = l /\
  cc_acc r = spec_enc gp K (fold_right Z.add 0 vs) (sum_nonces l mod gpQ gp).
Proof.
  intros V HK F HV H.
  destruct (ccontest_make_spec gp V sha K HK pre id seq desc l ext pseed elected nonce hashed r vs F HV H)
    as (_ & _ & _ & H4 & _ & _ & _ & H8 & _).
  split; [exact H4|exact H8].
Qed.
(** It is the product of the ciphertexts, for any selections at all, in any order. *)
Theorem C43_product gp sha pre id seq desc l pk ext pseed elected nonce hashed r :
  valid_params gp ->
  ccontest_make gp sha pre id seq desc l pk ext pseed elected nonce hashed = Ok r ->
  l <> [] /\
  ct_pad (cc_acc r) = fold_right Z.mul 1 (map (fun c => ct_pad (cs_ct c)) l) mod gpP gp /\
  ct_data (cc_acc r) = fold_right Z.mul 1 (map (fun c => ct_data (cs_ct c)) l) mod gpP gp.
Proof.
  intros V H. unfold ccontest_make in H.
  apply bind_ok in H. destruct H as (h & _ & H). apply bind_ok in H. destruct H as (acc & HA & H).
  apply bind_ok in H. destruct H as (agg & _ & H). apply bind_ok in H. destruct H as (p & _ & H).
  apply Ok_inj in H. subst r. cbn [cc_acc]. unfold accumulate in HA.
  rewrite (C17_order gp _ (map cs_ct l) V) in HA.
  2:{ apply Permutation_map. apply Permutation_sym, sort_perm. }
  assert (HL : l <> []) by (intros ->; discriminate HA). split; [exact HL|].
  rewrite C17_product in HA; [|exact V|destruct l; [congruence|discriminate]].
  apply Ok_inj in HA. subst acc. cbn [ct_pad ct_data]. rewrite !map_map. split; reflexivity.
Qed.
(** In an encrypted ballot every contest accumulates numberElected votes, and that is
    the constant its proof claims. *)
Theorem C43_ballot gp sha hmac dump E b m cx code_seed nonce ts verify st r st' :
  valid_params gp -> manifest_ready m -> votes_unsigned b -> spec_subgroup gp (el_pk cx) ->
  env_good gp (el_pk cx) E ->
  encrypt_ballot gp sha hmac dump E b m cx code_seed nonce ts verify st = Ok (r, st') ->
  exists ds, contests_for m (pb_style b) = Ok ds /\
    Forall2 (fun d cc =>
      cc_acc cc = spec_enc gp (el_pk cx) (cd_elected (cw_base d)) (sum_nonces (cc_selections cc) mod gpQ gp) /\
      exists p, cc_proof cc = Some p /\ cp_const p = cd_elected (cw_base d)) ds (cb_contests r).
Proof.
  intros V MR HV HK EG H.
  destruct (ballot_results gp V sha hmac dump _ _ _ _ _ _ _ _ _ _ _ MR HV HK EG H) as (n & ds & _ & Hds & HF).
  exists ds. split; [exact Hds|]. eapply Forall2_impl; [|exact HF]. cbv beta.
  intros d cc (_ & dh & over & reals & phs & pvs & data & hc & t1 & CR). split.
  - exact (cr_acc _ _ _ _ _ _ _ _ _ _ _ _ _ _ _ _ _ _ _ _ CR).
  - exact (cr_proof _ _ _ _ _ _ _ _ _ _ _ _ _ _ _ _ _ _ _ _ CR).
Qed.


(** * C60 *)
(** An accepted contest carries the constant its own proof claims: the check never
    looks at numberElected. *)
Theorem C60_accepted_partial gp sha c desc pk ext :
  valid_params gp -> ccontest_valid gp sha c desc pk ext = Ok true ->
  exists p acc, cc_proof c = Some p /\
    acc = {| ct_pad := fold_right Z.mul 1 (map (fun x => ct_pad (cs_ct x)) (cc_selections c)) mod gpP gp;
             ct_data := fold_right Z.mul 1 (map (fun x => ct_data (cs_ct x)) (cc_selections c)) mod gpP gp |} /\
    ct_eqb (cc_acc c) acc = true /\ cproof_valid gp sha p acc pk ext = Ok true.
Proof.
  intros V H. unfold ccontest_valid in H.
  apply bind_ok in H. destruct H as (h & _ & H). apply bind_ok in H. destruct H as (acc & HA & H).
  destruct (cc_proof c) as [p|]; [|discriminate]. apply bind_ok in H. destruct H as (v & HV & H).
  apply Ok_inj in H. apply andb_true_iff in H. destruct H as [H ->]. apply andb_true_iff in H. destruct H as [_ H].
  exists p, acc. split; [reflexivity|]. split; [|split; assumption].
  unfold accumulate in HA. rewrite (C17_order gp _ (map cs_ct (cc_selections c)) V) in HA.
  2:{ apply Permutation_map. unfold cc_sorted. apply Permutation_sym, sort_perm. }
  assert (HL : cc_selections c <> []) by (intros X; rewrite X in HA; discriminate HA).
  rewrite C17_product in HA; [|exact V|destruct (cc_selections c); [congruence|discriminate]].
  apply Ok_inj in HA. rewrite !map_map in HA. congruence.
Qed.
(** For every hash function: a contest made for the constant [total] is accepted,
    whatever number the description with the hash [desc] elects. *)
Theorem C60_any_constant gp sha pre id seq desc l K ext pseed total nonce hashed r vs p :
  valid_params gp -> spec_subgroup gp K ->
  Forall2 (selection_holds gp K) l vs -> Forall (fun v => 0 <= v) vs ->
  total = fold_right Z.add 0 vs -> total <= gpQ gp -> (forall t, pre = Some t -> good_triple gp K t) ->
  ccontest_make gp sha pre id seq desc l K ext pseed total nonce hashed = Ok r ->
  cc_proof r = Some p -> cp_c p <> 0 -> cp_v p <> 0 ->
  ccontest_valid gp sha r desc K ext = Ok true.
Proof.
  intros V HK F HV HT HQ HG H HP H1 H2.
  destruct (ccontest_make_spec gp V sha K HK pre id seq desc l ext pseed total nonce hashed r vs F HV H)
    as (_ & _ & _ & _ & _ & _ & _ & _ & _ & X).
  apply X; [symmetry; exact HT|exact HQ|exact HG|]. intros q Hq. rewrite HP in Hq. injection Hq as <-. split; assumption.
Qed.
(** Two votes in a contest that elects one, accepted as a ballot. *)
Definition two_votes : outcome (ccontest * st) :=
  (let! xs := mmap (fun x => encrypt_selection tp csha env0 (selection_from x false true) x (el_pk cx0) (el_ext cx0) 9 false false)
                   (get_selections contest1) in
   let! dh := lift (contest_hash tp csha contest1) in
   lift (ccontest_make tp csha None (s2b "mayor") 1 dh xs (el_pk cx0) (el_ext cx0) 3 2 None None)) st0.
Definition two_ballot : outcome cballot :=
  do cc <- two_votes;
  cballot_make tp csha 0 (s2b "b") (s2b "part") (im_hash im0) [fst cc] (Some 3) 17 (Some 4) None.
Theorem C60_two_votes_refuted :
  exists b, two_ballot = Ok b /\ cd_elected contest1 = 1 /\
    cballot_valid tp csha b (im_hash im0) (el_pk cx0) (el_ext cx0) = Ok true /\
    map (fun cc => map (fun x => decrypt tp (cs_ct x) sk0) (cc_selections cc)) (cb_contests b) = [[1; 1]].
Proof. eexists. split; [vm_compute; reflexivity|]. split; [reflexivity|]. split; vm_compute; reflexivity. Qed.

(** * C61 *)
(** The data of every encrypted contest decrypts, with the secret key, to the first
    510 bytes of the JSON text that describes the contest's overvote and write-ins, or
    to nothing when there is nothing to say. *)
Theorem C61_contest_data gp sha hmac dump E b m cx code_seed nonce ts verify st r st' s :
  valid_params gp -> manifest_ready m -> votes_unsigned b ->
  0 <= s < 2 ^ 256 -> el_pk cx = spec_key gp s -> env_good gp (el_pk cx) E ->
  encrypt_ballot gp sha hmac dump E b m cx code_seed nonce ts verify st = Ok (r, st') ->
  exists ds, contests_for m (pb_style b) = Ok ds /\
    Forall2 (fun d cc => exists hc text over,
      cc_hashed cc = Some hc /\
      hashed_decrypt gp sha hmac hc s (el_ext cx) true = Ok (firstn 510 text) /\
      (over = true <-> too_many (entries b d) d) /\
      (nothing_to_say m (entries b d) d over /\ text = [] \/
       exists j, ~ nothing_to_say m (entries b d) d over /\ describes m (entries b d) d over j /\ dump j = Ok text))
      ds (cb_contests r).
Proof.
  intros V MR HV Hs HK EG H.
  assert (HS : spec_subgroup gp (el_pk cx)).
  { rewrite HK. apply (spec_key_subgroup gp s V). clear - Hs. lia. }
  destruct (ballot_results gp V sha hmac dump _ _ _ _ _ _ _ _ _ _ _ MR HV HS EG H) as (n & ds & _ & Hds & HF).
  exists ds. split; [exact Hds|]. eapply Forall2_impl; [|exact HF]. cbv beta.
  intros d cc (HI & dh & over & reals & phs & pvs & data & hc & t1 & CR).
  pose proof (contests_for_in _ _ _ _ Hds HI) as HM. rewrite HK in CR.
  destruct (emplaced_contest_spec (pb_contests b) d) as [E1 E2].
  exists hc, data, over. split; [exact (cr_hashed _ _ _ _ _ _ _ _ _ _ _ _ _ _ _ _ _ _ _ _ CR)|].
  split; [exact (contest_data gp V sha hmac dump s _ _ _ _ _ _ _ _ _ _ _ _ _ _ _ Hs CR)|]. split.
  - apply contest_over_iff.
    + apply emplaced_unsigned, entries_unsigned, HV.
    + unfold get_selections. rewrite sort_length. apply (mr_sizes _ MR), HM.
    + apply (mr_elected _ MR), HM.
    + pose proof (cr_over _ _ _ _ _ _ _ _ _ _ _ _ _ _ _ _ _ _ _ _ CR) as CO. rewrite E2 in CO. exact CO.
    + intros EO. pose proof (cr_reals _ _ _ _ _ _ _ _ _ _ _ _ _ _ _ _ _ _ _ _ CR) as FR.
      apply (reals_holds gp sha) in FR. destruct FR as [_ FR]. subst over. unfold real_value in FR.
      rewrite E2 in FR. unfold votes_of. erewrite map_ext_in; [exact FR|]. intros x Hx. symmetry. apply vote_for_emplaced, Hx.
    + apply (mr_allowed _ MR), HM.
  - pose proof (cr_data _ _ _ _ _ _ _ _ _ _ _ _ _ _ _ _ _ _ _ _ CR) as CD.
    apply (extended_spec dump m d (entries b d) _ over data MR HM E1 E2 CD).
Qed.

(** * C62 *)
(** What a ballot needs to be encrypted: a style with a unit and a contest; votes of 0
    or 1 in every contest that is not recognised as overvoted; contests with options,
    titles and subtitles both given or both missing; and no zero nonce. *)
Record well_formed gp sha (b : pballot) (m : internal_manifest) (n : Z) (ds : list contest_ph) : Prop := {
  wb_style : contests_for m (pb_style b) = Ok ds;
  wb_some : ds <> [];
  wb_votes : forall d, In d ds ->
    too_many (entries b d) d /\ fold_right Z.add 0 (votes_of (entries b d) d) < 2 ^ 64 \/
    Forall (fun v => v <= 1) (votes_of (entries b d) d);
  wb_hash : forall d, In d ds -> exists dh, contest_hash gp sha (cw_base d) = Ok dh /\
    get_selections (cw_base d) ++ get_placeholders d <> [] /\
    Forall (fun x => nonce_of gp sha (selection_hash gp sha x)
        (HElemQ (nonce_of gp sha dh (HElemQ (nonce_seed gp sha (im_hash m) (pb_id b) n)) (cd_seq (cw_base d)))) (sd_seq x) <> 0)
      (get_selections (cw_base d) ++ get_placeholders d) }.
Theorem C62_encryption_succeeds gp sha hmac dump E b m cx code_seed n ts st ds :
  valid_params gp -> (forall j, exists t, dump j = Ok t) -> spec_subgroup gp (el_pk cx) ->
  manifest_ready m -> votes_unsigned b -> env_good gp (el_pk cx) E -> well_formed gp sha b m n ds ->
  exists r st', encrypt_ballot gp sha hmac dump E b m cx code_seed (Some n) ts false st = Ok (r, st').
Proof.
  intros V HD HK MR HV EG [W1 W2 W3 W4].
  eapply (ballot_total gp V sha hmac dump HD (el_pk cx) HK); [reflexivity|exact MR|exact HV|exact EG|].
  constructor; [exact W1|exact W2| |].
  - intros d Hd. destruct (W3 d Hd) as [X|X]; [left; exact X|right]. intros x Hx.
    rewrite Forall_forall in X. apply X. unfold votes_of. apply (in_map (fun x => vote_for (entries b d) (sd_id x))), Hx.
  - intros d Hd. destruct (W4 d Hd) as (dh & A & B & C). exists dh. split; [exact A|]. split; [exact B|].
    rewrite Forall_forall in C. exact C.
Qed.
(** Conversely an encrypted ballot has a style with contests and votes of 0 or 1 in
    every contest that is not overvoted; anything else is refused. *)
Theorem C62_refused gp sha hmac dump E b m cx code_seed nonce ts verify st r st' s :
  prime_params gp -> manifest_ready m -> votes_unsigned b ->
  0 <= s < 2 ^ 256 -> el_pk cx = spec_key gp s -> env_good gp (el_pk cx) E ->
  encrypt_ballot gp sha hmac dump E b m cx code_seed nonce ts verify st = Ok (r, st') ->
  exists ds, contests_for m (pb_style b) = Ok ds /\ ds <> [] /\
    forall d, In d ds -> too_many (entries b d) d \/ Forall (fun v => v = 0 \/ v = 1) (votes_of (entries b d) d).
Proof.
  intros PP MR HV Hs HK EG H.
  destruct (C35_ballot gp sha hmac dump E b m cx code_seed nonce ts verify st r st' s PP MR HV Hs HK EG H) as (ds & Hds & F).
  exists ds. split; [exact Hds|]. split.
  - intros ->. inversion F as [X|]. apply (encrypt_ballot_ok gp sha hmac dump) in H.
    destruct H as (_ & _ & _ & _ & _ & _ & _ & Hh & _). congruence.
  - intros d Hd. destruct (Forall2_pick _ _ _ _ F Hd) as (cc & _ & vs & pvs & CC).
    assert (DEC : too_many (entries b d) d \/ ~ too_many (entries b d) d).
    { unfold too_many, over_limit.
      destruct (Z_lt_dec (cd_elected (cw_base d)) (Z.of_nat (List.length (filter (fun v => 1 <=? v) (votes_of (entries b d) d)))));
      destruct (Z_lt_dec (vote_limit (cd_elected (cw_base d)) (cd_allowed (cw_base d))) (fold_right Z.add 0 (votes_of (entries b d) d))); tauto. }
    destruct DEC as [D|D]; [now left|right]. rewrite <- (co_real _ _ _ _ _ _ _ _ CC D).
    pose proof (co_bits _ _ _ _ _ _ _ _ CC) as CB. apply Forall_app in CB. apply CB.
Qed.
Theorem C62_unknown_style gp sha hmac dump E b m cx code_seed nonce ts verify st :
  get_style m (pb_style b) = None ->
  encrypt_ballot gp sha hmac dump E b m cx code_seed nonce ts verify st = Throw InvalidArgument.
Proof. intros H. unfold encrypt_ballot. rewrite H. reflexivity. Qed.

(** ** The sample ballot of style "part" with one vote: the theorems apply to it. *)
Definition part_ballot : pballot :=
  ballot_of "part" [{| pc_id := s2b "mayor"; pc_selections := [vote "s-b" 1] |}].
Lemma cx0_key : el_pk cx0 = spec_key tp sk0.
Proof. apply (g_pow_p_correct tp test_params_valid). split; [discriminate|reflexivity]. Qed.
Example C35_case : exists r st',
  encrypt_ballot tp csha chmac dump0 env0 part_ballot im0 cx0 5 (Some 99) 1600000001 false st0 = Ok (r, st') /\
  map (fun cc => map (fun x => (cs_id x, cs_placeholder x, decrypt tp (cs_ct x) sk0)) (cc_selections cc)) (cb_contests r)
  = [[(s2b "s-a", false, 0); (s2b "s-b", false, 1); (s2b "mayor-5-placeholder", true, 0)]] /\
  Forall no_zero_scalars (cb_contests r) /\
  exists ds, contests_for im0 (pb_style part_ballot) = Ok ds /\
    Forall2 (fun d cc => exists vs pvs,
      contest_contents tp sk0 (too_many (entries part_ballot d) d) (entries part_ballot d) d cc vs pvs) ds (cb_contests r).
Proof.
  eexists. eexists. split; [vm_compute; reflexivity|]. split; [vm_compute; reflexivity|].
  split.
  { apply Forall_cons; [split|apply Forall_nil].
    - repeat (apply Forall_cons; [intros p Hp; injection Hp as <-; unfold scalars_nonzero; cbn; repeat split; discriminate|]).
      apply Forall_nil.
    - intros p Hp. injection Hp as <-. cbn. split; discriminate. }
  eapply (C35_ballot tp csha chmac dump0 env0 part_ballot im0 cx0 5 (Some 99) 1600000001 false st0).
  - apply test_params_prime.
  - apply im0_ready.
  - repeat constructor; vm_compute; congruence.
  - split; [discriminate|reflexivity].
  - apply cx0_key.
  - apply env0_good.
  - vm_compute. reflexivity.
Qed.
(** An overvoted contest with a write-in. *)
Definition im_w : internal_manifest :=
  {| im_units := im_units im0;
     im_candidates := {| ca_id := s2b "zed"; ca_name := None; ca_party := []; ca_image := []; ca_writein := true |} :: [cand "xia"; cand "yan"];
     im_contests := im_contests im0; im_styles := im_styles im0; im_hash := im_hash im0 |}.
Definition over_contest : pcontest :=
  board_vote [vote "s-x" 1; vote "s-y" 1;
              {| ps_id := s2b "s-z"; ps_vote := 1; ps_placeholder := false; ps_writein := s2b "Zoe" |}].
Example C61_case : exists d, In d (im_contests im_w) /\ too_many (pc_selections over_contest) d /\
  (forall dump, extended_data dump over_contest im_w OVERVOTE =
    dump (JObj [(s2b "error", JStr (s2b "overvote"));
                (s2b "error_data", JArr [JStr (s2b "s-x"); JStr (s2b "s-y"); JStr (s2b "s-z")]);
                (s2b "write_ins", JObj [(s2b "s-z", JStr (s2b "Zoe"))])])).
Proof.
  eexists. split; [left; vm_compute; reflexivity|]. split; [left; vm_compute; reflexivity|]. intros dump. vm_compute. reflexivity.
Qed.
(** An option marked twice is not listed, although the contest is reported as
    overvoted because of it. *)
Theorem C61_marks_refuted : exists m c d s,
  In d (im_contests m) /\ too_many (pc_selections c) d /\ In s (pc_selections c) /\ 0 < ps_vote s /\
  In (ps_id s) (map sd_id (cd_selections (cw_base d))) /\
  forall dump, exists l, extended_data dump c m OVERVOTE =
    dump (JObj [(s2b "error", JStr (s2b "overvote")); (s2b "error_data", JArr l)]) /\
    ~ In (JStr (ps_id s)) l.
Proof.
  exists im0, (board_vote [vote "s-x" 2; vote "s-y" 1]). eexists. exists (vote "s-x" 2).
  split; [left; vm_compute; reflexivity|]. split; [right; vm_compute; reflexivity|].
  split; [left; reflexivity|]. split; [reflexivity|]. split; [left; vm_compute; reflexivity|].
  intros dump. exists [JStr (s2b "s-y")]. split; [vm_compute; reflexivity|]. intros [E|[]]. discriminate E.
Qed.
Example C62_case : exists ds, well_formed tp csha part_ballot im0 99 ds.
Proof.
  eexists. constructor.
  - vm_compute. reflexivity.
  - discriminate.
  - intros d [<-|[]]. right. vm_compute. repeat constructor; discriminate.
  - intros d [<-|[]]. eexists. split; [vm_compute; reflexivity|]. split; [vm_compute; discriminate|].
    vm_compute. repeat constructor; discriminate.
Qed.

Print Assumptions C35_manifest_ready.
Print Assumptions C34_selection.
Print Assumptions C34_contest_partial.
Print Assumptions C34_contest_modular.
Print Assumptions C34_wrap_refuted.
Print Assumptions C35_ballot.
Print Assumptions C35_contest.
Print Assumptions C36_verify_iff_partial.
Print Assumptions C36_ballot_partial.
Print Assumptions C36_parts_partial.
Print Assumptions C37_complete_partial.
Print Assumptions C37_defined.
Print Assumptions C37_idempotent.
Print Assumptions C37_unknown_votes_refuted.
Print Assumptions C37_style_refuted.
Print Assumptions C43_accumulation.
Print Assumptions C43_product.
Print Assumptions C43_ballot.
Print Assumptions C60_accepted_partial.
Print Assumptions C60_any_constant.
Print Assumptions C60_two_votes_refuted.
Print Assumptions C61_contest_data.
Print Assumptions C61_marks_refuted.
Print Assumptions C62_encryption_succeeds.
Print Assumptions C62_refused.
Print Assumptions C62_unknown_style.
