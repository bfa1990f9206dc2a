(** Property C85: the count of the published ballots is the count of the votes. *)
From Coq Require Import Psatz Permutation String.
From Verif Require Import Base GroupModel GroupSpec GroupProofs CodecModel HashModel Algebra ElgamalModel ElgamalSpec ElgamalProofs ChaumModel HashedProofs
  SortModel SortProofs ManifestModel ManifestProofs BallotModel JsonModel EncryptModel EncryptSpec EncryptProofs BallotProofs BallotProofs2 TallyProofs
  PropElgamal PropManifest PropEncrypt SerializeModel SerializeSpec SerializeProofs SerializeProofs2 PropSerialize TestParams
  CopyProofs PropCopy AuditSpec AuditProofs PropAudit CountSpec CountProofs.
Local Open Scope string_scope.
Local Open Scope list_scope.
Local Open Scope Z_scope.
Local Notation length := List.length.

(** * C85 *)
(** The ballot [b] was encrypted, with any random numbers and precomputed values, submitted with
    [state], published, and read back as [t]. *)
Definition published gp sha hmac dump wdump wparse m cx (b : pballot) (state : box_state) (t : sballot) : Prop :=
  exists E code_seed nonce ts verify st r st' u text,
    votes_unsigned b /\ env_good gp (el_pk cx) E /\ 0 <= code_seed < gpQ gp /\ (forall n, nonce = Some n -> 0 <= n < gpQ gp) /\
    encrypt_ballot gp sha hmac dump E b m cx code_seed nonce ts verify st = Ok (r, st') /\
    0 <= cb_timestamp r < 2 ^ 64 /\ Forall no_zero_scalars (cb_contests r) /\
    submitted_from r state = Ok u /\ to_text wdump sballot_to_json u = Ok text /\
    of_text wparse (sballot_of_json gp) text = Ok t.
(** The election: a manifest that can be encrypted against, a key pair, a writer and reader. *)
Record election gp (dump : json -> outcome bytes) wdump wparse (m : internal_manifest) (cx : context) (s : Z) : Prop := {
  ec_params : prime_params gp;
  ec_ready : manifest_ready m;
  ec_numbered : numbered m;
  ec_seats : forall d, In d (im_contests m) -> cd_elected (cw_base d) <= gpQ gp;
  ec_hash : 0 <= im_hash m < gpQ gp;
  ec_secret : 0 <= s < 2 ^ 256;
  ec_key : el_pk cx = spec_key gp s;
  ec_dump : forall j x, dump j = Ok x -> is_bytes x;
  ec_faithful : faithful wdump wparse }.

Lemma published_read gp sha hmac dump wdump wparse m cx s b state t :
  election gp dump wdump wparse m cx s -> published gp sha hmac dump wdump wparse m cx b state t ->
  sb_state t = state /\ cballot_valid gp sha (sb_ballot t) (im_hash m) (el_pk cx) (el_ext cx) = Ok true /\ exists r ds, sb_ballot t = bal_read false r /\ contests_for m (pb_style b) = Ok ds /\
    Forall2 (holds_contest gp (el_pk cx) b) ds (cb_contests r).
Proof.
  intros [PP MR NM HQ HM Hs HK DB F] (E & code_seed & nonce & ts & verify & st & r & st' & u & text & HV & EG & HC & HN & H & HT & NZ & HSub & W & R).
  pose proof (pp_valid _ PP) as V.
  assert (HS : spec_subgroup gp (el_pk cx)) by (rewrite HK; apply (spec_key_subgroup gp s V); lia).
  pose proof (vp_Qhi _ V) as QH. change W256 with (2 ^ 256) in QH.
  assert (X : forall v, 0 <= v < gpQ gp -> in_q v = true) by (unfold in_q; intros; lia).
  destruct (ballot_fits gp V sha hmac dump DB E b m cx code_seed nonce ts verify st r st' MR NM HV HS EG HQ
              (X _ HM) (X _ HC) (fun n e => X _ (HN n e)) H ltac:(unfold u64; lia) NZ) as [St _].
  rewrite (C80_encrypted _ _ _ _ _ _ _ _ _ _ _ _ _ _ _ state H) in HSub. apply Ok_inj in HSub. subst u.
  destruct (written _ _ _ _ W) as [j [J _]].
  pose proof (sballot_writes {| sb_ballot := r; sb_state := state |}) as C. cbn [sb_ballot] in C.
  destruct (complete_ballot false r) eqn:Ec; [|rewrite J in C; discriminate].
  rewrite (read_written _ _ _ _ _ _ _ F J W), (sballot_back gp _ j J St Ec) in R. cbn [sb_ballot sb_state] in R.
  destruct (legible_ballot gp false r); [|discriminate R]. apply Ok_inj in R. subst t. cbn [sb_state sb_ballot].
  split; [reflexivity|]. split; [rewrite read_valid; exact (C36_ballot_partial _ _ _ _ _ _ _ _ _ _ _ _ _ _ _ V MR HV HS EG HQ H NZ)|].
  destruct (encrypted_contests gp V sha hmac dump E b m cx code_seed nonce ts verify st r st' MR HV HS EG H) as (ds & Hds & HF).
  exists r, ds. auto.
Qed.

Lemma singleton_perm {A} (l : list A) x : Permutation l [x] -> l = [x].
Proof. intros P. apply Permutation_length_1_inv, Permutation_sym, P. Qed.
Lemma empty_perm {A} (l : list A) : Permutation l [] -> l = [].
Proof. intros P. apply Permutation_nil, Permutation_sym, P. Qed.

(** What is added up for an option: one encryption per counting ballot, of the counted vote. *)
Lemma tallied_votes gp sha hmac dump wdump wparse m cx s ps ts d x :
  election gp dump wdump wparse m cx s -> no_repeats m ->
  Forall2 (fun p t => published gp sha hmac dump wdump wparse m cx (fst p) (snd p) t) ps ts ->
  In d (im_contests m) -> In x (cd_selections (cw_base d)) ->
  exists l, tallied (option_ciphertexts (cd_id (cw_base d)) (sd_id x)) ts
            = map (fun vr => spec_enc gp (el_pk cx) (fst vr) (snd vr)) l /\
    Forall (fun vr => 0 <= fst vr /\ 0 <= snd vr) l /\
    map fst l = map (fun b => counted_vote b d (sd_id x)) (counting m d ps).
Proof.
  intros EC NR F HD HX. induction F as [|[b state] t ps ts P F (l & IH1 & IH2 & IH3)]; [exists []; repeat split; constructor|].
  cbn [fst snd] in P. destruct (published_read _ _ _ _ _ _ _ _ _ _ _ _ EC P) as (Hst & _ & r & ds & Hb & Hds & HF).
  unfold counting in *. unfold tallied in *. cbn [flat_map filter fst snd]. rewrite Hst. destruct (is_cast state); cbn [andb]; [|exists l; auto].
  assert (U : forall d', In d' ds -> cd_id (cw_base d') = cd_id (cw_base d) -> d' = d).
  { intros d' I Ei. apply (mr_ids _ (ec_ready _ _ _ _ _ _ _ EC)); [|exact HD|exact Ei]. eapply BallotProofs2.contests_for_in; eassumption. }
  assert (PR := option_read (cd_id (cw_base d)) (sd_id x) false r). rewrite <- Hb in PR.
  destruct (ballot_option gp (el_pk cx) b ds (cb_contests r) d x HF (contests_once _ _ _ NR Hds) U HX) as [(I & q & El & Hq & Hv)|(NI & El)];
    unfold option_ciphertexts in PR at 2; rewrite El in PR.
  - rewrite (proj2 (on_ballot_in m b ds d Hds HD) I). rewrite (singleton_perm _ _ PR).
    exists ((counted_vote b d (sd_id x), q) :: l). cbn [map fst snd app]. rewrite IH1, IH3. repeat split. constructor; [cbn; auto|exact IH2].
  - destruct (on_ballot m b d) eqn:O; [exfalso; apply NI, (on_ballot_in m b ds d Hds HD), O|].
    rewrite (empty_perm _ PR). exists l. auto.
Qed.
Lemma tallied_contest gp sha hmac dump wdump wparse m cx s ps ts d :
  election gp dump wdump wparse m cx s -> no_repeats m ->
  Forall2 (fun p t => published gp sha hmac dump wdump wparse m cx (fst p) (snd p) t) ps ts ->
  In d (im_contests m) ->
  exists l, tallied (contest_ciphertexts (cd_id (cw_base d))) ts
            = map (fun vr => spec_enc gp (el_pk cx) (fst vr) (snd vr)) l /\
    Forall (fun vr => 0 <= fst vr /\ 0 <= snd vr) l /\
    map fst l = map (fun _ => cd_elected (cw_base d)) (counting m d ps).
Proof.
  intros EC NR F HD. induction F as [|[b state] t ps ts P F (l & IH1 & IH2 & IH3)]; [exists []; repeat split; constructor|].
  cbn [fst snd] in P. destruct (published_read _ _ _ _ _ _ _ _ _ _ _ _ EC P) as (Hst & _ & r & ds & Hb & Hds & HF).
  unfold counting in *. unfold tallied in *. cbn [flat_map filter fst snd]. rewrite Hst. destruct (is_cast state); cbn [andb]; [|exists l; auto].
  assert (U : forall d', In d' ds -> cd_id (cw_base d') = cd_id (cw_base d) -> d' = d).
  { intros d' I Ei. apply (mr_ids _ (ec_ready _ _ _ _ _ _ _ EC)); [|exact HD|exact Ei]. eapply BallotProofs2.contests_for_in; eassumption. }
  assert (PR := contest_read_acc (cd_id (cw_base d)) false r). rewrite <- Hb in PR.
  destruct (ballot_acc gp (el_pk cx) b ds (cb_contests r) d HF (contests_once _ _ _ NR Hds) U) as [(I & q & El & Hq)|(NI & El)];
    unfold contest_ciphertexts in PR at 2; rewrite El in PR.
  - rewrite (proj2 (on_ballot_in m b ds d Hds HD) I). rewrite (singleton_perm _ _ PR).
    exists ((cd_elected (cw_base d), q) :: l). cbn [map fst snd app]. rewrite IH1, IH3. repeat split. constructor; [cbn [fst snd]|exact IH2].
    rewrite <- (mr_placeholders _ (ec_ready _ _ _ _ _ _ _ EC) d HD). lia.
  - destruct (on_ballot m b d) eqn:O; [exfalso; apply NI, (on_ballot_in m b ds d Hds HD), O|].
    rewrite (empty_perm _ PR). exists l. auto.
Qed.

(** For any number of ballots, of any styles, cast or not: the product of the ciphertexts of an
    option on the cast ballots decrypts to the count and, below Q, to nothing else; there is one
    ciphertext for each cast ballot with the contest. *)
Theorem C85_count_partial gp sha hmac dump wdump wparse m cx s ps ts d x :
  election gp dump wdump wparse m cx s -> no_repeats m ->
  Forall2 (fun p t => published gp sha hmac dump wdump wparse m cx (fst p) (snd p) t) ps ts ->
  In d (im_contests m) -> In x (cd_selections (cw_base d)) ->
  let cs := tallied (option_ciphertexts (cd_id (cw_base d)) (sd_id x)) ts in
  let n := count m d (sd_id x) ps in
  length cs = length (counting m d ps) /\
  forall c, elgamal_add gp cs = Ok c ->
    spec_decrypts gp c s n /\ (n < gpQ gp -> forall k, 0 <= k < gpQ gp -> spec_decrypts gp c s k -> k = n).
Proof.
  intros EC NR F HD HX cs n. destruct (tallied_votes _ _ _ _ _ _ _ _ _ _ _ _ _ EC NR F HD HX) as (l & El & Fl & Ml).
  fold cs in El. split.
  { rewrite El, map_length, <- (map_length fst l), Ml, map_length. reflexivity. }
  intros c Hc. rewrite El, (ec_key _ _ _ _ _ _ _ EC) in Hc.
  pose proof (sum_decrypts gp s l c (ec_params _ _ _ _ _ _ _ EC) (ec_secret _ _ _ _ _ _ _ EC) Fl Hc) as [D U]. rewrite Ml in D, U.
  split; [exact D|]. intros L. apply (U L).
Qed.
(** The library's own decryption gives counts of 0 and 1, and its error value for every other. *)
Theorem C85_decrypt gp sha hmac dump wdump wparse m cx s ps ts d x c :
  election gp dump wdump wparse m cx s -> no_repeats m ->
  Forall2 (fun p t => published gp sha hmac dump wdump wparse m cx (fst p) (snd p) t) ps ts ->
  In d (im_contests m) -> In x (cd_selections (cw_base d)) ->
  elgamal_add gp (tallied (option_ciphertexts (cd_id (cw_base d)) (sd_id x)) ts) = Ok c ->
  count m d (sd_id x) ps < gpQ gp ->
  decrypt gp c s = if count m d (sd_id x) ps <=? 1 then count m d (sd_id x) ps else 2 ^ 64 - 1.
Proof.
  intros EC NR F HD HX Hc L. destruct (tallied_votes _ _ _ _ _ _ _ _ _ _ _ _ _ EC NR F HD HX) as (l & El & Fl & Ml).
  rewrite El, (ec_key _ _ _ _ _ _ _ EC) in Hc.
  pose proof (sum_decrypts gp s l c (ec_params _ _ _ _ _ _ _ EC) (ec_secret _ _ _ _ _ _ _ EC) Fl Hc) as [_ U]. rewrite Ml in U.
  apply (U L).
Qed.
(** The accumulations of a contest add up to the seats of all its ballots: an auditor who counts
    ballots knows how many votes, placeholders included, were encrypted. *)
Theorem C85_seats gp sha hmac dump wdump wparse m cx s ps ts d c :
  election gp dump wdump wparse m cx s -> no_repeats m ->
  Forall2 (fun p t => published gp sha hmac dump wdump wparse m cx (fst p) (snd p) t) ps ts ->
  In d (im_contests m) ->
  elgamal_add gp (tallied (contest_ciphertexts (cd_id (cw_base d))) ts) = Ok c ->
  spec_decrypts gp c s (cd_elected (cw_base d) * Z.of_nat (length (counting m d ps))).
Proof.
  intros EC NR F HD Hc. destruct (tallied_contest _ _ _ _ _ _ _ _ _ _ _ _ EC NR F HD) as (l & El & Fl & Ml).
  rewrite El, (ec_key _ _ _ _ _ _ _ EC) in Hc.
  pose proof (sum_decrypts gp s l c (ec_params _ _ _ _ _ _ _ EC) (ec_secret _ _ _ _ _ _ _ EC) Fl Hc) as [D _]. rewrite Ml in D.
  replace (cd_elected (cw_base d) * Z.of_nat (length (counting m d ps)))
    with (fold_right Z.add 0 (map (fun _ : pballot => cd_elected (cw_base d)) (counting m d ps))); [exact D|].
  clear. induction (counting m d ps) as [|b l IH]; cbn [map fold_right length]; [lia|]. rewrite IH. lia.
Qed.
(** In whatever order the ballots are taken. *)
Theorem C85_order gp f ts ts' : valid_params gp -> Permutation ts ts' ->
  elgamal_add gp (tallied f ts) = elgamal_add gp (tallied f ts').
Proof. intros V P. apply (elgamal_add_perm gp V), flat_map_perm, P. Qed.

(** ** The sample election *)
Definition over_ballot : pballot :=
  ballot_of "part" [{| pc_id := s2b "mayor"; pc_selections := [vote "s-a" 1; vote "s-b" 1] |}].
Definition scalars_b (c : ccontest) : bool :=
  forallb (fun x => opt (fun p => nzb (dp_c0 p) && nzb (dp_c1 p) && nzb (dp_v0 p) && nzb (dp_v1 p)) (cs_proof x)) (cc_selections c) &&
  opt (fun p => nzb (cp_c p) && nzb (cp_v p)) (cc_proof c).
Lemma scalars_b_ok l : forallb scalars_b l = true -> Forall no_zero_scalars l.
Proof.
  assert (N : forall v, nzb v = true -> v <> 0) by (unfold nzb; intros v; destruct (Z.eqb_spec v 0); [discriminate|auto]).
  intros H. apply Forall_forall. rewrite forallb_forall in H. intros c I. specialize (H c I). unfold scalars_b in H.
  apply andb_true_iff in H. destruct H as [H1 H2]. split.
  - apply Forall_forall. rewrite forallb_forall in H1. intros x J p E. specialize (H1 x J). rewrite E in H1. cbn [opt] in H1.
    rewrite !andb_true_iff in H1. destruct H1 as [[[A B] C] D]. repeat split; apply N; assumption.
  - intros p E. rewrite E in H2. cbn [opt] in H2. apply andb_true_iff in H2. split; apply N; apply H2.
Qed.
Definition good_run (m : internal_manifest) (b : pballot) : bool :=
  match encrypt_ballot tp csha chmac dump0 env0 b m cx0 5 (Some 99) 1600000001 false st0 with
  | Ok (r, _) => nonzero_b r && (cb_timestamp r =? 1600000001) && forallb scalars_b (cb_contests r)
  | _ => false
  end.
Lemma im0_election : election tp dump0 sample_dump sample_parse im0 cx0 sk0.
Proof.
  constructor.
  - exact test_params_prime.
  - exact im0_ready.
  - exact im0_numbered.
  - exact im0_seats.
  - vm_compute. split; congruence.
  - split; [discriminate|reflexivity].
  - exact cx0_key.
  - exact dump0_bytes.
  - exact sample_faithful.
Qed.
Lemma im0_once : no_repeats im0.
Proof.
  assert (X : map (fun d => cd_id (cw_base d)) (im_contests im0) = [s2b "board"; s2b "mayor"]) by (vm_compute; reflexivity).
  constructor.
  - rewrite X. repeat constructor; cbn; intuition congruence.
  - intros s I. assert (Y : im_styles im0 = [style_of "full" ["u2"; "u1"]; style_of "part" ["u1"]]) by (vm_compute; reflexivity).
    rewrite Y in I. destruct I as [<- |[<- |[]]]; repeat constructor; cbn; intuition congruence.
Qed.
Lemma run_published m b state : election tp dump0 sample_dump sample_parse m cx0 sk0 -> votes_unsigned b -> good_run m b = true ->
  exists t, published tp csha chmac dump0 sample_dump sample_parse m cx0 b state t.
Proof.
  intros EC U G. unfold good_run in G.
  destruct (encrypt_ballot tp csha chmac dump0 env0 b m cx0 5 (Some 99) 1600000001 false st0) as [[r st']|e|] eqn:E; try discriminate G.
  rewrite !andb_true_iff in G. destruct G as [[NB TS] NZ]. apply nonzero_b_ok in NB. apply scalars_b_ok in NZ. apply Z.eqb_eq in TS.
  assert (N : forall n, Some 99 = Some n -> 0 <= n < gpQ tp).
  { intros n H. injection H as <-. vm_compute. split; congruence. }
  assert (C5 : 0 <= 5 < gpQ tp) by (vm_compute; split; congruence).
  pose proof (C80_encrypted _ _ _ _ _ _ _ _ _ _ _ _ _ _ _ state E) as S.
  assert (JW : exists j, sballot_to_json {| sb_ballot := r; sb_state := state |} = Ok j).
  { pose proof (sballot_writes {| sb_ballot := r; sb_state := state |}) as C. cbn [sb_ballot] in C.
    assert (CC : complete_ballot false r = true).
    { pose proof E as E'. apply encrypt_ballot_complete in E'. revert E'. unfold complete_ballot. rewrite !andb_true_iff. intros [H _]. split; [|reflexivity].
      revert H. rewrite !forallb_forall. intros H c I. specialize (H c I). revert H. unfold complete_contest. rewrite !andb_true_iff.
      intros [[[H H1] H2] _]. split; [split; [split; [|exact H1]|exact H2]|reflexivity]. revert H. rewrite !forallb_forall. intros H x J.
      specialize (H x J). revert H. unfold complete_selection. rewrite !andb_true_iff. intros [H _]. auto. }
    rewrite CC in C. exact C. }
  destruct JW as [j J].
  assert (W : to_text sample_dump sballot_to_json {| sb_ballot := r; sb_state := state |} = Ok (enc j)).
  { unfold to_text. rewrite J. reflexivity. }
  assert (T : 0 <= cb_timestamp r < 2 ^ 64) by (rewrite TS; split; [discriminate|reflexivity]).
  destruct (C81_published_partial tp csha chmac dump0 env0 b m cx0 5 (Some 99) 1600000001 false st0 r st' sk0
    sample_dump sample_parse state _ _ test_params_prime (ec_ready _ _ _ _ _ _ _ EC) (ec_numbered _ _ _ _ _ _ _ EC) U
    (ec_seats _ _ _ _ _ _ _ EC) (ec_secret _ _ _ _ _ _ _ EC) cx0_key (env0_good _) (ec_hash _ _ _ _ _ _ _ EC) C5 N dump0_bytes
    sample_faithful E T NZ NB S W) as (t' & R & _).
  exists t', env0, 5, (Some 99), 1600000001, false, st0, r, st', {| sb_ballot := r; sb_state := state |}, (enc j).
  repeat (split; [first [assumption|apply env0_good]|]). exact R.
Qed.
Lemma part_run : good_run im0 part_ballot = true. Proof. vm_compute. reflexivity. Qed.
Lemma over_run : good_run im0 over_ballot = true. Proof. vm_compute. reflexivity. Qed.
(** Two votes for s-b, one spoilt contest, and a spoiled ballot: the count for s-b is two. *)
Definition sample_votes : list (pballot * box_state) :=
  [(part_ballot, BS_cast); (over_ballot, BS_cast); (part_ballot, BS_spoiled); (part_ballot, BS_cast)].
Example C85_case : exists ts c d x,
  Forall2 (fun p t => published tp csha chmac dump0 sample_dump sample_parse im0 cx0 (fst p) (snd p) t) sample_votes ts /\
  In d (im_contests im0) /\ In x (cd_selections (cw_base d)) /\ sd_id x = s2b "s-b" /\
  elgamal_add tp (tallied (option_ciphertexts (cd_id (cw_base d)) (sd_id x)) ts) = Ok c /\
  spec_decrypts tp c sk0 2 /\ decrypt tp c sk0 = 2 ^ 64 - 1.
Proof.
  assert (U : votes_unsigned part_ballot) by (repeat constructor; vm_compute; congruence).
  assert (U' : votes_unsigned over_ballot) by (repeat constructor; vm_compute; congruence).
  destruct (run_published im0 part_ballot BS_cast im0_election U part_run) as [t1 P1].
  destruct (run_published im0 part_ballot BS_spoiled im0_election U part_run) as [t3 P3].
  destruct (run_published im0 over_ballot BS_cast im0_election U' over_run) as [t2 P2].
  assert (F : Forall2 (fun p t => published tp csha chmac dump0 sample_dump sample_parse im0 cx0 (fst p) (snd p) t)
                sample_votes [t1; t2; t3; t1]) by (repeat constructor; assumption).
  assert (D : exists d x, nth_error (im_contests im0) 1 = Some d /\ nth_error (cd_selections (cw_base d)) 0 = Some x /\ sd_id x = s2b "s-b" /\
                count im0 d (sd_id x) sample_votes = 2 /\ length (counting im0 d sample_votes) = 3%nat).
  { eexists. eexists. split; [vm_compute; reflexivity|]. split; [vm_compute; reflexivity|]. repeat split; vm_compute; reflexivity. }
  destruct D as (d & x & D1 & D2 & D3 & D4 & D5). apply nth_error_In in D1, D2.
  destruct (C85_count_partial _ _ _ _ _ _ _ _ _ _ _ _ _ im0_election im0_once F D1 D2) as [L DC]. cbn zeta in *. rewrite D5 in L. rewrite D4 in DC.
  assert (X : is_ok (elgamal_add tp (tallied (option_ciphertexts (cd_id (cw_base d)) (sd_id x)) [t1; t2; t3; t1])) = true).
  { apply C17_throws. intros Z0. rewrite Z0 in L. discriminate L. }
  destruct (elgamal_add tp (tallied (option_ciphertexts (cd_id (cw_base d)) (sd_id x)) [t1; t2; t3; t1])) as [c| |] eqn:A; try discriminate X.
  exists [t1; t2; t3; t1], c, d, x. split; [exact F|]. split; [exact D1|]. split; [exact D2|]. split; [exact D3|]. split; [exact A|].
  split; [apply (DC c eq_refl)|].
  rewrite (C85_decrypt _ _ _ _ _ _ _ _ _ _ _ _ _ _ im0_election im0_once F D1 D2 A); rewrite D4; reflexivity.
Qed.

(** ** A style that lists a district twice passes validation; its ballots are encrypted with the
    contest twice, verify, and count twice. *)
Definition twice : manifest := set_styles sample [style_of "part" ["u1"; "u1"]].
Definition im_twice : internal_manifest :=
  match internal_manifest_of tp csha iso_sample twice with Ok i => i | _ => im0 end.
Lemma twice_election : election tp dump0 sample_dump sample_parse im_twice cx0 sk0.
Proof.
  constructor.
  - exact test_params_prime.
  - apply (C35_manifest_ready tp csha iso_sample twice); [vm_compute; reflexivity|vm_compute; reflexivity|].
    repeat constructor; vm_compute; congruence.
  - assert (X : im_contests im_twice = im_contests im0) by (vm_compute; reflexivity).
    unfold numbered. rewrite X. exact im0_numbered.
  - assert (X : im_contests im_twice = im_contests im0) by (vm_compute; reflexivity). rewrite X. exact im0_seats.
  - vm_compute. split; congruence.
  - split; [discriminate|reflexivity].
  - exact cx0_key.
  - exact dump0_bytes.
  - exact sample_faithful.
Qed.
Lemma twice_run : good_run im_twice part_ballot = true. Proof. vm_compute. reflexivity. Qed.
Lemma count_twice t d x : published tp csha chmac dump0 sample_dump sample_parse im_twice cx0 part_ballot BS_cast t ->
  contests_for im_twice (pb_style part_ballot) = Ok [d; d] -> In x (cd_selections (cw_base d)) ->
  counted_vote part_ballot d (sd_id x) = 1 ->
  exists c, elgamal_add tp (tallied (option_ciphertexts (cd_id (cw_base d)) (sd_id x)) [t]) = Ok c /\ spec_decrypts tp c sk0 2 /\
    forall k, 0 <= k < gpQ tp -> spec_decrypts tp c sk0 k -> k = 2.
Proof.
  intros P Hds HX HV. destruct (published_read _ _ _ _ _ _ _ _ _ _ _ _ twice_election P) as (Hst & _ & r & ds & Hb & Hds' & HF).
  rewrite Hds in Hds'. apply Ok_inj in Hds'. subst ds. pose proof (C17_order tp) as PE. specialize (fun l l' => PE l l' test_params_valid).
  unfold tallied. cbn [flat_map]. rewrite Hst, Hb. cbn [is_cast]. rewrite app_nil_r.
  rewrite (PE _ _ (option_read (cd_id (cw_base d)) (sd_id x) false r)). clear PE.
  inversion HF as [|? c1 ? ? (I1 & _ & O1) HF']; subst. inversion HF' as [|? c2 ? ? (I2 & _ & O2) HF'']; subst. inversion HF''; subst.
  destruct (O1 x HX) as (y1 & v1 & r1 & E1 & -> & R1 & _ & V1). destruct (O2 x HX) as (y2 & v2 & r2 & E2 & -> & R2 & _ & V2).
  unfold option_ciphertexts. match goal with H : _ = cb_contests r |- _ => rewrite <- H end. cbn [flat_map]. rewrite I1, I2, bytes_eqb_refl, E1, E2.
  rewrite V1, V2, HV, cx0_key. cbn [app].
  set (l := [(1, r1); (1, r2)]).
  change [spec_enc tp (spec_key tp sk0) 1 r1; spec_enc tp (spec_key tp sk0) 1 r2]
    with (map (fun vr => spec_enc tp (spec_key tp sk0) (fst vr) (snd vr)) l).
  assert (X : is_ok (elgamal_add tp (map (fun vr => spec_enc tp (spec_key tp sk0) (fst vr) (snd vr)) l)) = true) by (apply C17_throws; discriminate).
  destruct (elgamal_add tp (map (fun vr => spec_enc tp (spec_key tp sk0) (fst vr) (snd vr)) l)) as [c| |] eqn:A; try discriminate X.
  exists c. split; [reflexivity|].
  assert (K : 0 <= sk0 < 2 ^ 256) by (split; [discriminate|reflexivity]).
  assert (FL : Forall (fun vr : Z * Z => 0 <= fst vr /\ 0 <= snd vr) l) by (repeat constructor; cbn [fst snd]; try assumption; discriminate).
  destruct (sum_decrypts tp sk0 l c test_params_prime K FL A) as [D1 D2]. split; [exact D1|]. apply D2. reflexivity.
Qed.
Theorem C85_twice_refuted : exists t d x c,
  manifest_valid twice = true /\ internal_manifest_of tp csha iso_sample twice = Ok im_twice /\
  published tp csha chmac dump0 sample_dump sample_parse im_twice cx0 part_ballot BS_cast t /\
  cballot_valid tp csha (sb_ballot t) (im_hash im_twice) (el_pk cx0) (el_ext cx0) = Ok true /\
  In d (im_contests im_twice) /\ In x (cd_selections (cw_base d)) /\
  count im_twice d (sd_id x) [(part_ballot, BS_cast)] = 1 /\
  elgamal_add tp (tallied (option_ciphertexts (cd_id (cw_base d)) (sd_id x)) [t]) = Ok c /\
  spec_decrypts tp c sk0 2 /\ ~ spec_decrypts tp c sk0 1.
Proof.
  assert (U : votes_unsigned part_ballot) by (repeat constructor; vm_compute; congruence).
  destruct (run_published im_twice part_ballot BS_cast twice_election U twice_run) as [t P].
  assert (D : exists d x, nth_error (im_contests im_twice) 1 = Some d /\ nth_error (cd_selections (cw_base d)) 0 = Some x /\
                contests_for im_twice (pb_style part_ballot) = Ok [d; d] /\ counted_vote part_ballot d (sd_id x) = 1 /\
                count im_twice d (sd_id x) [(part_ballot, BS_cast)] = 1).
  { eexists. eexists. split; [vm_compute; reflexivity|]. split; [vm_compute; reflexivity|]. repeat split; vm_compute; reflexivity. }
  destruct D as (d & x & D1 & D2 & D3 & D4 & D5). apply nth_error_In in D1, D2.
  destruct (count_twice t d x P D3 D2 D4) as (c & A & DC & DU).
  exists t, d, x, c. split; [vm_compute; reflexivity|]. split; [vm_compute; reflexivity|]. split; [exact P|].
  split; [exact (proj1 (proj2 (published_read _ _ _ _ _ _ _ _ _ _ _ _ twice_election P)))|].
  split; [exact D1|]. split; [exact D2|]. split; [exact D5|]. split; [exact A|]. split; [exact DC|].
  intros D'. specialize (DU 1 ltac:(split; [discriminate|reflexivity]) D'). discriminate DU.
Qed.

Print Assumptions C85_count_partial.
Print Assumptions C85_decrypt.
Print Assumptions C85_seats.
Print Assumptions C85_order.
Print Assumptions C85_twice_refuted.
