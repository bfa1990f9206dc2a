(** Property C88: no secret exponent is used twice. *)
From Coq Require Import String Permutation Sorted.
From Verif Require Import Base GroupModel GroupSpec GroupProofs CodecModel HashModel ElgamalModel ChaumModel HashedProofs
  SortModel SortProofs ManifestModel ManifestSpec ManifestProofs ManifestCommit BallotModel JsonModel EncryptModel EncryptSpec EncryptProofs BallotProofs BallotProofs2
  PropElgamal PropManifest PropEncrypt PropBallot TestParams PropCount NonceSpec NonceProofs.
Local Open Scope string_scope.
Local Open Scope list_scope.
Local Open Scope Z_scope.

(** * C88 *)
(** Two encryptions that show the same power of the generator, anywhere, are of the same manifest,
    ballot id and master nonce, and show it at the same place.  The hash is assumed to have no
    collision between the two explicit lists of strings. *)
Theorem C88_pads gp sha hmac dump m b n ds r m' b' n' ds' r' l l' p :
  prime_params gp -> encrypted gp sha hmac dump m b n ds r -> encrypted gp sha hmac dump m' b' n' ds' r' ->
  no_collision gp sha (ballot_strings gp sha m (pb_id b) n ds) (ballot_strings gp sha m' (pb_id b') n' ds') ->
  In (l, p) (ballot_slots r) -> In (l', p) (ballot_slots r') ->
  l = l' /\ im_hash m = im_hash m' /\ same_str (pb_id b) (pb_id b') /\ n = n'.
Proof. intros PP H H' NC. eapply ballots_apart; try eassumption; apply incl_refl. Qed.

(** In one ballot no power appears twice, if the sequence orders of the contests of its style, and
    of the options of each contest, are different. *)
Lemma NoDup_pairs {A B} (l : list (A * B)) : NoDup (map fst l) ->
  (forall a a' b, In (a, b) l -> In (a', b) l -> a = a') -> NoDup (map snd l).
Proof.
  induction l as [|[a b] l IH]; intros N H; [constructor|]. cbn [map fst snd] in *. inversion N as [|? ? N1 N2]. subst.
  constructor.
  - intros HI. apply in_map_iff in HI. destruct HI as ([a' b'] & E & HI). cbn [snd] in E. subst b'.
    assert (a = a') by (eapply H; [now left|right; exact HI]). subst a'. apply N1. apply in_map_iff. exists (a, b). auto.
  - apply IH; [exact N2|]. intros x x' y Hx Hx'. eapply H; right; eassumption.
Qed.
Theorem C88_ballot_partial gp sha hmac dump m b n ds r :
  prime_params gp -> encrypted gp sha hmac dump m b n ds r -> seqs_distinct ds ->
  no_collision gp sha (ballot_strings gp sha m (pb_id b) n ds) (ballot_strings gp sha m (pb_id b) n ds) ->
  NoDup (map snd (ballot_slots r)).
Proof.
  intros PP H SD NC. apply NoDup_pairs; [eapply ballot_labels; eassumption|].
  intros l l' p HI HI'. eapply C88_pads; eassumption.
Qed.

(** A valid manifest gives different sequence orders, if its style lists no district twice, the
    orders of the options leave room for the placeholders, and seats are counted in 63 bits. *)
Theorem C88_manifest_partial gp sha fmt m im s ds :
  internal_manifest_of gp sha fmt m = Ok im -> manifest_valid m = true ->
  In s (mf_styles m) -> NoDup (bs_units s) -> contests_for im (bs_id s) = Ok ds ->
  (forall c, In c (mf_contests m) -> 0 <= cd_elected c < 2 ^ 63 /\
     forall x, In x (cd_selections c) -> 0 <= sd_seq x < 2 ^ 32 - 1) ->
  seqs_distinct ds.
Proof.
  intros E MV Is NU Hds B. destruct (C45_exactly_once_partial _ _ _ _ _ _ E MV Is NU) as (l & Hl & Hsort & _ & _).
  rewrite Hds in Hl. apply Ok_inj in Hl. subst l.
  assert (SN : forall l, StronglySorted Z.lt l -> NoDup l).
  { induction 1 as [|x l _ IH F]; constructor; [|exact IH]. intros HI. rewrite Forall_forall in F. specialize (F x HI).
    revert F. apply Z.lt_irrefl. }
  split; [apply SN, Hsort|].
  intros d Hd. apply (BallotProofs2.contests_for_in _ _ _ _ Hds) in Hd.
  destruct (internal_contests _ _ _ _ _ E) as (_ & _ & _ & _ & F).
  destruct (NonceProofs.Forall2_pick_r _ _ _ _ F Hd) as (c & Hc & HW).
  apply sort_in in Hc. destruct (B c Hc) as [B1 B2].
  destruct (C46_fresh_partial c d HW B2 B1) as (_ & N2 & N3).
  apply manifest_valid_wf in MV. pose proof (wfc_seqs c (wfm_each_contest m MV c Hc)) as N1.
  apply with_placeholders_ok in HW. destruct HW as [HW _]. apply clone_fields in HW.
  destruct HW as (_ & _ & _ & _ & _ & _ & HS).
  unfold get_selections, get_placeholders. rewrite HS, map_app. apply NoDup_two. split; [|split].
  - eapply Permutation_NoDup; [apply Permutation_map, sort_perm|exact N1].
  - eapply Permutation_NoDup; [apply Permutation_map, sort_perm|exact N2].
  - intros q HI HI'. apply in_map_iff in HI, HI'. destruct HI as (x & <- & Hx), HI' as (y & E1 & Hy).
    apply sort_in in Hx, Hy. specialize (N3 y x Hy Hx). rewrite E1 in N3. revert N3. apply Z.lt_irrefl.
Qed.

(** In any number of ballots no power appears twice, if no two of them have the same id and the
    same master nonce. *)
Definition entry := (internal_manifest * pballot * Z * list contest_ph * cballot)%type.
Definition entry_ok gp sha hmac dump (x : entry) : Prop :=
  let '(m, b, n, ds, r) := x in encrypted gp sha hmac dump m b n ds r /\ seqs_distinct ds.
Definition entry_strings gp sha (x : entry) : list bytes :=
  let '(m, b, n, ds, _) := x in ballot_strings gp sha m (pb_id b) n ds.
Definition entry_pads (x : entry) : list Z := map snd (ballot_slots (snd x)).
Definition entries_differ (x y : entry) : Prop :=
  let '(_, b, n, _, _) := x in let '(_, b', n', _, _) := y in ~ (same_str (pb_id b) (pb_id b') /\ n = n').
Theorem C88_election_partial gp sha hmac dump (l : list entry) :
  prime_params gp -> Forall (entry_ok gp sha hmac dump) l ->
  (forall x y, In x l -> In y l -> no_collision gp sha (entry_strings gp sha x) (entry_strings gp sha y)) ->
  ForallOrdPairs entries_differ l ->
  NoDup (flat_map entry_pads l).
Proof.
  intros PP F NC D. induction D as [|x l DX D IH]; [constructor|]. inversion F as [|? ? FX FL]. subst.
  cbn [flat_map]. apply NoDup_two. split; [|split].
  - destruct x as [[[[m b] n] ds] r]. destruct FX as [H SD]. unfold entry_pads. cbn [snd].
    apply (C88_ballot_partial gp sha hmac dump m b n ds r PP H SD).
    apply (NC (m, b, n, ds, r) (m, b, n, ds, r)); now left.
  - apply IH; [exact FL|]. intros y z Hy Hz. apply NC; now right.
  - intros p HP HP'. apply in_flat_map in HP'. destruct HP' as (y & Hy & HP').
    rewrite Forall_forall in DX, FL. specialize (DX y Hy). specialize (FL y Hy).
    assert (NCxy := NC x y (or_introl eq_refl) (or_intror Hy)).
    destruct x as [[[[m b] n] ds] r], y as [[[[m' b'] n'] ds'] r']. unfold entry_pads in HP, HP'. cbn [snd] in HP, HP'.
    apply in_map_iff in HP. destruct HP as ((l1 & p1) & E1 & HP). cbn [snd] in E1. subst p1.
    apply in_map_iff in HP'. destruct HP' as ((l2 & p2) & E2 & HP'). cbn [snd] in E2. subst p2.
    apply DX. destruct FX as [FX _], FL as [FL _].
    destruct (C88_pads _ _ _ _ _ _ _ _ _ _ _ _ _ _ _ _ _ PP FX FL NCxy HP HP') as (_ & _ & HH). exact HH.
Qed.

(** The condition on ids and master nonces is needed: whatever the votes, two encryptions with the
    same manifest, style, ballot id and master nonce show the same powers at the same places. *)
Theorem C88_reuse gp sha hmac dump m b b' n ds r r' :
  prime_params gp -> pb_id b = pb_id b' -> encrypted gp sha hmac dump m b n ds r -> encrypted gp sha hmac dump m b' n ds r' ->
  ballot_slots r = ballot_slots r'.
Proof.
  intros PP HB H H'.
  assert (X : forall b r, encrypted gp sha hmac dump m b n ds r ->
    ballot_slots r = flat_map (slots_of gp sha (nonce_seed gp sha (im_hash m) (pb_id b) n)) ds).
  { intros b1 r1 H1. eapply ballot_slots_of; eassumption. }
  rewrite (X _ _ H), (X _ _ H'), HB. reflexivity.
Qed.

(** ** A ballot encrypted twice from different master nonces: all ten powers are different. *)
Lemma run_encrypted sha m b n r : n < 65521 -> 0 <= n ->
  (exists st', encrypt_ballot tp sha chmac dump0 env0 b m cx0 5 (Some n) 1600000001 false st0 = Ok (r, st')) ->
  forall ds, contests_for m (pb_style b) = Ok ds -> 0 <= im_hash m < 2 ^ 256 ->
  forallb (fun d => (0 <=? cd_seq (cw_base d)) && (cd_seq (cw_base d) <? 2 ^ 64) &&
    forallb (fun x => (0 <=? sd_seq x) && (sd_seq x <? 2 ^ 64)) (get_selections (cw_base d) ++ get_placeholders d)) ds = true ->
  encrypted tp sha chmac dump0 m b n ds r.
Proof.
  intros N N0 [st' H] ds Hds HM F. constructor.
  - exists env0, cx0, 5, (Some n), 1600000001, false, st0, st'. split; [exact env0_empty|exact H].
  - apply encrypt_ballot_ok in H. destruct H as (n0 & [E|[E _]] & _ & _ & _ & _ & _ & _ & _ & _ & _ & _ & Hn & _);
      [injection E as <-; exact Hn|discriminate E].
  - exact Hds.
  - split; [|exact HM]. split; [exact N0|]. eapply Z.lt_trans; [exact N|]. reflexivity.
  - intros d Hd. rewrite forallb_forall in F. specialize (F d Hd). rewrite !andb_true_iff in F.
    destruct F as [[F1 F2] F3]. rewrite Z.leb_le in F1. rewrite Z.ltb_lt in F2. split; [split; assumption|].
    intros x Hx. rewrite forallb_forall in F3. specialize (F3 x Hx). rewrite andb_true_iff, Z.leb_le, Z.ltb_lt in F3. exact F3.
Qed.
Definition nsha (b : bytes) : Z := fold_left (fun a x => (a * 31 + x) mod 65519) b 7.
Definition part_contests : list contest_ph := match contests_for im0 (pb_style part_ballot) with Ok ds => ds | _ => [] end.
Definition run_of (m : internal_manifest) (n : Z) : option cballot :=
  match encrypt_ballot tp nsha chmac dump0 env0 part_ballot m cx0 5 (Some n) 1600000001 false st0 with
  | Ok (r, _) => Some r | _ => None end.
Lemma run_of_ok m n r : run_of m n = Some r ->
  exists st', encrypt_ballot tp nsha chmac dump0 env0 part_ballot m cx0 5 (Some n) 1600000001 false st0 = Ok (r, st').
Proof.
  unfold run_of. destruct (encrypt_ballot _ _ _ _ _ _ _ _ _ _ _ _ _) as [[r0 s0]| |]; intros H; [|discriminate H..].
  exists s0. injection H as <-. reflexivity.
Qed.
Fixpoint nodup_b (l : list Z) : bool := match l with [] => true | x :: t => negb (existsb (Z.eqb x) t) && nodup_b t end.
Lemma nodup_b_ok l : nodup_b l = true -> NoDup l.
Proof.
  induction l as [|x l IH]; intros H; [constructor|]. cbn in H. apply andb_true_iff in H. destruct H as [H1 H2].
  constructor; [|apply IH, H2]. intros HI. apply negb_true_iff, Bool.not_true_iff_false in H1. apply H1.
  apply existsb_exists. exists x. split; [exact HI|apply Z.eqb_refl].
Qed.
Example C88_case : exists r r',
  Forall (entry_ok tp nsha chmac dump0) [(im0, part_ballot, 99, part_contests, r); (im0, part_ballot, 100, part_contests, r')] /\
  NoDup (map snd (ballot_slots r) ++ map snd (ballot_slots r')) /\ List.length (ballot_slots r ++ ballot_slots r') = 10%nat.
Proof.
  destruct (run_of im0 99) as [r|] eqn:E1; [|vm_compute in E1; discriminate E1].
  destruct (run_of im0 100) as [r'|] eqn:E2; [|vm_compute in E2; discriminate E2].
  exists r, r'.
  assert (HD : contests_for im0 (pb_style part_ballot) = Ok part_contests) by (vm_compute; reflexivity).
  assert (HM : 0 <= im_hash im0 < 2 ^ 256) by (vm_compute; split; congruence).
  assert (SD : seqs_distinct part_contests).
  { split; [apply nodup_b_ok; vm_compute; reflexivity|]. intros d Hd. apply nodup_b_ok.
    assert (X : forallb (fun d => nodup_b (map sd_seq (get_selections (cw_base d) ++ get_placeholders d))) part_contests = true) by (vm_compute; reflexivity).
    rewrite forallb_forall in X. apply X, Hd. }
  assert (R1 : encrypted tp nsha chmac dump0 im0 part_ballot 99 part_contests r).
  { apply run_encrypted; [reflexivity|discriminate|apply run_of_ok, E1|exact HD|exact HM|vm_compute; reflexivity]. }
  assert (R2 : encrypted tp nsha chmac dump0 im0 part_ballot 100 part_contests r').
  { apply run_encrypted; [reflexivity|discriminate|apply run_of_ok, E2|exact HD|exact HM|vm_compute; reflexivity]. }
  assert (F : Forall (entry_ok tp nsha chmac dump0) [(im0, part_ballot, 99, part_contests, r); (im0, part_ballot, 100, part_contests, r')]).
  { constructor; [split; assumption|]. constructor; [split; assumption|constructor]. }
  split; [exact F|]. split.
  - assert (X := C88_election_partial _ _ _ _ _ test_params_prime F). cbn [flat_map] in X. rewrite app_nil_r in X. apply X; clear X.
    + assert (Y : forall n n', In n [99; 100] -> In n' [99; 100] ->
        no_collision tp nsha (ballot_strings tp nsha im0 (pb_id part_ballot) n part_contests) (ballot_strings tp nsha im0 (pb_id part_ballot) n' part_contests)).
      { intros n n' [<-|[<-|[]]] [<-|[<-|[]]]; apply no_collision_dec; vm_compute; reflexivity. }
      intros x y [<-|[<-|[]]] [<-|[<-|[]]]; apply Y; cbn [In]; auto.
    + constructor; [|constructor; constructor]. constructor; [|constructor]. intros [_ H]. discriminate H.
  - rewrite (ballot_slots_of _ test_params_prime _ _ _ _ _ _ _ _ R1), (ballot_slots_of _ test_params_prime _ _ _ _ _ _ _ _ R2).
    vm_compute. reflexivity.
Qed.

(** ** A valid manifest whose style lists a district twice: the ballot shows every power of the
    contest twice. *)
Theorem C88_ballot_refuted : exists ds r,
  manifest_valid twice = true /\ internal_manifest_of tp csha iso_sample twice = Ok im_twice /\
  encrypted tp nsha chmac dump0 im_twice part_ballot 99 ds r /\ ~ NoDup (map snd (ballot_slots r)).
Proof.
  destruct (run_of im_twice 99) as [r|] eqn:E1; [|vm_compute in E1; discriminate E1].
  destruct (contests_for im_twice (pb_style part_ballot)) as [ds| |] eqn:ED; [|vm_compute in ED; discriminate ED..].
  exists ds, r. split; [vm_compute; reflexivity|]. split; [vm_compute; reflexivity|].
  assert (X : match contests_for im_twice (pb_style part_ballot) with Ok ds =>
    forallb (fun d => (0 <=? cd_seq (cw_base d)) && (cd_seq (cw_base d) <? 2 ^ 64) &&
    forallb (fun x => (0 <=? sd_seq x) && (sd_seq x <? 2 ^ 64)) (get_selections (cw_base d) ++ get_placeholders d)) ds | _ => false end = true)
    by (vm_compute; reflexivity).
  rewrite ED in X. split.
  - apply run_encrypted; [reflexivity|discriminate|apply run_of_ok, E1|exact ED|vm_compute; split; congruence|exact X].
  - assert (Y : match run_of im_twice 99 with Some r =>
      match map snd (ballot_slots r) with x :: t => existsb (Z.eqb x) t | [] => false end | None => false end = true) by (vm_compute; reflexivity).
    rewrite E1 in Y. intros N. destruct (map snd (ballot_slots r)) as [|x t]; [discriminate Y|].
    inversion N as [|? ? N1 _]. subst. apply N1. apply existsb_exists in Y. destruct Y as (y & Hy & E). apply Z.eqb_eq in E. subst y. exact Hy.
Qed.

Print Assumptions C88_pads.
Print Assumptions C88_ballot_partial.
Print Assumptions C88_manifest_partial.
Print Assumptions C88_election_partial.
Print Assumptions C88_reuse.
Print Assumptions C88_ballot_refuted.
