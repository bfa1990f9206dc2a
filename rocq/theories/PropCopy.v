(** Properties C79-C80: copies, clones and assignments; the nonces of submitted ballots. *)
From Coq Require Import Psatz String.
From Verif Require Import Base GroupModel GroupSpec GroupProofs Algebra ElgamalModel ElgamalSpec ElgamalProofs ChaumModel
  HashModel HashedProofs ManifestModel BallotModel JsonModel EncryptModel EncryptSpec EncryptProofs BallotProofs
  BallotProofs2 TallyProofs PropElgamal PropManifest PropEncrypt SerializeSpec TestParams CopyModel CopySpec CopyProofs.
Local Open Scope string_scope.
Local Open Scope list_scope.
Local Open Scope Z_scope.
Local Notation length := List.length.

(** * C79 *)
(** A copy equals its source and leaves it alone exactly for the objects listed by [copyable]. *)
Theorem C79_copy_exact gp v : copy gp v = Ok (v, v) <-> copyable gp v = true.
Proof. apply copy_iff. Qed.
(** A clone, where the class has one, equals its source exactly for those of [clonable]. *)
Theorem C79_clone_exact gp v : has_clone v = true -> (clone gp v = Some (Ok v) <-> clonable gp v = true).
Proof. apply clone_iff. Qed.
(** An assignment makes the target equal the source and keeps the source exactly for [assignable] pairs. *)
Theorem C79_assign_exact gp t s : same_class t s = true ->
  (as_target (assign gp t s) = s /\ as_source (assign gp t s) = s /\ as_ended (assign gp t s) = Ok tt
   <-> assignable gp t s).
Proof.
  intros C. rewrite <- (assign_iff gp t s C). unfold done. destruct (assign gp t s) as [a b c]. cbn. split.
  - intros (-> & -> & ->). reflexivity.
  - intros H. injection H. auto.
Qed.
(** Over every program of copies, clones and assignments on any number of objects: as long as each
    operation is a calm one the objects are those of the ideal and every operation returns; and the
    first operation that is not calm fails or leaves other objects. *)
Theorem C79_histories_partial gp s ops :
  calm gp s ops -> vruns gp s ops = (ideal_runs s ops, map (fun _ => Ok tt) ops).
Proof. apply runs_calm. Qed.
Theorem C79_step_exact gp s op : vstep gp s op = (ideal_step s op, Ok tt) <-> op_calm gp s op.
Proof. apply step_iff. Qed.
(** Ballots fresh from the encryption are copied exactly. *)
Theorem C79_encrypted gp sha hmac dump E b m cx code_seed nonce ts verify st r st' :
  encrypt_ballot gp sha hmac dump E b m cx code_seed nonce ts verify st = Ok (r, st') ->
  copy gp (VCBallot r) = Ok (VCBallot r, VCBallot r).
Proof. intros H. apply copy_iff. exact (encrypt_ballot_complete _ _ _ _ _ _ _ _ _ _ _ _ _ _ _ H). Qed.

(** ** Sample objects *)
Definition named_party : party :=
  {| pa_id := s2b "p"; pa_name := Some [{| la_value := s2b "Greens"; la_language := s2b "en" |}];
     pa_abbrev := s2b "GR"; pa_color := s2b "green"; pa_logo := s2b "leaf" |}.
Definition bare_party : party :=
  {| pa_id := s2b "p"; pa_name := None; pa_abbrev := s2b "GR"; pa_color := s2b "green"; pa_logo := s2b "leaf" |}.
Definition contest_of (allowed : Z) (t u : option intl_text) (ps : list bytes) : contest :=
  {| cd_id := s2b "c"; cd_district := s2b "d"; cd_seq := 1; cd_variation := VV_one_of_m; cd_elected := 1;
     cd_allowed := allowed; cd_name := s2b "C"; cd_title := t; cd_subtitle := u;
     cd_selections := [{| sd_id := s2b "s"; sd_candidate := s2b "x"; sd_seq := 0 |}]; cd_primary := ps |}.
Definition ph_of (c : contest) : contest_ph :=
  {| cw_base := c; cw_placeholders := [{| sd_id := s2b "ph"; sd_candidate := s2b "y"; sd_seq := 9 |}] |}.
Definition titled : contest := contest_of 1 (Some []) (Some []) [].
Definition keys0 : keypair := {| kp_secret := Some 12345; kp_public := Some (g_pow_p tp 12345) |}.
Definition no_keys : keypair := {| kp_secret := None; kp_public := None |}.
Definition quad (a b : Z) : quadruple := {| qd_exp1 := a; qd_exp2 := b; qd_g1 := a + 2; qd_g2k1 := b + 3 |}.

(** A program on five objects, all of its operations calm. *)
Definition shelf : list value :=
  [VParty named_party; VContest titled; VContestPh (ph_of titled); VQuadruple (quad 4 5); VQuadruple (quad 6 7)].
Definition program : list vop := [OCopy 0; OCopy 2; OAssign 3 4; OClone 3; OAssign 2 6; OCopy 1; OAssign 0 5].
Example C79_case : calm tp shelf program /\
  length (ideal_runs shelf program) = 9%nat /\ nth_error (ideal_runs shelf program) 3 = Some (VQuadruple (quad 6 7)) /\
  vruns tp shelf program = (ideal_runs shelf program, map (fun _ => Ok tt) program).
Proof.
  assert (C : calm tp shelf program).
  { cbn [calm program shelf op_calm nth_error ideal_step same_class has_clone firstn skipn app]. repeat split; try (intros _; left);
      repeat split; vm_compute; auto. }
  split; [exact C|]. split; [reflexivity|]. split; [reflexivity|]. apply C79_histories_partial, C.
Qed.
Example C79_encrypted_case : exists r st',
  encrypt_ballot tp csha chmac dump0 env0 part_ballot im0 cx0 5 (Some 99) 1600000001 false st0 = Ok (r, st') /\
  length (flat_map cc_selections (cb_contests r)) = 3%nat /\ copy tp (VCBallot r) = Ok (VCBallot r, VCBallot r).
Proof.
  destruct C35_case as (r & st' & E & D & _). exists r, st'. split; [exact E|]. split.
  - apply (f_equal (fun l => length (concat l))) in D. rewrite <- flat_map_concat_map, flat_map_concat_map in D.
    rewrite flat_map_concat_map. rewrite <- (map_length (fun x => (cs_id x, cs_placeholder x, decrypt tp (cs_ct x) sk0))), concat_map, map_map.
    exact D.
  - exact (C79_encrypted _ _ _ _ _ _ _ _ _ _ _ _ _ _ _ E).
Qed.

(** ** Where copies differ *)
(** A party without a name gets one, without a text. *)
Theorem C79_party_refuted : exists p c, copy tp (VParty p) = Ok (VParty c, VParty p) /\
  pa_name p = None /\ pa_name c = Some [].
Proof. exists bare_party. eexists. split; [reflexivity|]. split; reflexivity. Qed.
(** A contest loses its primary parties; without texts also its votes allowed; with a title and no
    subtitle the copy is undefined. *)
Theorem C79_contest_refuted :
  (exists c d, copy tp (VContest c) = Ok (VContest d, VContest c) /\ cd_primary c <> [] /\ cd_primary d = []) /\
  (exists c d, copy tp (VContest c) = Ok (VContest d, VContest c) /\ cd_allowed c = 3 /\ cd_allowed d = 1) /\
  (exists c, copy tp (VContest c) = UB).
Proof.
  split; [|split].
  - exists (contest_of 1 (Some []) (Some []) [s2b "p"]). eexists. split; [reflexivity|]. split; [discriminate|reflexivity].
  - exists (contest_of 3 None None []). eexists. split; [reflexivity|]. split; reflexivity.
  - exists (contest_of 1 (Some []) None []). reflexivity.
Qed.
(** For every contest with placeholders, an assignment that returns keeps the target's contest: only
    the placeholders are taken. *)
Theorem C79_placeholders_keep_contest gp x y r :
  assign gp (VContestPh x) (VContestPh y) = r -> as_ended r = Ok tt ->
  as_target r = VContestPh {| cw_base := cw_base x; cw_placeholders := cw_placeholders y |}.
Proof.
  intros <-. cbn [assign]. unfold contest_ph_copy. destruct (contest_clone (cw_base y)) as [b|e|]; cbn; try discriminate.
  intros _. rewrite (map_same selection_copy) by apply selection_copy_eq. reflexivity.
Qed.
Theorem C79_placeholders_refuted : exists x y, same_class (VContestPh x) (VContestPh y) = true /\
  copyable tp (VContestPh y) = true /\
  exists z, as_target (assign tp (VContestPh x) (VContestPh y)) = VContestPh z /\ cd_id (cw_base z) <> cd_id (cw_base y).
Proof.
  exists (ph_of titled), (ph_of {| cd_id := s2b "other"; cd_district := s2b "d"; cd_seq := 2; cd_variation := VV_n_of_m;
    cd_elected := 2; cd_allowed := 2; cd_name := s2b "O"; cd_title := Some []; cd_subtitle := Some [];
    cd_selections := []; cd_primary := [] |}).
  split; [reflexivity|]. split; [reflexivity|]. eexists. split; [reflexivity|]. vm_compute. discriminate.
Qed.
(** Even a move of it loses the contest's primary parties. *)
Theorem C79_move_refuted : exists x y, contest_ph_move x = Ok y /\ cd_primary (cw_base x) <> cd_primary (cw_base y).
Proof. exists (ph_of (contest_of 1 (Some []) (Some []) [s2b "p"])). eexists. split; [reflexivity|]. discriminate. Qed.
(** Every copy of a key pair, and every assignment from one, empties its source. *)
Theorem C79_keypair_emptied gp k :
  copy gp (VKeyPair k) = Ok (VKeyPair k, VKeyPair no_keys) /\
  forall t, as_source (assign gp (VKeyPair t) (VKeyPair k)) = VKeyPair no_keys.
Proof. split; reflexivity. Qed.
(** A copied and then assigned key pair: the second object of the program ends without keys. *)
Theorem C79_keypair_refuted : exists s ops i,
  nth_error (fst (vruns tp s ops)) i = Some (VKeyPair no_keys) /\
  nth_error (ideal_runs s ops) i = Some (VKeyPair keys0).
Proof. exists [VKeyPair keys0], [OCopy 0], 0%nat. split; reflexivity. Qed.
(** For every encrypted ballot that lacks a nonce, a proof or the hashed data anywhere, the copy is
    undefined; so is that of every ballot whose nonces were removed. *)
Theorem C79_nonces_needed gp b : complete_ballot true b = false -> copy gp (VCBallot b) = UB.
Proof. intros H. cbn [copy kept]. rewrite (cballot_copy_ub b H). reflexivity. Qed.
Theorem C79_forgotten gp b : copy gp (VCBallot (forget_nonces b)) = UB.
Proof. apply C79_nonces_needed. unfold complete_ballot. cbn. apply andb_false_r. Qed.
(** The clone of a disjunctive proof repeats a commitment. *)
Theorem C79_proof_refuted : exists p q, clone tp (VDisjunctive p) = Some (Ok (VDisjunctive q)) /\ dp_b1 q <> dp_b1 p /\
  copy tp (VDisjunctive p) = Ok (VDisjunctive p, VDisjunctive p).
Proof.
  exists {| dp_a0 := 2; dp_b0 := 3; dp_a1 := 4; dp_b1 := 5; dp_c0 := 1; dp_c1 := 1; dp_c := 2; dp_v0 := 1; dp_v1 := 1 |}.
  eexists. split; [reflexivity|]. split; [discriminate|reflexivity].
Qed.
(** An assignment of a quadruple can stop between its members: exponents and powers no longer match. *)
Theorem C79_torn_refuted : exists t s r, assign tp (VQuadruple t) (VQuadruple s) = r /\
  as_ended r = Throw OutOfRange /\ as_target r <> VQuadruple t /\ as_target r <> VQuadruple s.
Proof.
  exists (quad 4 5), (quad 6 (gpQ tp + 1)). eexists. split; [reflexivity|]. split; [reflexivity|]. split; discriminate.
Qed.

(** * C80 *)
(** A submitted ballot that can be made has the ballot's contents and the state asked for... *)
Theorem C80_contents b s t : submitted_from b s = Ok t ->
  forget_nonces (sb_ballot t) = forget_nonces b /\ sb_state t = s.
Proof.
  unfold submitted_from. intros H. apply bind_ok in H. destruct H as (b' & E & H). apply Ok_inj in H. subst t.
  apply cballot_copy_any in E. destruct E as [-> _]. split; reflexivity.
Qed.
(** ...and every nonce of it: none is removed. *)
Theorem C80_kept b s t : submitted_from b s = Ok t ->
  all_nonces (sb_ballot t) = all_nonces b /\ Forall (fun n => n <> None) (all_nonces b).
Proof.
  unfold submitted_from. intros H. apply bind_ok in H. destruct H as (b' & E & H). apply Ok_inj in H. subst t.
  apply cballot_copy_any in E. destruct E as [-> C]. split; [reflexivity|]. unfold all_nonces.
  unfold complete_ballot in C. apply andb_true_iff in C. destruct C as [C N]. constructor.
  - destruct (cb_nonce b); [discriminate|discriminate N].
  - apply Forall_forall. intros n I. apply in_flat_map in I. destruct I as (c & Hc & I).
    rewrite forallb_forall in C. specialize (C c Hc). unfold complete_contest in C. rewrite !andb_true_iff in C.
    destruct C as [[[C _] _] CN]. destruct I as [<- |I].
    + destruct (cc_nonce c); [discriminate|discriminate CN].
    + apply in_map_iff in I. destruct I as (x & <- & Hx). rewrite forallb_forall in C. specialize (C x Hx).
      unfold complete_selection in C. destruct (cs_nonce x); [discriminate|]. rewrite andb_true_iff in C.
      destruct C as [_ C]. discriminate C.
Qed.
(** Ballots fresh from the encryption can be submitted, whole. *)
Theorem C80_encrypted gp sha hmac dump E b m cx code_seed nonce ts verify st r st' s :
  encrypt_ballot gp sha hmac dump E b m cx code_seed nonce ts verify st = Ok (r, st') ->
  submitted_from r s = Ok {| sb_ballot := r; sb_state := s |}.
Proof.
  intros H. apply encrypt_ballot_complete in H. apply cballot_copy_iff in H. unfold submitted_from. rewrite H. reflexivity.
Qed.
(** A ballot from which the nonces were removed first cannot be submitted at all. *)
Theorem C80_forgotten b s : submitted_from (forget_nonces b) s = UB.
Proof.
  unfold submitted_from. rewrite (cballot_copy_ub (forget_nonces b)); [reflexivity|].
  unfold complete_ballot. cbn. apply andb_false_r.
Qed.
(** With the nonces and the public key alone every vote of a submitted ballot is read, without the
    secret key: the values are those of the decryption. *)
Definition read_selection (gp : params) (K : Z) (x : cselection) : option Z :=
  match cs_nonce x with Some n => Some (read_with_nonce gp K (cs_ct x) n) | None => None end.
Lemma read_bit gp K x v : valid_params gp -> spec_subgroup gp K -> v = 0 \/ v = 1 -> selection_holds gp K x v ->
  read_selection gp K x = Some v.
Proof.
  intros V (HK1 & HK) B (r & E & R & C). unfold read_selection, read_with_nonce. rewrite E, C. cbn [spec_enc ct_data].
  f_equal. destruct B as [-> | ->].
  - rewrite Z.pow_0_r, Z.mul_1_l, Z.eqb_refl. reflexivity.
  - rewrite Z.pow_1_r. destruct (Z.eqb_spec ((gpG gp * K ^ r) mod gpP gp) ((K ^ r) mod gpP gp)) as [H|H]; [exfalso|reflexivity].
    assert (SK : sub gp K) by exact HK.
    assert (S : sub gp (K ^ r)) by (apply (sub_pow gp V); [exact SK|lia]).
    rewrite Z.mul_comm in H. rewrite <- (Z.mul_1_r (K ^ r)) in H at 2.
    apply (mul_cancel gp V _ _ _ S) in H. pose proof (vp_Grng _ V). rewrite !Z.mod_small in H by lia. lia.
Qed.
Theorem C80_readable gp sha hmac dump E b m cx code_seed nonce ts verify st r st' s state t :
  prime_params gp -> manifest_ready m -> votes_unsigned b ->
  0 <= s < 2 ^ 256 -> el_pk cx = spec_key gp s -> env_good gp (el_pk cx) E ->
  encrypt_ballot gp sha hmac dump E b m cx code_seed nonce ts verify st = Ok (r, st') ->
  submitted_from r state = Ok t ->
  Forall (fun cc => map (read_selection gp (el_pk cx)) (cc_selections cc)
                    = map (fun x => Some (decrypt gp (cs_ct x) s)) (cc_selections cc)) (cb_contests (sb_ballot t)).
Proof.
  intros PP MR HV Hs HK EG H HT. pose proof (pp_valid _ PP) as V.
  rewrite (C80_encrypted _ _ _ _ _ _ _ _ _ _ _ _ _ _ _ state H) in HT. apply Ok_inj in HT. subst t. cbn [sb_ballot].
  assert (HS : spec_subgroup gp (el_pk cx)) by (rewrite HK; apply (spec_key_subgroup gp s V); lia).
  destruct (ballot_results gp V sha hmac dump _ _ _ _ _ _ _ _ _ _ _ MR HV HS EG H) as (n & ds & _ & _ & F).
  assert (ONE : forall x v, v = 0 \/ v = 1 -> selection_holds gp (el_pk cx) x v ->
            read_selection gp (el_pk cx) x = Some (decrypt gp (cs_ct x) s)).
  { intros x v B HH. rewrite (read_bit _ _ _ _ V HS B HH). f_equal. symmetry. rewrite HK in HH.
    apply (decrypt_holds gp V PP s x v Hs B HH). }
  clear H MR HV EG. induction F as [|d cc ds0 cs (_ & dh & over & reals & phs & pvs & data & hc & t1 & CR) _ IH]; constructor; [|exact IH].
  clear IH. destruct CR as [C1 C2 C3 C4 C5 C6 C7 CS FR FP LP SUM C13 C14 C15 C16 C17 C18 C19 C20 C21 C22].
  rewrite CS, !map_app. f_equal.
  - clear - FR ONE. induction FR as [|p x ps xs F1 _ IH]; [reflexivity|]. cbn [map]. f_equal; [|exact IH].
    exact (ONE _ _ (sr_bit _ _ _ _ _ _ _ _ _ F1) (sr_holds _ _ _ _ _ _ _ _ _ F1)).
  - clear - FP LP ONE. revert pvs LP FP. generalize (get_placeholders d).
    induction phs as [|x phs IH]; intros ps [|v pvs] LP FP; try discriminate LP; [reflexivity|].
    cbn [combine] in FP. inversion FP as [|? ? ? ? F1 F2]; subst. cbn [fst snd] in F1. injection LP as LP.
    cbn [map]. f_equal; [|eapply IH; eassumption].
    exact (ONE _ _ (sr_bit _ _ _ _ _ _ _ _ _ F1) (sr_holds _ _ _ _ _ _ _ _ _ F1)).
Qed.
(** The documented removal does not happen. *)
Theorem C80_removed_refuted : exists r st',
  encrypt_ballot tp csha chmac dump0 env0 part_ballot im0 cx0 5 (Some 99) 1600000001 false st0 = Ok (r, st') /\
  submitted_from r BS_cast <> Ok {| sb_ballot := forget_nonces r; sb_state := BS_cast |} /\
  exists t, submitted_from r BS_cast = Ok t /\
    map (fun cc => map (read_selection tp (el_pk cx0)) (cc_selections cc)) (cb_contests (sb_ballot t))
    = [[Some 0; Some 1; Some 0]].
Proof.
  destruct C35_case as (r & st' & E & D & _). exists r, st'. split; [exact E|].
  pose proof (C80_encrypted _ _ _ _ _ _ _ _ _ _ _ _ _ _ _ BS_cast E) as S. split.
  - rewrite S. intros H. apply Ok_inj in H. apply (f_equal (fun t => cb_nonce (sb_ballot t))) in H. cbn in H.
    destruct (C80_kept _ _ _ S) as [_ N]. unfold all_nonces in N. inversion N as [|? ? N1 _]; subst. apply N1. exact H.
  - eexists. split; [exact S|].
    assert (U : votes_unsigned part_ballot) by (repeat constructor; vm_compute; congruence).
    assert (K : 0 <= sk0 < 2 ^ 256) by (split; [discriminate|reflexivity]).
    pose proof (C80_readable _ _ _ _ _ _ _ _ _ _ _ _ _ _ _ sk0 BS_cast _ test_params_prime im0_ready
      U K cx0_key (env0_good _) E S) as R.
    cbn [sb_ballot] in R |- *.
    assert (X : map (fun cc => map (read_selection tp (el_pk cx0)) (cc_selections cc)) (cb_contests r)
                = map (fun cc => map (fun x => Some (decrypt tp (cs_ct x) sk0)) (cc_selections cc)) (cb_contests r)).
    { apply map_ext_in. intros cc Hc. rewrite Forall_forall in R. apply R, Hc. }
    rewrite X. apply (f_equal (map (map (fun y => Some (snd y))))) in D. rewrite map_map in D.
    cbn [map snd] in D. rewrite <- D. apply map_ext. intros cc. rewrite map_map. reflexivity.
Qed.

Print Assumptions C79_copy_exact.
Print Assumptions C79_clone_exact.
Print Assumptions C79_assign_exact.
Print Assumptions C79_histories_partial.
Print Assumptions C79_step_exact.
Print Assumptions C79_encrypted.
Print Assumptions C79_party_refuted.
Print Assumptions C79_contest_refuted.
Print Assumptions C79_placeholders_keep_contest.
Print Assumptions C79_placeholders_refuted.
Print Assumptions C79_move_refuted.
Print Assumptions C79_keypair_emptied.
Print Assumptions C79_keypair_refuted.
Print Assumptions C79_nonces_needed.
Print Assumptions C79_forgotten.
Print Assumptions C79_proof_refuted.
Print Assumptions C79_torn_refuted.
Print Assumptions C80_contents.
Print Assumptions C80_kept.
Print Assumptions C80_encrypted.
Print Assumptions C80_forgotten.
Print Assumptions C80_readable.
Print Assumptions C80_removed_refuted.
