(** Lemmas for the count of an election. *)
From Coq Require Import Psatz Permutation String.
From Verif Require Import Base GroupModel GroupSpec GroupProofs CodecModel HashModel Algebra ElgamalModel ElgamalSpec
  ElgamalProofs ChaumModel ChaumProofs HashedProofs SortModel SortProofs ManifestModel ManifestProofs BallotModel JsonModel EncryptModel
  EncryptSpec EncryptProofs BallotProofs BallotProofs2 PropChaum SerializeModel SerializeSpec SerializeProofs SerializeProofs2
  TallyProofs PropManifest PropEncrypt CountSpec.
Local Open Scope list_scope.
Local Notation length := List.length.
Local Open Scope Z_scope.
Ltac Zify.zify_post_hook ::= idtac.

(** ** Lists *)
Lemma filter_perm {A} (f : A -> bool) l l' : Permutation l l' -> Permutation (filter f l) (filter f l').
Proof.
  induction 1 as [|x l l' H IH|x y l|l l' l'' H IH H' IH']; cbn [filter]; [constructor| | |etransitivity; eassumption].
  - destruct (f x); [constructor; exact IH|exact IH].
  - destruct (f x), (f y); try reflexivity. constructor.
Qed.
Lemma flat_map_perm {A B} (f : A -> list B) l l' : Permutation l l' -> Permutation (flat_map f l) (flat_map f l').
Proof. intros P. apply Permutation_flat_map. exact P. Qed.
Lemma flat_map_pointwise {A B} (f g : A -> list B) l : (forall x, Permutation (f x) (g x)) ->
  Permutation (flat_map f l) (flat_map g l).
Proof. intros H. induction l as [|x l IH]; cbn [flat_map]; [reflexivity|]. apply Permutation_app; [apply H|exact IH]. Qed.
Lemma flat_map_map_ {A B C} (f : B -> list C) (g : A -> B) l : flat_map f (map g l) = flat_map (fun x => f (g x)) l.
Proof. induction l as [|x l IH]; cbn [map flat_map]; [reflexivity|]. rewrite IH. reflexivity. Qed.
Lemma zsum_perm_ l l' : Permutation l l' -> fold_right Z.add 0 l = fold_right Z.add 0 l'.
Proof. induction 1; cbn [fold_right]; lia. Qed.

(** ** Reading back *)
Lemma option_read contest option wn b :
  Permutation (option_ciphertexts contest option (bal_read wn b)) (option_ciphertexts contest option b).
Proof.
  unfold option_ciphertexts. cbn [bal_read cb_contests]. rewrite flat_map_map_. unfold cb_sorted.
  etransitivity; [apply flat_map_perm, Permutation_sym, sort_perm|]. apply flat_map_pointwise. intros c.
  cbn [con_read cc_id cc_selections]. destruct (bytes_eqb (cc_id c) contest); [|reflexivity].
  etransitivity; [|apply Permutation_map, filter_perm, Permutation_sym, (sort_perm cs_seq)].
  unfold cc_sorted. generalize (sort_by cs_seq (cc_selections c)). intros l.
  induction l as [|x l IH]; cbn [map filter]; [reflexivity|]. cbn [sel_read cs_id cs_placeholder].
  destruct (bytes_eqb (cs_id x) option && negb (cs_placeholder x)); [|exact IH]. cbn [map cs_ct]. constructor. exact IH.
Qed.
Lemma contest_read_acc contest wn b :
  Permutation (contest_ciphertexts contest (bal_read wn b)) (contest_ciphertexts contest b).
Proof.
  unfold contest_ciphertexts. cbn [bal_read cb_contests]. rewrite flat_map_map_. unfold cb_sorted.
  etransitivity; [apply flat_map_perm, Permutation_sym, sort_perm|]. apply flat_map_pointwise. intros c. reflexivity.
Qed.

(** ** Contests of a ballot *)
Lemma contests_once m id ds : no_repeats m -> contests_for m id = Ok ds -> NoDup (map (fun d => cd_id (cw_base d)) ds).
Proof.
  intros [NC NU] H. destruct (C45_contests m id ds H) as (s & Hs & Hu & _).
  assert (N : NoDup (bs_units s)) by (apply NU; apply find_some in Hs; apply Hs).
  assert (G : get_style m id = Some s) by exact Hs.
  assert (E := contests_for_filter m id s G Hu N). rewrite E in H. apply Ok_inj in H. subst ds.
  eapply Permutation_NoDup; [apply Permutation_map, sort_perm|].
  revert NC. generalize (im_contests m). intros l. induction l as [|x l IH]; cbn [map filter]; intros NC; [constructor|].
  inversion NC as [|? ? NI NC']; subst. match goal with |- context [if ?f then _ else _] => destruct f end; [|auto].
  cbn [map]. constructor; [|auto]. intros I. apply NI. apply in_map_iff in I. destruct I as (y & Ey & Hy).
  apply filter_In in Hy. apply in_map_iff. exists y. tauto.
Qed.
Lemma on_ballot_in m b ds d : contests_for m (pb_style b) = Ok ds -> In d (im_contests m) ->
  (on_ballot m b d = true <-> In d ds).
Proof.
  intros H I. destruct (C45_contests m _ ds H) as (s & Hs & Hu & _ & HI). unfold on_ballot. rewrite Hs, HI. unfold of_style.
  rewrite (mem_In bytes_eqb bytes_eqb_eq). tauto.
Qed.
(** ** Spoilt contests *)
Lemma spoilt_iff b d : spoilt b d = true <-> too_many (entries b d) d.
Proof.
  unfold spoilt, too_many, over_limit, votes_of, get_selections, ballot_vote. cbn zeta. fold (entries b d).
  assert (P : Permutation (map (fun x => vote_for (entries b d) (sd_id x)) (cd_selections (cw_base d)))
                          (map (fun x => vote_for (entries b d) (sd_id x)) (sort_by sd_seq (cd_selections (cw_base d)))))
    by (apply Permutation_map, sort_perm).
  rewrite <- (zsum_perm_ _ _ P). rewrite <- (Permutation_length (filter_perm (fun v => 1 <=? v) _ _ P)).
  rewrite orb_true_iff, !Z.ltb_lt. reflexivity.
Qed.

(** ** Encrypted ballots *)
Section Enc.
Context (gp : params) (V : valid_params gp) (sha : bytes -> Z) (hmac : bytes -> bytes -> Z)
        (dump : json -> outcome bytes).
Lemma one_option (R : selection -> cselection -> Prop) s ss cs :
  Forall2 (fun s x => cs_id x = sd_id s /\ cs_placeholder x = false /\ R s x) ss cs -> NoDup (map sd_id ss) -> In s ss ->
  exists y, filter (fun x => bytes_eqb (cs_id x) (sd_id s) && negb (cs_placeholder x)) cs = [y] /\ R s y.
Proof.
  assert (Z : forall i ss cs, Forall2 (fun s x => cs_id x = sd_id s /\ cs_placeholder x = false /\ R s x) ss cs ->
    ~ In i (map sd_id ss) -> filter (fun x => bytes_eqb (cs_id x) i && negb (cs_placeholder x)) cs = []).
  { intros i ss' cs'. induction 1 as [|a x ss' cs' (E & _) _ IH]; intros N; [reflexivity|]. cbn [filter map In] in *.
    destruct (bytes_eqb (cs_id x) i) eqn:B; [|apply IH; tauto]. apply bytes_eqb_eq in B. exfalso. apply N. left. congruence. }
  induction 1 as [|a x ss cs (E & Ep & Ra) HF IH]; intros ND I; [destruct I|]. cbn [map] in ND. inversion ND as [|? ? NI ND']; subst.
  cbn [filter]. rewrite Ep, E. destruct I as [-> |I].
  - rewrite bytes_eqb_refl. cbn [negb andb]. rewrite (Z _ _ _ HF NI). exists x. auto.
  - destruct (bytes_eqb (sd_id a) (sd_id s)) eqn:B; [|exact (IH ND' I)]. apply bytes_eqb_eq in B. exfalso. apply NI.
    rewrite B. apply in_map. exact I.
Qed.
Lemma no_placeholder i ext K verify ss phs pvs :
  Forall2 (fun s xv => sel_result gp sha K ext verify true (snd xv) s (fst xv)) ss (combine phs pvs) ->
  length pvs = length phs ->
  filter (fun x => bytes_eqb (cs_id x) i && negb (cs_placeholder x)) phs = [].
Proof.
  revert pvs ss. induction phs as [|x phs IH]; intros [|v pvs] ss F L; try reflexivity; try discriminate L.
  cbn [combine] in F. inversion F as [|s ? ss' ? SR F']; subst. cbn [filter]. cbn [fst snd] in SR.
  rewrite (sr_ph _ _ _ _ _ _ _ _ _ SR). cbn [negb]. rewrite andb_false_r. eapply IH; [exact F'|]. injection L as L. exact L.
Qed.

Definition holds_contest (K : Z) (b : pballot) (d : contest_ph) (cc : ccontest) : Prop :=
  cc_id cc = cd_id (cw_base d) /\
  (exists r, 0 <= r /\ cc_acc cc = spec_enc gp K (cd_elected (cw_base d)) r) /\
  forall x, In x (cd_selections (cw_base d)) -> exists y v r,
    map cs_ct (filter (fun s => bytes_eqb (cs_id s) (sd_id x) && negb (cs_placeholder s)) (cc_selections cc)) = [y] /\
    y = spec_enc gp K v r /\ 0 <= r /\ 0 <= v /\ v = counted_vote b d (sd_id x).
Lemma encrypted_contests E b m cx code_seed nonce ts verify st r st' :
  manifest_ready m -> votes_unsigned b -> spec_subgroup gp (el_pk cx) -> env_good gp (el_pk cx) E ->
  encrypt_ballot gp sha hmac dump E b m cx code_seed nonce ts verify st = Ok (r, st') ->
  exists ds, contests_for m (pb_style b) = Ok ds /\ Forall2 (holds_contest (el_pk cx) b) ds (cb_contests r).
Proof.
  intros MR HV HS EG H.
  destruct (ballot_results gp V sha hmac dump _ _ _ _ _ _ _ _ _ _ _ MR HV HS EG H) as (n & ds & _ & Hds & HF).
  exists ds. split; [exact Hds|]. eapply Forall2_impl; [|exact HF]. cbv beta.
  intros d cc (HI & dh & over & reals & phs & pvs & data & hc & t1 & CR).
  pose proof (contests_for_in _ _ _ _ Hds HI) as HM.
  destruct (emplaced_contest_spec (pb_contests b) d) as [E1 E2].
  pose proof (cr_reals _ _ _ _ _ _ _ _ _ _ _ _ _ _ _ _ _ _ _ _ CR) as FR.
  assert (OV : over = true <-> too_many (entries b d) d).
  { apply contest_over_iff.
    - apply emplaced_unsigned, entries_unsigned, HV.
    - unfold get_selections. rewrite sort_length. apply (mr_sizes _ MR), HM.
    - apply (mr_elected _ MR), HM.
    - pose proof (cr_over _ _ _ _ _ _ _ _ _ _ _ _ _ _ _ _ _ _ _ _ CR) as CO. rewrite E2 in CO. exact CO.
    - intros EO. pose proof FR as FR'. apply (reals_holds gp sha) in FR'. destruct FR' as [_ FR']. subst over. unfold real_value in FR'.
      rewrite E2 in FR'. unfold votes_of. erewrite map_ext_in; [exact FR'|]. intros x Hx. symmetry. apply vote_for_emplaced, Hx.
    - apply (mr_allowed _ MR), HM. }
  split; [exact (cr_id _ _ _ _ _ _ _ _ _ _ _ _ _ _ _ _ _ _ _ _ CR)|]. split.
  { eexists. split; [|exact (cr_acc _ _ _ _ _ _ _ _ _ _ _ _ _ _ _ _ _ _ _ _ CR)].
    apply Z.mod_pos_bound. pose proof (vp_Qlo _ V). lia. }
  intros x Hx.
  assert (Hx' : In x (get_selections (cw_base d))) by (unfold get_selections; apply sort_in; exact Hx).
  destruct (one_option (fun s y => sel_result gp sha (el_pk cx) (el_ext cx) verify false
      (real_value over (pc_selections (emplaced_contest (pb_contests b) d)) s) s y) x (get_selections (cw_base d)) reals) as (y & Ey & SR).
  { eapply Forall2_impl; [|exact FR]. cbv beta. intros s z SR. split; [exact (sr_id _ _ _ _ _ _ _ _ _ SR)|]. split; [exact (sr_ph _ _ _ _ _ _ _ _ _ SR)|exact SR]. }
  { apply nodup_sorted, (mr_selections _ MR), HM. }
  { exact Hx'. }
  rewrite (cr_sels _ _ _ _ _ _ _ _ _ _ _ _ _ _ _ _ _ _ _ _ CR), filter_app, Ey.
  rewrite (no_placeholder _ _ _ _ _ _ _ (cr_phs _ _ _ _ _ _ _ _ _ _ _ _ _ _ _ _ _ _ _ _ CR) (cr_len _ _ _ _ _ _ _ _ _ _ _ _ _ _ _ _ _ _ _ _ CR)).
  destruct (sr_holds _ _ _ _ _ _ _ _ _ SR) as (q & _ & Hq & Hct).
  exists (cs_ct y), (real_value over (pc_selections (emplaced_contest (pb_contests b) d)) x), q.
  split; [reflexivity|]. split; [exact Hct|]. split; [lia|].
  split; [destruct (sr_bit _ _ _ _ _ _ _ _ _ SR) as [-> | ->]; lia|].
  unfold real_value, counted_vote. destruct over.
  - rewrite (proj2 (spoilt_iff b d) (proj1 OV eq_refl)). reflexivity.
  - destruct (spoilt b d) eqn:S; [apply spoilt_iff, OV in S; discriminate S|].
    rewrite E2, vote_for_emplaced by exact Hx'. reflexivity.
Qed.

(** The ciphertexts of one option, or of one contest, on one ballot. *)
Lemma ballot_option K b ds cs d x : Forall2 (holds_contest K b) ds cs -> NoDup (map (fun d => cd_id (cw_base d)) ds) ->
  (forall d', In d' ds -> cd_id (cw_base d') = cd_id (cw_base d) -> d' = d) -> In x (cd_selections (cw_base d)) ->
  let l := flat_map (fun c => if bytes_eqb (cc_id c) (cd_id (cw_base d))
    then map cs_ct (filter (fun s => bytes_eqb (cs_id s) (sd_id x) && negb (cs_placeholder s)) (cc_selections c)) else []) cs in
  (In d ds /\ exists r, l = [spec_enc gp K (counted_vote b d (sd_id x)) r] /\ 0 <= r /\ 0 <= counted_vote b d (sd_id x)) \/
  (~ In d ds /\ l = []).
Proof.
  intros F ND U Hx. cbn zeta. induction F as [|a c ds cs (Ei & _ & HO) F IH]; [right; split; [intros []|reflexivity]|].
  cbn [map] in ND. inversion ND as [|? ? NI ND']; subst. cbn [flat_map]. rewrite Ei.
  specialize (IH ND' (fun d' I => U d' (or_intror I))).
  destruct (bytes_eqb (cd_id (cw_base a)) (cd_id (cw_base d))) eqn:B.
  - apply bytes_eqb_eq in B. assert (a = d) by (apply U; [left; reflexivity|exact B]). subst a.
    destruct (HO x Hx) as (y & v & r & Ey & -> & Hr & Hv & ->). left. split; [left; reflexivity|]. exists r. rewrite Ey.
    destruct IH as [(I & _)|(_ & ->)]; [exfalso; apply NI; apply (in_map (fun d => cd_id (cw_base d))), I|]. auto.
  - cbn [app]. destruct IH as [(I & X)|(N & X)]; [left; split; [right; exact I|exact X]|].
    right. split; [|exact X]. intros [-> |I]; [|exact (N I)]. rewrite bytes_eqb_refl in B. discriminate B.
Qed.
Lemma ballot_acc K b ds cs d : Forall2 (holds_contest K b) ds cs -> NoDup (map (fun d => cd_id (cw_base d)) ds) ->
  (forall d', In d' ds -> cd_id (cw_base d') = cd_id (cw_base d) -> d' = d) ->
  let l := flat_map (fun c => if bytes_eqb (cc_id c) (cd_id (cw_base d)) then [cc_acc c] else []) cs in
  (In d ds /\ exists r, l = [spec_enc gp K (cd_elected (cw_base d)) r] /\ 0 <= r) \/ (~ In d ds /\ l = []).
Proof.
  intros F ND U. cbn zeta. induction F as [|a c ds cs (Ei & (r & Hr & HA) & _) F IH]; [right; split; [intros []|reflexivity]|].
  cbn [map] in ND. inversion ND as [|? ? NI ND']; subst. cbn [flat_map]. rewrite Ei.
  specialize (IH ND' (fun d' I => U d' (or_intror I))).
  destruct (bytes_eqb (cd_id (cw_base a)) (cd_id (cw_base d))) eqn:B.
  - apply bytes_eqb_eq in B. assert (a = d) by (apply U; [left; reflexivity|exact B]). subst a.
    left. split; [left; reflexivity|]. exists r. rewrite HA.
    destruct IH as [(I & _)|(_ & ->)]; [exfalso; apply NI; apply (in_map (fun d => cd_id (cw_base d))), I|]. auto.
  - cbn [app]. destruct IH as [(I & X)|(N & X)]; [left; split; [right; exact I|exact X]|].
    right. split; [|exact X]. intros [-> |I]; [|exact (N I)]. rewrite bytes_eqb_refl in B. discriminate B.
Qed.
End Enc.

(** ** Sums of ciphertexts *)
Lemma sum_decrypts gp s l c : prime_params gp -> 0 <= s < 2 ^ 256 ->
  Forall (fun vr => 0 <= fst vr /\ 0 <= snd vr) l ->
  elgamal_add gp (map (fun vr => spec_enc gp (spec_key gp s) (fst vr) (snd vr)) l) = Ok c ->
  let n := fold_right Z.add 0 (map fst l) in
  spec_decrypts gp c s n /\
  (n < gpQ gp -> decrypt gp c s = (if n <=? 1 then n else 2 ^ 64 - 1) /\
     forall k, 0 <= k < gpQ gp -> spec_decrypts gp c s k -> k = n).
Proof.
  intros PP Hs F H n. pose proof (pp_valid _ PP) as V.
  assert (HS : spec_subgroup gp (spec_key gp s)) by (apply (spec_key_subgroup gp s V); lia).
  assert (NE : l <> []) by (intros ->; discriminate H).
  rewrite (add_spec gp V _ l HS NE F) in H. apply Ok_inj in H. subst c. change (zsum (map fst l)) with n.
  assert (Hn : 0 <= n) by (apply zsum_nonneg, Forall_map; eapply Forall_impl; [|exact F]; cbn; tauto).
  assert (Hr : 0 <= zsum (map snd l)) by (apply zsum_nonneg, Forall_map; eapply Forall_impl; [|exact F]; cbn; tauto).
  assert (D : spec_decrypts gp (spec_enc gp (spec_key gp s) n (zsum (map snd l))) s n) by (apply (spec_enc_decrypts gp V); lia).
  assert (HP : spec_subgroup gp (ct_pad (spec_enc gp (spec_key gp s) n (zsum (map snd l))))) by (apply (spec_key_subgroup gp _ V); exact Hr).
  split; [exact D|]. intros L. split.
  - rewrite (decrypt_model gp PP _ s HP Hs n (conj Hn L) D). reflexivity.
  - intros k Hk D'. pose proof (decrypts_unique gp PP _ s k n (proj2 HP) (proj1 Hs) (proj1 Hk) Hn D' D) as X.
    rewrite !Z.mod_small in X by lia. exact X.
Qed.
