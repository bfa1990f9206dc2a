(** Lemmas for the publication of ballots. *)
From Coq Require Import Psatz Permutation String.
From Verif Require Import Base GroupModel GroupSpec GroupProofs CodecModel CodecProofs HashModel Algebra ElgamalModel ElgamalSpec
  ElgamalProofs ChaumModel ChaumProofs HashedProofs SortModel SortProofs ManifestModel BallotModel JsonModel EncryptModel
  EncryptSpec EncryptProofs BallotProofs BallotProofs2 PropChaum SerializeModel SerializeSpec SerializeProofs SerializeProofs2
  CopyProofs AuditSpec TallyProofs PropManifest.
Local Open Scope list_scope.
Local Notation length := List.length.
Local Open Scope Z_scope.
Ltac Zify.zify_post_hook ::= idtac.

(** ** The verdict on a ballot that was written and read *)
Lemma sort_map {A} (key : A -> Z) (f : A -> A) l : (forall x, key (f x) = key x) ->
  sort_by key (map f (sort_by key l)) = map f (sort_by key l).
Proof.
  intros K. apply sort_by_sorted_id. pose proof (sort_sorted key l) as S. unfold ascending in *.
  induction S as [|x xs S IH F]; cbn [map]; constructor; [exact IH|].
  clear - F K. induction F as [|y ys F1 _ IH]; cbn [map]; constructor; [rewrite !K; exact F1|exact IH].
Qed.
Lemma mapM_map {A B C} (g : A -> B) (f : B -> outcome C) (h : A -> outcome C) l :
  (forall x, f (g x) = h x) -> mapM f (map g l) = mapM h l.
Proof. intros E. induction l as [|x l IH]; cbn [map mapM]; [reflexivity|]. rewrite E, IH. reflexivity. Qed.
Section Verdict.
Context (gp : params) (sha : bytes -> Z).
Lemma read_sorted wn c : cc_sorted (con_read wn c) = map (sel_read wn) (cc_sorted c).
Proof. unfold cc_sorted. cbn [con_read cc_selections]. apply sort_map. reflexivity. Qed.
Lemma read_ballot_sorted wn b : cb_sorted (bal_read wn b) = map (con_read wn) (cb_sorted b).
Proof. unfold cb_sorted. cbn [bal_read cb_contests]. apply sort_map. reflexivity. Qed.
Lemma read_contest_valid wn c d pk ext : ccontest_valid gp sha (con_read wn c) d pk ext = ccontest_valid gp sha c d pk ext.
Proof.
  unfold ccontest_valid. rewrite read_sorted. cbn [con_read cc_id cc_proof cc_desc cc_hash cc_acc].
  replace (ccontest_hash gp sha (cc_id c) (map (sel_read wn) (cc_sorted c)) d) with (ccontest_hash gp sha (cc_id c) (cc_sorted c) d).
  - unfold accumulate. rewrite map_map. reflexivity.
  - unfold ccontest_hash. destruct (cc_sorted c) as [|x l]; [reflexivity|]. cbn [map]. rewrite map_map. reflexivity.
Qed.
Lemma read_results wn c pk ext : contest_results gp sha (con_read wn c) pk ext = contest_results gp sha c pk ext.
Proof.
  unfold contest_results. rewrite read_contest_valid, read_sorted. cbn [con_read cc_desc cc_id]. rewrite map_map. reflexivity.
Qed.
Lemma read_valid wn b m pk ext : cballot_valid gp sha (bal_read wn b) m pk ext = cballot_valid gp sha b m pk ext.
Proof.
  unfold cballot_valid. rewrite read_ballot_sorted. cbn [bal_read cb_manifest cb_id cb_hash].
  replace (cballot_hash gp sha (cb_id b) (map (con_read wn) (cb_sorted b)) m) with (cballot_hash gp sha (cb_id b) (cb_sorted b) m).
  - rewrite (mapM_map (con_read wn) _ (fun c => contest_results gp sha c pk ext)); [reflexivity|].
    intros c. apply read_results.
  - unfold cballot_hash. destruct (cb_sorted b) as [|x l]; [reflexivity|]. cbn [map]. rewrite map_map. reflexivity.
Qed.
End Verdict.

(** ** Encrypted ballots fit their fields and can be read *)
Lemma octets_iff l : octets l = true <-> is_bytes l.
Proof.
  split; [apply octets_bytes|]. unfold octets. rewrite forallb_forall. intros H x I.
  unfold is_bytes in H. rewrite Forall_forall in H. specialize (H x I). unfold is_byte in H. lia.
Qed.
Lemma lxor_byte x y : is_byte x -> is_byte y -> is_byte (Z.lxor x y).
Proof.
  unfold is_byte. intros Hx Hy. split; [apply Z.lxor_nonneg; lia|].
  destruct (Z.eq_dec (Z.lxor x y) 0) as [->|N]; [lia|].
  assert (0 <= Z.lxor x y) by (apply Z.lxor_nonneg; lia).
  change 256 with (2 ^ 8). apply Z.log2_lt_pow2; [lia|].
  pose proof (Z.log2_lxor x y ltac:(lia) ltac:(lia)) as L.
  assert (B : forall z, 0 <= z < 256 -> Z.log2 z < 8).
  { intros z Hz. destruct (Z.eq_dec z 0) as [->|Nz]; [reflexivity|]. apply Z.log2_lt_pow2; lia. }
  pose proof (B x Hx). pose proof (B y Hy). lia.
Qed.
Lemma xor_bytes_ok a b : is_bytes a -> is_bytes b -> is_bytes (xor_bytes a b).
Proof.
  unfold is_bytes. intros H. revert b. induction H as [|x a Hx _ IH]; intros b Hb; [constructor|].
  destruct Hb as [|y b Hy Hb]; cbn [xor_bytes]; constructor; [apply lxor_byte; assumption|apply IH, Hb].
Qed.
Lemma is_bytes_app a b : is_bytes a -> is_bytes b -> is_bytes (a ++ b).
Proof. unfold is_bytes. intros. apply Forall_app. auto. Qed.
Lemma is_bytes_firstn n l : is_bytes l -> is_bytes (firstn n l).
Proof. unfold is_bytes. rewrite !Forall_forall. intros H x I. apply H. rewrite <- (firstn_skipn n l). apply in_or_app. auto. Qed.
Lemma is_bytes_skipn n l : is_bytes l -> is_bytes (skipn n l).
Proof. unfold is_bytes. rewrite !Forall_forall. intros H x I. apply H. rewrite <- (firstn_skipn n l). apply in_or_app. auto. Qed.
Section Encrypted.
Context (gp : params) (V : valid_params gp) (sha : bytes -> Z) (hmac : bytes -> bytes -> Z).
Lemma hmac_bytes key msg len st : is_bytes (get_hmac hmac key msg len st).
Proof. unfold get_hmac. apply be_bytes_is_bytes. Qed.
Lemma xor_blocks_bytes key seed total n : forall i data, is_bytes data -> is_bytes (xor_blocks hmac key seed total n i data).
Proof.
  induction n as [|n IH]; intros i data H; cbn [xor_blocks]; [constructor|]. apply is_bytes_app.
  - apply xor_bytes_ok; [apply is_bytes_firstn, H|apply hmac_bytes].
  - apply IH, is_bytes_skipn, H.
Qed.
Lemma pad_bytes msg p : is_bytes msg -> pad_message msg 510 true = Ok p -> is_bytes p.
Proof.
  intros H. unfold pad_message. cbn [Z.eqb negb andb]. set (n := Z.of_nat (length msg)).
  destruct (510 <? n) eqn:E; intros X; apply Ok_inj in X; subst p; cbn [app].
  - apply (is_bytes_app [0; 0]); [repeat constructor; discriminate|]. apply is_bytes_firstn, H.
  - assert (R : 0 <= (510 - n) mod 65536 < 65536) by (apply Z.mod_pos_bound; lia).
    set (q := (510 - n) mod 65536) in *. constructor; [|constructor].
    + unfold is_byte. split; [apply Z.div_pos; lia|apply Z.div_lt_upper_bound; lia].
    + unfold is_byte. apply Z.mod_pos_bound. lia.
    + apply is_bytes_app; [exact H|]. unfold is_bytes. apply Forall_forall. intros x I. apply repeat_spec in I. subst x.
      unfold is_byte. lia.
Qed.
Lemma hashed_stored K pre msg nonce ext hc : is_bytes msg -> 0 <= nonce < W256 ->
  (forall t, pre = Some t -> good_triple gp K t) ->
  hashed_encrypt gp sha hmac pre msg nonce K ext 510 true = Ok hc ->
  stored_hashed hc = true /\ legible_p gp (hc_pad hc) = true.
Proof.
  intros HM HN HT H. unfold hashed_encrypt in H. apply bind_ok in H. destruct H as (p & HP & H).
  assert (PD : 0 < (match pre with Some t => tr_g t | None => g_pow_p gp nonce end) < gpP gp).
  { destruct pre as [t|].
    - destruct (HT t eq_refl) as (T1 & T2 & _). rewrite T2.
      rewrite <- (ex_nonneg gp V (gpG gp) (tr_exp t)); [|apply (vp_GQ _ V)|lia]. split; [apply (ex_pos gp V), (vp_GQ _ V)|].
      apply (ex_range gp V).
    - rewrite (g_pow_ex2 gp V 1 nonce HN). unfold ex2. split.
      + pose proof (ex2_valid gp V 1 (sub_one gp V) nonce 0) as VR. apply (valid_sub gp V) in VR. unfold ex2 in VR. apply VR.
      + apply Z.mod_pos_bound. pose proof (Ppos gp V). lia. }
  assert (W : gpP gp < 2 ^ 4096) by (change (2 ^ 4096) with W4096; apply (vp_Phi _ V)).
  destruct pre as [t|]; cbv beta iota zeta in H; apply Ok_inj in H; subst hc; unfold stored_hashed, legible_p, in_p; cbn [hc_pad hc_data hc_mac];
    (split; [|lia]); rewrite !andb_true_iff; (split; [split|]);
    try (split; lia); apply octets_iff; try (unfold hashed_mac; apply hmac_bytes);
    apply xor_blocks_bytes; apply (pad_bytes msg); assumption.
Qed.
Notation Q := (gpQ gp).
Lemma in_q_of v : 0 <= v < Q -> in_q v = true.
Proof. unfold in_q. pose proof (vp_Qhi _ V). change W256 with (2 ^ 256) in *. lia. Qed.
Lemma hash_in_q l : in_q (hash_elems gp sha l) = true.
Proof. apply in_q_of, (hash_elems_range gp V). Qed.
Lemma residue_fits a : valid_residue gp a = true -> in_p a = true /\ legible_p gp a = true.
Proof.
  intros H. apply (valid_sub gp V) in H. destruct H as [_ H]. pose proof (vp_Phi _ V). change W4096 with (2 ^ 4096) in *.
  unfold in_p, legible_p. lia.
Qed.
Lemma bounds_fit a : in_bounds_q gp a = true -> in_q a = true /\ legible_q gp a = true.
Proof.
  intros H. apply in_bounds_q_spec in H. pose proof (vp_Qhi _ V). change W256 with (2 ^ 256) in *.
  unfold in_q, legible_q. lia.
Qed.
Lemma range_legible v : 0 <= v < Q -> v <> 0 -> legible_q gp v = true.
Proof. unfold legible_q. lia. Qed.
Lemma elem_eq_true a b : elem_eq a b = true -> a = b.
Proof. unfold elem_eq. apply Z.eqb_eq. Qed.
Lemma dproof_fits p m K ext : dproof_valid gp sha p m K ext = true ->
  stored_dproof p = true /\ stored_ct m = true /\ legible_ct gp m = true /\ (dp_c p <> 0 -> legible_dproof gp p = true).
Proof.
  unfold dproof_valid. cbv zeta. rewrite !andb_true_iff.
  intros [[[[[[[[[[[[[[R1 R2] R3] R4] R5] R6] B1] B2] B3] B4] [_ C]] _] _] _] _].
  apply residue_fits in R1, R2, R3, R4, R5, R6. apply bounds_fit in B1, B2, B3, B4.
  apply elem_eq_true in C. pose proof (dchallenge_range gp V sha ext m (dp_a0 p) (dp_b0 p) (dp_a1 p) (dp_b1 p)) as RC. rewrite <- C in RC.
  unfold stored_dproof, stored_ct, legible_ct, legible_dproof.
  destruct R1 as [-> ->], R2 as [-> ->], R3 as [-> ->], R4 as [-> ->], R5 as [-> ->], R6 as [-> ->],
    B1 as [-> ->], B2 as [-> ->], B3 as [-> ->], B4 as [-> ->]. rewrite (in_q_of _ RC).
  repeat split. intros N. rewrite (range_legible _ RC N). reflexivity.
Qed.
Lemma selection_fits K ext verify ph v d x : sel_result gp sha K ext verify ph v d x -> u64 (sd_seq d) = true ->
  cselection_valid gp sha x (cs_desc x) K ext = true ->
  stored_selection x = true /\ (nonzero_selection x -> legible_selection gp false x = true).
Proof.
  intros [S1 S2 S3 S4 S5 (r & S6 & S6' & _) S7 S8 S9] U H. unfold cselection_valid in H. rewrite elem_eq_refl in H. cbn [negb] in H.
  destruct (elem_eq (cs_hash x) _); [|discriminate H]. cbn [negb] in H.
  destruct (cs_proof x) as [p|] eqn:EP; [|discriminate H]. apply dproof_fits in H. destruct H as (H1 & H2 & H3 & H4).
  assert (HD : 0 <= cs_desc x < Q) by (rewrite S3; apply (hash_elems_range gp V)).
  assert (HH : 0 <= cs_hash x < Q) by (rewrite S7; apply (hash_elems_range gp V)).
  unfold stored_selection, legible_selection, nonzero_selection. rewrite EP, S6, S2, U, H2, H3. cbn [opt legible_nonce negb orb].
  rewrite H1, (in_q_of _ HD), (in_q_of _ HH), (in_q_of _ S6'). split; [reflexivity|].
  intros (N1 & N2 & N3). rewrite (range_legible _ HD N1), (range_legible _ HH N2), (H4 (N3 p eq_refl)). reflexivity.
Qed.
Context (dump : json -> outcome bytes) (dump_bytes : forall j s, dump j = Ok s -> is_bytes s).
Lemma extended_bytes c m check s : extended_data dump c m check = Ok s -> is_bytes s.
Proof.
  unfold extended_data. intros H. repeat (apply bind_ok in H; destruct H as (? & _ & H)).
  destruct (is_null _); [apply Ok_inj in H; subst; constructor|exact (dump_bytes _ _ H)].
Qed.
Lemma contest_fits K ext seed verify c m d r dh over reals phs pvs data hc t1 :
  contest_result gp sha hmac dump K ext seed verify c m d r dh over reals phs pvs data hc t1 ->
  u64 (cd_seq (cw_base d)) = true -> 0 <= cd_elected (cw_base d) < 2 ^ 64 ->
  (forall x, In x (cd_selections (cw_base d)) \/ In x (cw_placeholders d) -> u64 (sd_seq x) = true) ->
  Forall (fun x => cselection_valid gp sha x (cs_desc x) K ext = true) (cc_selections r) ->
  ccontest_valid gp sha r (cc_desc r) K ext = Ok true ->
  stored_contest r = true /\ (nonzero_contest r -> legible_contest gp false r = true).
Proof.
  intros [C1 C2 C3 C4 C5 C6 C7 CS FR FP LP SUM C13 C14 C15 C16 C17 C18 C19 C20 C21 C22] U1 U2 U3 SV CV.
  assert (HS : Forall (fun x => stored_selection x = true /\ (nonzero_selection x -> legible_selection gp false x = true)) (cc_selections r)).
  { rewrite CS in *. apply Forall_app in SV. destruct SV as [SV1 SV2]. apply Forall_app. split.
    - assert (UR : Forall (fun x => u64 (sd_seq x) = true) (get_selections (cw_base d))).
      { apply Forall_forall. intros x I. apply U3. left. unfold get_selections in I. apply sort_in in I. exact I. }
      clear - FR SV1 UR V. induction FR as [|p x ps xs F1 _ IH]; constructor; inversion SV1; inversion UR; subst.
      + eapply selection_fits; eassumption.
      + apply IH; assumption.
    - assert (UR : Forall (fun x => u64 (sd_seq x) = true) (get_placeholders d)).
      { apply Forall_forall. intros x I. apply U3. right. unfold get_placeholders in I. try (apply sort_in in I). exact I. }
      clear - FP LP SV2 UR V. revert pvs LP FP. revert UR. generalize (get_placeholders d).
      induction phs as [|x phs IH]; intros ps UR [|v pvs] LP FP; try discriminate LP; [constructor|].
      cbn [combine] in FP. inversion FP as [|? ? ? ? F1 F2]; subst. cbn [fst snd] in F1. injection LP as LP.
      inversion SV2; inversion UR; subst. constructor; [eapply selection_fits; eassumption|]. eapply IH; eassumption. }
  clear FR FP LP SUM SV.
  unfold ccontest_valid in CV. apply bind_ok in CV. destruct CV as (h & Hh & CV). apply bind_ok in CV.
  destruct CV as (acc & Hacc & CV). destruct C20 as (p & EP & EC). rewrite EP in CV.
  apply bind_ok in CV. destruct CV as (v & HV & CV). apply Ok_inj in CV. rewrite !andb_true_iff in CV.
  destruct CV as [[[_ Eh] Ea] ->]. unfold cproof_valid in HV. cbv zeta in HV. apply bind_ok in HV. destruct HV as (cq & _ & HV).
  apply Ok_inj in HV. rewrite !andb_true_iff in HV. destruct HV as [[[[[[[[R1 R2] R3] R4] B1] B2] _] _] _].
  apply residue_fits in R1, R2, R3, R4. apply bounds_fit in B1, B2.
  unfold ct_eqb in Ea. apply andb_true_iff in Ea. destruct Ea as [Ea1 Ea2]. apply elem_eq_true in Ea1, Ea2, Eh.
  assert (HD : 0 <= cc_desc r < Q).
  { rewrite C7. clear - C1 V. unfold contest_hash in C1. destruct (cd_title (cw_base d)); [destruct (cd_subtitle (cw_base d)); [|discriminate C1]|];
      apply Ok_inj in C1; subst dh; apply (hash_elems_range gp V). }
  assert (HH : 0 <= cc_hash r < Q).
  { rewrite Eh. clear - Hh V. unfold ccontest_hash in Hh. destruct (cc_sorted r); [discriminate Hh|]. apply Ok_inj in Hh. subst h.
    apply (hash_elems_range gp V). }
  assert (HN : in_q (nonce_of gp sha dh (HElemQ seed) (cd_seq (cw_base d))) = true) by apply in_q_of, (nonce_of_range gp V).
  assert (HS1 : forallb stored_selection (cc_selections r) = true).
  { apply forallb_forall. rewrite Forall_forall in HS. intros x I. apply HS, I. }
  assert (RN : 0 <= data_nonce gp sha (nonce_of gp sha dh (HElemQ seed) (cd_seq (cw_base d))) < W256).
  { unfold data_nonce. match goal with |- 0 <= nonce_of gp sha ?a ?h ?i < _ => pose proof (nonce_of_range gp V sha a h i) as RR end.
    pose proof (vp_Qhi _ V) as QH. clear - RR QH. lia. }
  destruct (hashed_stored K t1 data _ ext hc (extended_bytes _ _ _ _ C15) RN C18 C17) as [SH LH].
  assert (U2' : u64 (cd_elected (cw_base d)) = true) by (unfold u64; lia).
  unfold stored_contest, legible_contest, stored_ct, legible_ct, stored_cproof, legible_cproof.
  rewrite C6, U1, EP, C14, C16, Ea1, Ea2. cbn [opt legible_nonce negb orb]. rewrite EC, U2', HN, SH, HS1.
  destruct R1 as [-> ->], R2 as [-> ->], R3 as [-> ->], R4 as [-> ->], B1 as [-> ->], B2 as [-> ->].
  rewrite (in_q_of _ HD), (in_q_of _ HH). split; [reflexivity|].
  intros (N1 & N2 & N3 & N4). destruct (N4 hc C16) as [N5 N6]. rewrite (range_legible _ HD N1), (range_legible _ HH N2).
  unfold legible_hashed. rewrite LH, N5, N6.
  replace (forallb (legible_selection gp false) (cc_selections r)) with true; [reflexivity|].
  symmetry. apply forallb_forall. rewrite Forall_forall in HS, N3. intros x I. apply (HS x I), (N3 x I).
Qed.

Lemma ballot_fits E b m cx code_seed nonce ts verify st r st' :
  manifest_ready m -> numbered m -> votes_unsigned b -> spec_subgroup gp (el_pk cx) -> env_good gp (el_pk cx) E ->
  (forall d, In d (im_contests m) -> cd_elected (cw_base d) <= Q) ->
  in_q (im_hash m) = true -> in_q code_seed = true -> (forall n, nonce = Some n -> in_q n = true) ->
  encrypt_ballot gp sha hmac dump E b m cx code_seed nonce ts verify st = Ok (r, st') ->
  u64 (cb_timestamp r) = true -> Forall no_zero_scalars (cb_contests r) ->
  stored_ballot r = true /\
  (im_hash m <= Q -> code_seed <= Q -> nonzero_ballot r -> legible_ballot gp false r = true).
Proof.
  intros MR NM HV HK EG HQ HM HC HN H HT NZ.
  destruct (ballot_results gp V sha hmac dump _ _ _ _ _ _ _ _ _ _ _ MR HV HK EG H) as (n & ds & Hn & Hds & HF).
  assert (HX : Forall (fun cc => stored_contest cc = true /\ (nonzero_contest cc -> legible_contest gp false cc = true)) (cb_contests r)).
  { assert (HF' : Forall2 (fun d cc => In d (im_contests m) /\
      ballot_contest gp sha hmac dump cx (nonce_seed gp sha (im_hash m) (pb_id b) n) verify b m d cc) ds (cb_contests r)).
    { eapply Forall2_impl; [|exact HF]. cbv beta. intros d cc [H1 H2]. split; [|exact H2]. eapply contests_for_in; eassumption. }
    clear HF H Hds HT HM HC HN Hn. induction HF' as [|d cc ds' cs (I1 & BC) _ IH]; [constructor|]. inversion NZ as [|? ? N1 N2]; subst.
    constructor; [|apply IH; assumption].
    pose proof (contest_sels_valid gp sha hmac dump _ _ _ _ _ _ _ BC) as SV. destruct BC as (dh & over & reals & phs & pvs & data & hc & t1 & CR).
    destruct (NM d I1) as [U1 U2]. destruct N1 as [N1 N3]. eapply contest_fits; [exact CR|exact U1| |exact U2| |].
    - split; [rewrite <- (mr_placeholders _ MR d I1); lia|apply (mr_elected _ MR d I1)].
    - rewrite Forall_forall in *. intros x Ix. apply (SV x Ix), (N1 x Ix).
    - rewrite (cr_desc _ _ _ _ _ _ _ _ _ _ _ _ _ _ _ _ _ _ _ _ CR).
      apply (cr_pvalid _ _ _ _ _ _ _ _ _ _ _ _ _ _ _ _ _ _ _ _ CR); [apply HQ, I1|exact N3]. }
  clear HF. apply (encrypt_ballot_ok gp sha hmac dump) in H.
  destruct H as (n' & Hn' & _ & _ & _ & _ & _ & _ & Hid & _ & Hman & Hseed & Hnon & _ & Hh & Hcode & _).
  assert (HH : 0 <= cb_hash r < Q).
  { clear - Hh V. unfold cballot_hash in Hh. destruct (cb_contests r); [discriminate Hh|]. apply Ok_inj in Hh. rewrite <- Hh.
    apply (hash_elems_range gp V). }
  assert (HO : 0 <= cb_code r < Q) by (rewrite Hcode; apply (hash_elems_range gp V)).
  assert (HNN : in_q n' = true).
  { destruct Hn' as [->|[_ ->]]; [apply HN; reflexivity|]. apply in_q_of, (eg_rand _ _ _ EG). }
  assert (HS : forallb stored_contest (cb_contests r) = true).
  { apply forallb_forall. rewrite Forall_forall in HX. intros x I. apply HX, I. }
  unfold stored_ballot, legible_ballot. rewrite Hman, Hseed, Hnon, HM, HC, HT, HS, (in_q_of _ HH), (in_q_of _ HO). cbn [opt legible_nonce negb orb].
  rewrite HNN. split; [reflexivity|]. intros L1 L2 (N1 & N2 & N3 & N4 & N5).
  rewrite (range_legible _ HH N4), (range_legible _ HO N3). rewrite Hman in N1. rewrite Hseed in N2.
  assert (X : forall v, in_q v = true -> v <= Q -> v <> 0 -> legible_q gp v = true) by (unfold in_q, legible_q; intros; lia).
  rewrite (X _ HM L1 N1), (X _ HC L2 N2).
  replace (forallb (legible_contest gp false) (cb_contests r)) with true; [reflexivity|].
  symmetry. apply forallb_forall. rewrite Forall_forall in HX, N5. intros x I. apply (HX x I), (N5 x I).
Qed.
End Encrypted.
