(** Proofs about encrypt.cpp. *)
From Coq Require Import Permutation Psatz String.
From Verif Require Import Base GroupModel GroupSpec GroupProofs CodecModel HashModel Algebra
  ElgamalModel ElgamalSpec ElgamalProofs ChaumModel ChaumProofs TallyProofs HashedProofs
  SortModel SortProofs ManifestModel ManifestProofs BallotModel JsonModel EncryptModel
  PropElgamal PropChaum EncryptSpec.
Open Scope list_scope.
Open Scope Z_scope.
Ltac Zify.zify_post_hook ::= idtac.

(** ** The monad *)
Lemma mbind_ok {A B} (m : M A) (f : A -> M B) s b s' :
  mbind m f s = Ok (b, s') -> exists a s1, m s = Ok (a, s1) /\ f a s1 = Ok (b, s').
Proof. unfold mbind. destruct (m s) as [[a s1]| |]; try discriminate. eauto. Qed.
Lemma lift_ok {A} (o : outcome A) s a s' : lift o s = Ok (a, s') -> o = Ok a /\ s' = s.
Proof.
  unfold lift. destruct o; try discriminate. intros E. apply Ok_inj in E.
  inversion E. auto.
Qed.
Lemma ret_ok {A} (a b : A) s s' : ret a s = Ok (b, s') -> b = a /\ s' = s.
Proof. unfold ret. intros E. apply Ok_inj in E. inversion E. auto. Qed.
Lemma bind_ok {A B} (o : outcome A) (f : A -> outcome B) b :
  bind o f = Ok b -> exists a, o = Ok a /\ f a = Ok b.
Proof. destruct o; cbn; try discriminate. eauto. Qed.
Lemma pair_ok {A B} (a a' : A) (b b' : B) : @Ok (A * B) (a, b) = Ok (a', b') -> a = a' /\ b = b'.
Proof. intros E. apply Ok_inj in E. inversion E. auto. Qed.

Lemma mfold_ok {A B C} (f : C -> A -> M (B * C)) l :
  forall c s ys c' s', mfold f l c s = Ok ((ys, c'), s') ->
  match l with
  | [] => ys = [] /\ c' = c /\ s' = s
  | x :: t => exists y c1 s1 ys', f c x s = Ok ((y, c1), s1) /\ mfold f t c1 s1 = Ok ((ys', c'), s')
                                 /\ ys = y :: ys'
  end.
Proof.
  destruct l as [|x t]; intros c s ys c' s' H; cbn in H.
  - apply ret_ok in H. destruct H as [E ->]. inversion E. auto.
  - apply mbind_ok in H. destruct H as ((y & c1) & s1 & H1 & H).
    apply mbind_ok in H. destruct H as ((ys' & c2) & s2 & H2 & H).
    apply ret_ok in H. destruct H as [E ->]. inversion E; subst. eauto 10.
Qed.

(** ** Votes and the check of a plaintext contest *)
Lemma total_nonneg l : Forall (fun s => 0 <= ps_vote s) l -> 0 <= total_votes l.
Proof. induction 1; cbn; lia. Qed.
Lemma marked_bound l : 0 <= marked l <= Z.of_nat (List.length l).
Proof. induction l as [|s l IH]; cbn [marked List.length]; [lia|]. destruct (1 <=? ps_vote s); lia. Qed.
Lemma count_fold l : forall a b, 0 <= a < W64 -> 0 <= b < W64 ->
  fold_left count_step l (a, b) = ((a + marked l) mod W64, (b + total_votes l) mod W64).
Proof.
  pose proof W64_pos as HW. induction l as [|s l IH]; intros a b Ha Hb; cbn [fold_left marked total_votes].
  - rewrite !Z.add_0_r, !Z.mod_small by assumption. reflexivity.
  - cbn [count_step]. rewrite IH.
    + f_equal.
      * destruct (1 <=? ps_vote s); [rewrite Zplus_mod_idemp_l|]; f_equal; ring.
      * rewrite Zplus_mod_idemp_l. f_equal; ring.
    + destruct (1 <=? ps_vote s); [apply Z.mod_pos_bound|]; assumption.
    + apply Z.mod_pos_bound, HW.
Qed.
Lemma pcontest_valid_eq c id n e a sup :
  Z.of_nat (List.length (pc_selections c)) < W64 ->
  pcontest_valid c id n e a sup =
  if negb (bytes_eqb (pc_id c) id) then INVALID_OBJECT_ID_ERROR
  else if n <? Z.of_nat (List.length (pc_selections c)) then TOO_MANY_SELECTIONS_ERROR
  else if (e <? marked (pc_selections c)) || (vote_limit e a <? total_votes (pc_selections c) mod W64)
  then (if sup then OVERVOTE else OVERVOTE_ERROR) else SUCCESS.
Proof.
  intros HL. unfold pcontest_valid. pose proof W64_pos as HW.
  destruct (bytes_eqb (pc_id c) id); cbn [negb]; [|reflexivity].
  destruct (n <? _); [reflexivity|].
  rewrite count_fold by (split; [reflexivity|exact HW]). rewrite !Z.add_0_l.
  pose proof (marked_bound (pc_selections c)) as HM.
  rewrite (Z.mod_small (marked _)) by (clear - HM HL; lia).
  unfold vote_limit. destruct (e <? marked _); cbn [orb]; [reflexivity|]. reflexivity.
Qed.

(** ** Encrypting a selection *)
Section Enc.
Context (gp : params) (V : valid_params gp) (sha : bytes -> Z) (hmac : bytes -> bytes -> Z)
        (dump : json -> outcome bytes).
Context (K : Z) (HK : spec_subgroup gp K).
Notation Q := (gpQ gp).

Lemma Q_W256 r : 0 <= r < Q -> 0 <= r < W256.
Proof. pose proof (vp_Qhi _ V). lia. Qed.

Lemma nonce_of_range seed h i : 0 <= nonce_of gp sha seed h i < Q.
Proof. unfold nonce_of, nonces_get. cbn [fst]. apply (hash_elems_range gp V sha). Qed.

Lemma precomp_spec v t : good_triple gp K t -> v = 0 \/ v = 1 ->
  elgamal_encrypt_precomp gp v (tr_g t) (tr_k t) = spec_enc gp K v (tr_exp t).
Proof.
  intros (HR & HG & HK') Hv. unfold elgamal_encrypt_precomp, spec_enc. rewrite HG, HK'. f_equal.
  destruct Hv as [-> | ->]; cbn [Z.eqb Pos.eqb].
  - rewrite Z.pow_0_r, Z.mul_1_l. reflexivity.
  - unfold mul_mod_p. rewrite Z.pow_1_r. apply Zmult_mod_idemp_r.
Qed.

Lemma encrypt_selection_spec E s d ext seed ph verify st c st' :
  env_good gp K E -> 0 <= ps_vote s ->
  encrypt_selection gp sha E s d K ext seed ph verify st = Ok (c, st') ->
  ps_id s = sd_id d /\ (ps_vote s = 0 \/ ps_vote s = 1) /\
  cs_id c = sd_id d /\ cs_seq c = sd_seq d /\ cs_desc c = selection_hash gp sha d /\
  cs_placeholder c = ph /\ selection_holds gp K c (ps_vote s) /\
  cs_hash c = cselection_hash gp sha (cs_id c) (cs_desc c) (cs_ct c) /\
  (exists p, cs_proof c = Some p /\
     (dproof_valid gp sha p (cs_ct c) K ext = true <-> scalars_nonzero p)) /\
  (verify = true -> cselection_valid gp sha c (cs_desc c) K ext = true).
Proof.
  intros EG Hv. unfold encrypt_selection.
  destruct (pselection_valid s (sd_id d)) eqn:PV; cbn [negb]; [|discriminate].
  assert (HV : ps_id s = sd_id d /\ (ps_vote s = 0 \/ ps_vote s = 1)).
  { unfold pselection_valid in PV. destruct (bytes_eqb (ps_id s) (sd_id d)) eqn:EB; [|discriminate].
    apply bytes_eqb_eq in EB. cbn [negb] in PV. destruct (Z.ltb_spec 1 (ps_vote s)) as [H|H]; [discriminate|].
    split; [exact EB|clear - H Hv; lia]. }
  destruct HV as [HI HV]. intros H. split; [exact HI|]. split; [exact HV|].
  apply mbind_ok in H. destruct H as (tq & s1 & H1 & H).
  unfold ask_tq in H1. apply pair_ok in H1. destruct H1 as [Htq _].
  apply mbind_ok in H. destruct H as (c0 & s2 & H2 & H).
  assert (HC : c = c0 /\ (verify = true -> cselection_valid gp sha c (selection_hash gp sha d) K ext = true)).
  { destruct verify; cbn [negb] in H.
    - destruct (cselection_valid gp sha c0 (selection_hash gp sha d) K ext) eqn:EV; [|discriminate].
      apply ret_ok in H. destruct H as [-> _]. auto.
    - apply ret_ok in H. destruct H as [-> _]. split; [reflexivity|discriminate]. }
  destruct HC as [-> HC]. clear H.
  assert (HD : cs_id c0 = ps_id s /\ cs_seq c0 = sd_seq d /\ cs_desc c0 = selection_hash gp sha d /\
    cs_placeholder c0 = ph /\ selection_holds gp K c0 (ps_vote s) /\
    cs_hash c0 = cselection_hash gp sha (cs_id c0) (cs_desc c0) (cs_ct c0) /\
    exists p, cs_proof c0 = Some p /\
     (dproof_valid gp sha p (cs_ct c0) K ext = true <-> scalars_nonzero p)).
  { destruct tq as [t|].
    - apply mbind_ok in H2. destruct H2 as (p & s3 & H3 & H2). apply lift_ok in H3. destruct H3 as [HP ->].
      apply ret_ok in H2. destruct H2 as [-> ->]. cbn [cs_id cs_seq cs_desc cs_placeholder cs_hash cs_ct cs_proof].
      destruct (eg_tq _ _ _ EG _ _ Htq) as (G1 & G2 & G3).
      rewrite (precomp_spec _ _ G1 HV) in *.
      do 4 (split; [reflexivity|]). split; [|split; [reflexivity|]].
      + exists (tr_exp (tq_t1 t)). cbn [cs_nonce cs_ct]. split; [reflexivity|]. split; [apply G1|reflexivity].
      + exists p. split; [reflexivity|].
        exact (C27_precomputed gp sha K ext (ps_vote s) t p V HK HV G1 G2 G3 HP).
    - apply mbind_ok in H2. destruct H2 as (ct & s3 & H3 & H2). apply lift_ok in H3. destruct H3 as [HE ->].
      set (r := nonce_of gp sha (selection_hash gp sha d) (HElemQ seed) (sd_seq d)) in *.
      assert (R : 0 <= r < Q) by apply nonce_of_range.
      assert (R0 : r <> 0). { intros E0. unfold elgamal_encrypt in HE. rewrite E0 in HE. cbn in HE. discriminate. }
      assert (CT : ct = spec_enc gp K (ps_vote s) r).
      { rewrite (C15_encrypt_spec gp K (ps_vote s) r V HK) in HE.
        - apply Ok_inj in HE. now subst.
        - change (2 ^ 256) with W256. pose proof (Q_W256 _ R) as R2. clear - R2 R R0. lia.
        - exact HV. }
      apply mbind_ok in H2. destruct H2 as (u & s4 & H4 & H2). unfold draw in H4. apply pair_ok in H4. destruct H4 as [Hu _].
      apply mbind_ok in H2. destruct H2 as (v & s5 & H5 & H2). unfold draw in H5. apply pair_ok in H5. destruct H5 as [Hv' _].
      apply mbind_ok in H2. destruct H2 as (w & s6 & H6 & H2). unfold draw in H6. apply pair_ok in H6. destruct H6 as [Hw _].
      apply mbind_ok in H2. destruct H2 as (p & s7 & H7 & H2). apply lift_ok in H7. destruct H7 as [HP ->].
      apply ret_ok in H2. destruct H2 as [-> _]. cbn [cs_id cs_seq cs_desc cs_placeholder cs_hash cs_ct cs_proof].
      do 4 (split; [reflexivity|]). split; [|split; [reflexivity|]].
      + exists r. cbn [cs_nonce cs_ct]. split; [reflexivity|]. split; [exact R|exact CT].
      + exists p. split; [reflexivity|]. rewrite CT in *.
        apply (C27_random gp sha K ext r (ps_vote s) u v w p); try assumption.
        * exact (Q_W256 _ R).
        * rewrite <- Hu. apply EG.
        * rewrite <- Hv'. apply EG.
        * rewrite <- Hw. apply EG. }
  destruct HD as (D1 & D2 & D3 & D4 & D5 & D6 & D7).
  rewrite <- HI. split; [exact D1|]. split; [exact D2|]. split; [exact D3|]. split; [exact D4|].
  split; [exact D5|]. split; [exact D6|]. split; [exact D7|].
  rewrite D3. exact HC.
Qed.

(** ** Contests of selections that hold values *)
Definition nonce_val (s : cselection) : Z := match cs_nonce s with Some n => n | None => 0 end.
Lemma aggregate_map l : Forall (fun s => cs_nonce s <> None) l ->
  mapM get_nonce l = Ok (map nonce_val l).
Proof.
  induction 1 as [|s l H _ IH]; cbn [mapM map]; [reflexivity|].
  unfold get_nonce at 1, nonce_val at 1. destruct (cs_nonce s); [|congruence].
  cbn [bind]. rewrite IH. reflexivity.
Qed.
Lemma holds_nonce c v : selection_holds gp K c v -> 0 <= nonce_val c < Q /\ cs_nonce c <> None
  /\ cs_ct c = spec_enc gp K v (nonce_val c).
Proof.
  intros (r & H1 & H2 & H3). unfold nonce_val. rewrite H1. split; [exact H2|]. split; [discriminate|exact H3].
Qed.
Lemma holds_ct l vs : Forall2 (selection_holds gp K) l vs ->
  map cs_ct l = map (fun mr => spec_enc gp K (fst mr) (snd mr)) (combine vs (map nonce_val l)) /\
  map fst (combine vs (map nonce_val l)) = vs /\ map snd (combine vs (map nonce_val l)) = map nonce_val l.
Proof.
  induction 1 as [|c v l vs H _ (IH1 & IH2 & IH3)]; cbn [map combine fst snd]; [auto|].
  apply holds_nonce in H. destruct H as (_ & _ & H). rewrite IH1, IH2, IH3, H. auto.
Qed.
Lemma spec_enc_nonce_mod m r : 0 <= m -> 0 <= r -> spec_enc gp K m (r mod Q) = spec_enc gp K m r.
Proof.
  intros Hm Hr. pose proof (vp_Qlo _ V) as HQ.
  assert (R : 0 <= r mod Q) by (apply Z.mod_pos_bound; clear - HQ; lia).
  rewrite !(spec_enc_enc gp K m _ V HK) by assumption. apply (enc_exp_nonce_mod gp).
  apply Z.mod_mod. clear - HQ. lia.
Qed.
Lemma zsum_map_nonneg {A} (f : A -> Z) l : Forall (fun x => 0 <= f x) l -> 0 <= zsum (map f l).
Proof. intros H. apply zsum_nonneg. apply Forall_map. exact H. Qed.

Lemma Forall2_Forall_l {A B} (R : A -> B -> Prop) (S : A -> Prop) l l' :
  (forall a b, R a b -> S a) -> Forall2 R l l' -> Forall S l.
Proof. intros H. induction 1; constructor; eauto. Qed.

Lemma accumulate_holds l vs : l <> [] -> Forall2 (selection_holds gp K) l vs -> Forall (fun v => 0 <= v) vs ->
  accumulate gp (sort_by cs_seq l) = Ok (spec_enc gp K (zsum vs) (zsum (map nonce_val l))) /\
  aggregate_nonce gp (sort_by cs_seq l) = Ok (zsum (map nonce_val l) mod Q) /\
  0 <= zsum (map nonce_val l).
Proof.
  intros Hl H Hv. pose proof (sort_perm cs_seq l) as HP.
  assert (HN : Forall (fun c => 0 <= nonce_val c < Q) l).
  { eapply Forall2_Forall_l; [|exact H]. intros a b X. apply (holds_nonce a b X). }
  destruct (holds_ct _ _ H) as (E1 & E2 & E3).
  split; [|split].
  - unfold accumulate. rewrite <- (elgamal_add_perm gp V (map cs_ct l)) by (apply Permutation_map, HP).
    rewrite E1. rewrite (add_spec gp V K _ HK).
    + rewrite E2, E3. reflexivity.
    + destruct H; [congruence|]. cbn. discriminate.
    + clear E1 E2 E3 HP Hl. induction H as [|c v l' vs' H' _ IH]; cbn [map combine]; [constructor|].
      inversion Hv as [|? ? V1 V2]; subst. inversion HN as [|? ? N1 N2]; subst. constructor; [|auto].
      cbn [fst snd]. split; [assumption|]. clear - N1. lia.
  - unfold aggregate_nonce. rewrite aggregate_map.
    + cbn [bind]. rewrite (add_mod_q_list_correct gp V).
      * f_equal. rewrite (zsum_perm _ (map nonce_val l)); [reflexivity|]. apply Permutation_map. now symmetry.
      * apply Forall_map. eapply Forall_perm; [exact HP|]. eapply Forall_impl; [|exact HN].
        cbn. unfold exp_ok. intros a Ha. clear - Ha. lia.
      * intros E. apply map_eq_nil in E. apply Hl. rewrite E in HP. symmetry in HP.
        apply Permutation_nil in HP. exact HP.
    + eapply Forall_perm; [exact HP|]. eapply Forall2_Forall_l; [|exact H].
      intros a b X. apply (holds_nonce a b X).
  - apply zsum_map_nonneg. eapply Forall_impl; [|exact HN]. cbn. intros a Ha. clear - Ha. lia.
Qed.

Lemma elem_eq_refl a : elem_eq a a = true.
Proof. unfold elem_eq. apply Z.eqb_refl. Qed.
Lemma ct_eqb_refl a : ct_eqb a a = true.
Proof. unfold ct_eqb. rewrite !elem_eq_refl. reflexivity. Qed.

Lemma ccontest_make_spec pre id seq desc l ext pseed L nonce hashed r vs :
  Forall2 (selection_holds gp K) l vs -> Forall (fun v => 0 <= v) vs ->
  ccontest_make gp sha pre id seq desc l K ext pseed L nonce hashed = Ok r ->
  let agg := zsum (map nonce_val l) mod Q in
  cc_id r = id /\ cc_seq r = seq /\ cc_desc r = desc /\ cc_selections r = l /\ cc_nonce r = nonce /\
  cc_hashed r = hashed /\
  ccontest_hash gp sha id (sort_by cs_seq l) desc = Ok (cc_hash r) /\
  cc_acc r = spec_enc gp K (zsum vs) agg /\
  (exists p, cc_proof r = Some p /\ cproof_make gp sha pre (cc_acc r) agg K pseed ext L = Ok p /\ cp_const p = L) /\
  (zsum vs = L -> L <= Q -> (forall t, pre = Some t -> good_triple gp K t) ->
   (ccontest_valid gp sha r desc K ext = Ok true <->
    forall p, cc_proof r = Some p -> cp_c p <> 0 /\ cp_v p <> 0)).
Proof.
  intros H Hv HM agg. unfold ccontest_make in HM.
  apply bind_ok in HM. destruct HM as (h & Hh & HM).
  assert (Hl : l <> []).
  { intros ->. cbn in Hh. discriminate. }
  destruct (accumulate_holds l vs Hl H Hv) as (HA & HG & HN).
  rewrite HA in HM. cbn [bind] in HM. rewrite HG in HM. cbn [bind] in HM. fold agg in HM.
  pose proof (vp_Qlo _ V) as HQ.
  assert (HS : 0 <= zsum vs) by (apply zsum_nonneg, Hv).
  assert (HR : 0 <= agg < Q) by (apply Z.mod_pos_bound; clear - HQ; lia).
  assert (EA : spec_enc gp K (zsum vs) (zsum (map nonce_val l)) = spec_enc gp K (zsum vs) agg).
  { symmetry. apply spec_enc_nonce_mod; assumption. }
  rewrite EA in *.
  apply bind_ok in HM. destruct HM as (p & Hp & HM). apply Ok_inj in HM.
  pose proof (cproof_make_const _ _ _ _ _ _ _ _ _ _ Hp) as HL.
  rewrite <- HM. cbn [cc_id cc_seq cc_desc cc_selections cc_nonce cc_hashed cc_hash cc_acc cc_proof].
  do 6 (split; [reflexivity|]). split; [exact Hh|]. split; [reflexivity|].
  split; [exists p; auto|]. intros EL HLQ HT.
  assert (C28 : cproof_valid gp sha p (spec_enc gp K (zsum vs) agg) K ext = Ok true <-> cp_c p <> 0 /\ cp_v p <> 0).
  { rewrite EL in *. apply (C28_constant gp sha pre K ext agg pseed L p V HK); try assumption.
    - exact (Q_W256 _ HR).
    - split; assumption. }
  unfold ccontest_valid, cc_sorted. cbn [cc_id cc_seq cc_desc cc_selections cc_nonce cc_hashed cc_hash cc_acc cc_proof].
  rewrite Hh, HA. cbn [bind]. rewrite !elem_eq_refl, ct_eqb_refl. cbn [andb].
  split.
  - intros X p' Ep. injection Ep as <-. apply C28.
    apply bind_ok in X. destruct X as (v & Xv & X). apply Ok_inj in X. rewrite Xv, X. reflexivity.
  - intros X. specialize (X p eq_refl). apply C28 in X. rewrite X. reflexivity.
Qed.

(** ** The selections of a contest *)
(** One encrypted selection [c] for the description [d] with plaintext [v]. *)
Record sel_result (ext : Z) (verify : bool) (ph : bool) (v : Z) (d : selection) (c : cselection) : Prop := {
  sr_id : cs_id c = sd_id d;
  sr_seq : cs_seq c = sd_seq d;
  sr_desc : cs_desc c = selection_hash gp sha d;
  sr_ph : cs_placeholder c = ph;
  sr_bit : v = 0 \/ v = 1;
  sr_holds : selection_holds gp K c v;
  sr_hash : cs_hash c = cselection_hash gp sha (cs_id c) (cs_desc c) (cs_ct c);
  sr_proof : exists p, cs_proof c = Some p /\
     (dproof_valid gp sha p (cs_ct c) K ext = true <-> scalars_nonzero p);
  sr_valid : verify = true -> cselection_valid gp sha c (cs_desc c) K ext = true }.
Lemma sel_result_of E s d ext seed ph verify st c st' :
  env_good gp K E -> 0 <= ps_vote s ->
  encrypt_selection gp sha E s d K ext seed ph verify st = Ok (c, st') ->
  sel_result ext verify ph (ps_vote s) d c.
Proof.
  intros EG Hv H. destruct (encrypt_selection_spec _ _ _ _ _ _ _ _ _ _ EG Hv H)
    as (H1 & H2 & H3 & H4 & H5 & H6 & H7 & H8 & H9 & H10).
  constructor; assumption.
Qed.

Definition emplaced (l : list pselection) (d : selection) : pselection :=
  match find (fun s => bytes_eqb (ps_id s) (sd_id d)) l with
  | Some s => s
  | None => selection_from d false false
  end.
Lemma emplace_selections c d :
  pc_selections (emplace_contest c d) = map (emplaced (pc_selections c)) (get_selections (cw_base d)).
Proof. reflexivity. Qed.
Lemma emplaced_spec l d :
  ps_id (emplaced l d) = sd_id d /\ ps_vote (emplaced l d) = vote_for l (sd_id d).
Proof.
  unfold emplaced. induction l as [|s l IH]; cbn [find vote_for]; [split; reflexivity|].
  unfold bytes_eqb. destruct (list_eq_dec Z.eq_dec (ps_id s) (sd_id d)) as [E|E]; [auto|]. exact IH.
Qed.
Lemma find_emplaced l ds d : In d ds ->
  exists s, find (fun s => bytes_eqb (ps_id s) (sd_id d)) (map (emplaced l) ds) = Some s /\
    ps_id s = sd_id d /\ ps_vote s = vote_for l (sd_id d).
Proof.
  induction ds as [|e ds IH]; intros H; [destruct H|]. cbn [map find].
  destruct (emplaced_spec l e) as [E1 E2].
  destruct (bytes_eqb (ps_id (emplaced l e)) (sd_id d)) eqn:EB.
  - apply bytes_eqb_eq in EB. exists (emplaced l e). split; [reflexivity|]. split; [exact EB|].
    rewrite E2. f_equal. congruence.
  - destruct H as [-> | H]; [|apply IH, H]. rewrite E1, bytes_eqb_refl in EB. discriminate.
Qed.
Lemma vote_for_nonneg l id : Forall (fun s => 0 <= ps_vote s) l -> 0 <= vote_for l id.
Proof.
  induction 1 as [|s l H _ IH]; cbn [vote_for]; [reflexivity|]. destruct (list_eq_dec _ _ _); assumption.
Qed.

Lemma zsum_cons a l : zsum (a :: l) = a + zsum l. Proof. reflexivity. Qed.

Lemma reals_spec E l ds0 over ext seed verify :
  env_good gp K E -> Forall (fun s => 0 <= ps_vote s) l ->
  let val := fun d : selection => if over : bool then 0 else vote_for l (sd_id d) in
  forall ds count st cs count' st', (forall d, In d ds -> In d ds0) ->
  mfold (encrypt_real gp sha E (map (emplaced l) ds0) over K ext seed verify) ds count st
    = Ok ((cs, count'), st') ->
  Forall2 (fun d c => sel_result ext verify false (val d) d c) ds cs /\
  (0 <= count < W64 -> count' = (count + zsum (map val ds)) mod W64).
Proof.
  intros EG Hl val. pose proof W64_pos as HW.
  induction ds as [|d ds IH]; intros count st cs count' st' HI H; apply mfold_ok in H.
  - destruct H as (-> & -> & _). split; [constructor|]. intros Hc. cbn [map zsum fold_right].
    rewrite Z.add_0_r, Z.mod_small by assumption. reflexivity.
  - destruct H as (y & c1 & s1 & ys & H1 & H2 & ->).
    unfold encrypt_real in H1.
    destruct (find_emplaced l ds0 d (HI _ (or_introl eq_refl))) as (s & F & F1 & F2).
    rewrite F in H1.
    set (s' := if over then {| ps_id := ps_id s; ps_vote := 0; ps_placeholder := false; ps_writein := [] |} else s) in *.
    assert (V' : ps_vote s' = val d).
    { unfold s', val. destruct over; [reflexivity|exact F2]. }
    apply mbind_ok in H1. destruct H1 as (c & s2 & H3 & H1). apply ret_ok in H1. destruct H1 as [E1 _].
    inversion E1; subst y c1. clear E1.
    apply sel_result_of in H3; [|exact EG|].
    2:{ rewrite V'. unfold val. destruct over; [reflexivity|]. apply vote_for_nonneg, Hl. }
    rewrite V' in H3, H2. apply IH in H2; [|intros x Hx; apply HI; right; exact Hx].
    destruct H2 as [H4 H5]. split; [constructor; assumption|]. intros Hc.
    rewrite H5 by (apply Z.mod_pos_bound, HW). cbn [map]. rewrite zsum_cons, Zplus_mod_idemp_l. f_equal. ring.
Qed.

Lemma placeholders_spec E (over : bool) elected ext seed verify :
  env_good gp K E -> 0 <= elected < W64 ->
  forall ds count st cs count' st', 0 <= count < W64 ->
  mfold (encrypt_placeholder gp sha E over elected K ext seed verify) ds count st
    = Ok ((cs, count'), st') ->
  exists vs, Forall2 (fun d cv => sel_result ext verify true (snd cv) d (fst cv)) ds (combine cs vs) /\
    List.length vs = List.length cs /\
    zsum vs = if over then Z.of_nat (List.length ds)
              else Z.min (Z.of_nat (List.length ds)) (Z.max 0 (elected - count)).
Proof.
  intros EG HE. pose proof W64_pos as HW.
  induction ds as [|d ds IH]; intros count st cs count' st' Hc H; apply mfold_ok in H.
  - destruct H as (-> & _ & _). exists []. split; [constructor|]. split; [reflexivity|].
    cbn [zsum fold_right List.length Z.of_nat]. destruct over; [reflexivity|]. clear. lia.
  - destruct H as (y & c1 & s1 & ys & H1 & H2 & ->).
    unfold encrypt_placeholder in H1. apply mbind_ok in H1. destruct H1 as (c & s2 & H3 & H1).
    apply ret_ok in H1. destruct H1 as [E1 _]. inversion E1 as [[Ey Ec]]; subst y. clear E1.
    apply sel_result_of in H3; [|exact EG|cbn [selection_from ps_vote]; destruct (_ || _); discriminate].
    cbn [selection_from ps_vote] in H3.
    assert (Hc1 : 0 <= c1 < W64).
    { rewrite Ec. destruct (negb over && (count <? elected)); [apply Z.mod_pos_bound, HW|exact Hc]. }
    destruct (IH c1 s1 ys count' st' Hc1 H2) as (vs & F & L & S). clear IH.
    exists ((if over || (count <? elected) then 1 else 0) :: vs). cbn [combine].
    split; [constructor; [exact H3|exact F]|]. split; [cbn; now rewrite L|].
    rewrite zsum_cons, S. cbn [List.length]. rewrite Nat2Z.inj_succ.
    destruct over; cbn [orb]; [clear; lia|]. rewrite Ec. cbn [negb andb].
    destruct (Z.ltb_spec count elected) as [HL|HL].
    + rewrite Z.mod_small by (clear - HL HE Hc; lia). clear - HL. lia.
    + clear - HL. lia.
Qed.

Lemma zsum_app_eq a b : zsum (a ++ b) = zsum a + zsum b.
Proof. induction a as [|x a IH]; [reflexivity|]. cbn [app]. rewrite !zsum_cons, IH. ring. Qed.
Lemma zsum_const_0 {A} (l : list A) : zsum (map (fun _ => 0) l) = 0.
Proof. induction l as [|x l IH]; [reflexivity|]. cbn [map]. rewrite zsum_cons, IH. reflexivity. Qed.
Lemma zsum_middle {A} (f : A -> Z) a x b : zsum (map f (a ++ x :: b)) = f x + zsum (map f (a ++ b)).
Proof.
  rewrite !map_app. cbn [map]. rewrite <- zsum_cons. apply zsum_perm. symmetry. apply Permutation_middle.
Qed.
(** The votes of distinct options are among the marked ones. *)
Lemma votes_le_marked l : Forall (fun s => 0 <= ps_vote s) l ->
  forall ids, NoDup ids -> (forall i, In i ids -> vote_for l i <= 1) ->
  zsum (map (vote_for l) ids) <= marked l.
Proof.
  induction 1 as [|s l Hs Hl IH]; intros ids ND HB; cbn [marked].
  - assert (Z0 : zsum (map (vote_for []) ids) = 0).
    { clear. induction ids as [|i ids IH]; [reflexivity|]. cbn [map]. rewrite zsum_cons, IH. reflexivity. }
    rewrite Z0. reflexivity.
  - assert (EXT : forall ids : list bytes, ~ In (ps_id s) ids -> map (vote_for (s :: l)) ids = map (vote_for l) ids).
    { intros js HN. apply map_ext_in. intros i Hi. cbn [vote_for].
      destruct (list_eq_dec Z.eq_dec (ps_id s) i) as [E|E]; [subst; contradiction|reflexivity]. }
    destruct (in_dec (list_eq_dec Z.eq_dec) (ps_id s) ids) as [I|N].
    + apply (@in_split bytes) in I. destruct I as (a & b & ->).
      apply NoDup_remove in ND. destruct ND as [ND NI].
      rewrite zsum_middle, (EXT _ NI). specialize (IH (a ++ b) ND).
      assert (B : forall i, In i (a ++ b) -> vote_for l i <= 1).
      { intros i Hi. specialize (HB i). rewrite in_app_iff in Hi, HB. cbn [In] in HB.
        cbn [vote_for] in HB. destruct (list_eq_dec Z.eq_dec (ps_id s) i) as [E|E]; [|apply HB; tauto].
        subst i. exfalso. apply NI. apply in_app_iff. exact Hi. }
      specialize (IH B).
      assert (B1 : vote_for (s :: l) (ps_id s) = ps_vote s).
      { cbn [vote_for]. destruct (list_eq_dec Z.eq_dec (ps_id s) (ps_id s)); congruence. }
      assert (B2 : ps_vote s <= 1).
      { rewrite <- B1. apply HB. apply in_app_iff. right. now left. }
      rewrite B1. destruct (Z.leb_spec 1 (ps_vote s)) as [H1|H1]; clear - IH B2 H1 Hs; lia.
    + rewrite (EXT _ N). assert (B : forall i, In i ids -> vote_for l i <= 1).
      { intros i Hi. specialize (HB i Hi). cbn [vote_for] in HB.
        destruct (list_eq_dec Z.eq_dec (ps_id s) i) as [E|E]; [subst; contradiction|exact HB]. }
      specialize (IH ids ND B). destruct (1 <=? ps_vote s); clear - IH; lia.
Qed.

Definition real_value (over : bool) (l : list pselection) (d : selection) : Z :=
  if over then 0 else vote_for l (sd_id d).
Definition data_nonce (contest_nonce : Z) : Z :=
  nonce_of gp sha contest_nonce (HStr (s2b "constant-extended-data")) 0.

(** Everything known about the result of encryptContest. *)
Record contest_result (ext seed : Z) (verify : bool) (c : pcontest) (m : internal_manifest) (d : contest_ph)
  (r : ccontest) (dh : Z) (over : bool) (reals phs : list cselection) (pvs : list Z) (data : bytes)
  (hc : hashed_ct) (t1 : option triple) : Prop := {
  cr_dh : contest_hash gp sha (cw_base d) = Ok dh;
  cr_pid : pc_id c = cd_id (cw_base d);
  cr_over : over = true <-> cd_elected (cw_base d) < marked (pc_selections c) \/
    vote_limit (cd_elected (cw_base d)) (cd_allowed (cw_base d)) < total_votes (pc_selections c) mod W64;
  cr_fit : Z.of_nat (List.length (pc_selections c)) <= Z.of_nat (List.length (get_selections (cw_base d)));
  cr_id : cc_id r = cd_id (cw_base d);
  cr_seq : cc_seq r = cd_seq (cw_base d);
  cr_desc : cc_desc r = dh;
  cr_sels : cc_selections r = reals ++ phs;
  cr_reals : Forall2 (fun s x => sel_result ext verify false (real_value over (pc_selections c) s) s x)
               (get_selections (cw_base d)) reals;
  cr_phs : Forall2 (fun s xv => sel_result ext verify true (snd xv) s (fst xv))
             (get_placeholders d) (combine phs pvs);
  cr_len : List.length pvs = List.length phs;
  cr_sum : zsum (map (real_value over (pc_selections c)) (get_selections (cw_base d))) + zsum pvs
           = cd_elected (cw_base d);
  cr_acc : cc_acc r = spec_enc gp K (cd_elected (cw_base d)) (zsum (map nonce_val (cc_selections r)) mod Q);
  cr_nonce : cc_nonce r = Some (nonce_of gp sha dh (HElemQ seed) (cd_seq (cw_base d)));
  cr_data : extended_data dump c m (if over then OVERVOTE else SUCCESS) = Ok data;
  cr_hashed : cc_hashed r = Some hc;
  cr_henc : hashed_encrypt gp sha hmac t1 data (data_nonce (nonce_of gp sha dh (HElemQ seed) (cd_seq (cw_base d))))
              K ext 510 true = Ok hc;
  cr_t1 : forall t, t1 = Some t -> good_triple gp K t;
  cr_hash : ccontest_hash gp sha (cd_id (cw_base d)) (cc_sorted r) dh = Ok (cc_hash r);
  cr_proof : exists p, cc_proof r = Some p /\ cp_const p = cd_elected (cw_base d);
  cr_pvalid : cd_elected (cw_base d) <= Q ->
    (ccontest_valid gp sha r dh K ext = Ok true <-> forall p, cc_proof r = Some p -> cp_c p <> 0 /\ cp_v p <> 0);
  cr_verified : verify = true -> ccontest_valid gp sha r dh K ext = Ok true }.

Lemma clone_q_id v : 0 <= v < Q -> clone_q gp v = Ok v.
Proof. intros H. apply (C32_clone_elements gp v). clear - H. lia. Qed.

Lemma Forall2_combine_holds ext verify ds phs : forall pvs, List.length pvs = List.length phs ->
  Forall2 (fun s xv => sel_result ext verify true (snd xv) s (fst xv)) ds (combine phs pvs) ->
  Forall2 (selection_holds gp K) phs pvs /\ Forall (fun v => 0 <= v) pvs.
Proof.
  revert ds. induction phs as [|x phs IH]; intros ds [|v pvs] HL H; try discriminate; [split; constructor|].
  cbn [combine] in H. inversion H as [|s xv ds' l' H1 H2]; subst. cbn [fst snd] in H1.
  injection HL as HL. destruct (IH ds' pvs HL H2) as [I1 I2]. split; constructor; try assumption.
  - apply (sr_holds _ _ _ _ _ _ H1).
  - destruct (sr_bit _ _ _ _ _ _ H1) as [-> | ->]; discriminate.
Qed.
Lemma reals_holds ext verify val ds cs :
  Forall2 (fun s x => sel_result ext verify false (val s) s x) ds cs ->
  Forall2 (selection_holds gp K) cs (map val ds) /\ Forall (fun v => v = 0 \/ v = 1) (map val ds).
Proof.
  induction 1 as [|s x ds cs H _ [I1 I2]]; cbn [map]; split; constructor; try assumption.
  - apply (sr_holds _ _ _ _ _ _ H).
  - apply (sr_bit _ _ _ _ _ _ H).
Qed.

Lemma encrypt_contest_spec E c m d ext seed verify st r st' :
  env_good gp K E -> Forall (fun s => 0 <= ps_vote s) (pc_selections c) ->
  Z.of_nat (List.length (pc_selections c)) < W64 ->
  NoDup (map sd_id (get_selections (cw_base d))) ->
  Z.of_nat (List.length (cw_placeholders d)) = cd_elected (cw_base d) ->
  cd_elected (cw_base d) < W64 ->
  encrypt_contest gp sha hmac dump E c m d K ext seed verify st = Ok (r, st') ->
  exists dh over reals phs pvs data hc t1,
    contest_result ext seed verify c m d r dh over reals phs pvs data hc t1.
Proof.
  intros EG Hl HL ND HPH HE. unfold encrypt_contest. set (b := cw_base d) in *.
  pose proof W64_pos as HW.
  assert (HE0 : 0 <= cd_elected b) by (rewrite <- HPH; apply Nat2Z.is_nonneg).
  set (check := pcontest_valid _ _ _ _ _ _).
  assert (HCK : check = SUCCESS \/ check = OVERVOTE ->
    pc_id c = cd_id b /\ Z.of_nat (List.length (pc_selections c)) <= Z.of_nat (List.length (get_selections b)) /\
    (is_overvote check = true <-> cd_elected b < marked (pc_selections c) \/
      vote_limit (cd_elected b) (cd_allowed b) < total_votes (pc_selections c) mod W64)).
  { unfold check. rewrite (pcontest_valid_eq _ _ _ _ _ _ HL).
    destruct (bytes_eqb (pc_id c) (cd_id b)) eqn:EB; cbn [negb]; [|intros [X|X]; discriminate].
    apply bytes_eqb_eq in EB. destruct (Z.ltb_spec (Z.of_nat (List.length (get_selections b)))
      (Z.of_nat (List.length (pc_selections c)))) as [X|X]; [intros [Y|Y]; discriminate|].
    intros _. split; [exact EB|]. split; [exact X|].
    rewrite <- !Z.ltb_lt, <- orb_true_iff. destruct (_ || _); cbn [is_overvote]; split; congruence. }
  assert (HMAIN : check = SUCCESS \/ check = OVERVOTE -> forall k st,
    (let! dh := lift (contest_hash gp sha b) in
      let ns := nonces_new gp sha dh (HElemQ seed) in
      let '(contest_nonce, ns1) := nonces_get gp sha ns (cd_seq b) in
      let proof_nonce := fst (nonces_next gp sha ns1) in
      let! data := lift (extended_data dump c m check) in
      let over := is_overvote check in
      let normalized := pc_selections (emplace_contest c d) in
      let! (reals, count) :=
        mfold (encrypt_real gp sha E normalized over K ext contest_nonce verify) (get_selections b) 0 in
      let! (phs, count') :=
        mfold (encrypt_placeholder gp sha E over (cd_elected b) K ext contest_nonce verify)
              (get_placeholders d) count in
      let! n1 := lift (clone_q gp contest_nonce) in
      let data_nonce := nonce_of gp sha n1 (HStr (s2b "constant-extended-data")) 0 in
      let! t1 := ask_tr E in
      let! hashed := lift (hashed_encrypt gp sha hmac t1 data data_nonce K ext BYTES_512 true) in
      let! n2 := lift (clone_q gp contest_nonce) in
      let! t2 := ask_tr E in
      let! r := lift (ccontest_make gp sha t2 (pc_id c) (cd_seq b) dh (reals ++ phs) K ext
                                    proof_nonce (cd_elected b) (Some n2) (Some hashed)) in
      if negb verify then ret r
      else
        let! ok := lift (ccontest_valid gp sha r dh K ext) in
        if ok : bool then ret r else lift (Throw RuntimeError)) st = Ok (k, st') ->
    exists dh over reals phs pvs data hc t1,
    contest_result ext seed verify c m d k dh over reals phs pvs data hc t1).
  { intros HC k st0 H. specialize (HCK HC). destruct HCK as (C1 & C2 & C3).
    apply mbind_ok in H. destruct H as (dh & s1 & H1 & H). apply lift_ok in H1. destruct H1 as [Hdh ->].
    cbn zeta in H. unfold nonces_get in H. cbn iota zeta in H.
    set (cn := hash_elems gp sha [HElemQ (nseed (nonces_new gp sha dh (HElemQ seed))); HU64 (cd_seq b)]) in *.
    assert (Hcn : cn = nonce_of gp sha dh (HElemQ seed) (cd_seq b)) by reflexivity.
    clearbody cn.
    set (pn := fst _) in H. clearbody pn.
    apply mbind_ok in H. destruct H as (data & s2 & H1 & H). apply lift_ok in H1. destruct H1 as [Hdata ->].
    rewrite emplace_selections in H. fold b in H.
    apply mbind_ok in H. destruct H as ((reals & count) & s3 & Hreal & H).
    apply mbind_ok in H. destruct H as ((phs & count') & s4 & Hph & H).
    apply mbind_ok in H. destruct H as (n1 & s5 & H1 & H). apply lift_ok in H1. destruct H1 as [Hn1 ->].
    assert (Rcn : 0 <= cn < Q) by (rewrite Hcn; apply nonce_of_range).
    rewrite (clone_q_id cn Rcn) in Hn1. apply Ok_inj in Hn1. subst n1.
    apply mbind_ok in H. destruct H as (t1 & s6 & H1 & H). unfold ask_tr in H1. apply pair_ok in H1. destruct H1 as [Ht1 _].
    apply mbind_ok in H. destruct H as (hc & s7 & H1 & H). apply lift_ok in H1. destruct H1 as [Hhc ->].
    apply mbind_ok in H. destruct H as (n2 & s8 & H1 & H). apply lift_ok in H1. destruct H1 as [Hn2 ->].
    rewrite (clone_q_id cn Rcn) in Hn2. apply Ok_inj in Hn2. subst n2.
    apply mbind_ok in H. destruct H as (t2 & s9 & H1 & H). unfold ask_tr in H1. apply pair_ok in H1. destruct H1 as [Ht2 _].
    apply mbind_ok in H. destruct H as (r0 & s10 & H1 & H). apply lift_ok in H1. destruct H1 as [Hmake ->].
    assert (HK' : k = r0 /\ (verify = true -> ccontest_valid gp sha r0 dh K ext = Ok true)).
    { destruct verify; cbn [negb] in H.
      - apply mbind_ok in H. destruct H as (ok & s11 & H1 & H). apply lift_ok in H1. destruct H1 as [Hok ->].
        destruct ok; [|discriminate]. apply ret_ok in H. destruct H as [-> _]. auto.
      - apply ret_ok in H. destruct H as [-> _]. split; [reflexivity|discriminate]. }
    destruct HK' as [-> Hver]. clear H.
    set (over := is_overvote check) in *.
    destruct (reals_spec E (pc_selections c) (get_selections b) over ext cn verify EG Hl
      (get_selections b) 0 _ _ _ _ (fun d H => H) Hreal) as [Freal Hcount].
    change (fun d : selection => if over then 0 else vote_for (pc_selections c) (sd_id d))
      with (real_value over (pc_selections c)) in *.
    assert (Freal' : Forall2 (fun s x => sel_result ext verify false (real_value over (pc_selections c) s) s x)
               (get_selections b) reals) by exact Freal. clear Freal.
    assert (W0 : 0 <= 0 < W64) by (split; [reflexivity|exact HW]).
    specialize (Hcount W0). rewrite Z.add_0_l in Hcount.
    destruct (reals_holds _ _ _ _ _ Freal') as [Hh1 Hb1].
    set (R := zsum (map (real_value over (pc_selections c)) (get_selections b))) in *.
    assert (R0 : 0 <= R).
    { unfold R. apply zsum_nonneg. eapply Forall_impl; [|exact Hb1]. cbn. intros v [-> | ->]; discriminate. }
    assert (RM : over = false -> R <= cd_elected b).
    { intros Eo. assert (NM : ~ cd_elected b < marked (pc_selections c)).
      { intros X. assert (Y : over = true) by (apply C3; left; exact X). congruence. }
      apply Z.nlt_ge in NM. eapply Z.le_trans; [|exact NM]. unfold R, real_value. rewrite Eo.
      replace (map (fun d : selection => vote_for (pc_selections c) (sd_id d)) (get_selections b))
        with (map (vote_for (pc_selections c)) (map sd_id (get_selections b))) by apply map_map.
      apply votes_le_marked; [exact Hl|exact ND|].
      intros i Hi. apply in_map_iff in Hi. destruct Hi as (s & <- & Hs).
      rewrite Forall_map, Forall_forall in Hb1. specialize (Hb1 s Hs). unfold real_value in Hb1. rewrite Eo in Hb1.
      destruct Hb1 as [-> | ->]; [discriminate|reflexivity]. }
    assert (Rc : 0 <= count < W64) by (rewrite Hcount; apply Z.mod_pos_bound, HW).
    destruct (placeholders_spec E over (cd_elected b) ext cn verify EG (conj HE0 HE) _ _ _ _ _ _ Rc Hph)
      as (pvs & Fph & Lph & Sph).
    assert (HLP : Z.of_nat (List.length (get_placeholders d)) = cd_elected b).
    { unfold get_placeholders. rewrite sort_length. exact HPH. }
    rewrite HLP in Sph.
    assert (SUM : R + zsum pvs = cd_elected b).
    { destruct over eqn:Eo.
      - assert (RZ : R = 0).
        { apply zsum_const_0. }
        rewrite Sph, RZ. reflexivity.
      - specialize (RM eq_refl). rewrite Z.mod_small in Hcount by (clear - R0 RM HE; lia).
        rewrite Sph, Hcount. clear - R0 RM. lia. }
    destruct (Forall2_combine_holds _ _ _ _ _ Lph Fph) as [Hh2 Hb2].
    assert (HALL : Forall2 (selection_holds gp K) (reals ++ phs)
                     (map (real_value over (pc_selections c)) (get_selections b) ++ pvs)).
    { apply Forall2_app; assumption. }
    assert (HNN : Forall (fun v => 0 <= v) (map (real_value over (pc_selections c)) (get_selections b) ++ pvs)).
    { apply Forall_app. split; [|exact Hb2]. eapply Forall_impl; [|exact Hb1]. cbn. intros v [-> | ->]; discriminate. }
    assert (HSUM : zsum (map (real_value over (pc_selections c)) (get_selections b) ++ pvs) = cd_elected b).
    { rewrite <- SUM. apply zsum_app_eq. }
    destruct (ccontest_make_spec _ _ _ _ _ _ _ _ _ _ _ _ HALL HNN Hmake)
      as (M1 & M2 & M3 & M4 & M5 & M6 & M7 & M8 & M9 & M10).
    rewrite HSUM in M8, M10.
    exists dh, over, reals, phs, pvs, data, hc, t1.
    constructor; fold b; try assumption.
    - rewrite M1. exact C1.
    - rewrite M4. exact M8.
    - rewrite M5, Hcn. reflexivity.
    - rewrite <- Hdata. f_equal. unfold over. destruct HC as [-> | ->]; reflexivity.
    - unfold data_nonce. rewrite <- Hcn. exact Hhc.
    - intros t Et. rewrite <- Ht1 in Et. exact (eg_tr _ _ _ EG _ _ Et).
    - unfold cc_sorted. rewrite M4, <- C1. exact M7.
    - destruct M9 as (p & P1 & _ & P2). exists p. auto.
    - intros HQ. apply M10; [reflexivity|exact HQ|]. intros t Et. rewrite <- Ht2 in Et. exact (eg_tr _ _ _ EG _ _ Et). }
  clearbody check. intros H. destruct check; try (apply lift_ok in H; destruct H; discriminate).
  - exact (HMAIN (or_introl eq_refl) r st H).
  - exact (HMAIN (or_intror eq_refl) r st H).
Qed.
End Enc.
