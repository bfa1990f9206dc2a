(** Encryption succeeds on every well-formed ballot. *)
From Coq Require Import Permutation Psatz String.
From Verif Require Import Base GroupModel GroupSpec GroupProofs CodecModel HashModel Algebra
  ElgamalModel ElgamalSpec ElgamalProofs ChaumModel ChaumProofs TallyProofs HashedProofs
  SortModel SortProofs ManifestModel ManifestSpec ManifestProofs BallotModel JsonModel EncryptModel
  PropElgamal PropChaum PropManifest EncryptSpec EncryptProofs BallotProofs BallotProofs2 BallotProofs3.
Open Scope list_scope.
Open Scope Z_scope.
Ltac Zify.zify_post_hook ::= idtac.

(** ** The extended data can always be built *)
Definition objectish (j : json) : Prop := j = JNull \/ exists l, j = JObj l.
Definition arrayish (j : json) : Prop := j = JNull \/ exists l, j = JArr l.
Lemma set_objectish j k v : objectish j -> exists j', json_set j k v = Ok j' /\ objectish j'.
Proof. intros [-> | [l ->]]; eexists; (split; [reflexivity|]); right; eauto. Qed.
Lemma push_arrayish j v : arrayish j -> exists j', json_push j v = Ok j' /\ arrayish j'.
Proof. intros [-> | [l ->]]; eexists; (split; [reflexivity|]); right; eauto. Qed.
Lemma foldM_total {A B} (P : B -> Prop) (f : B -> A -> outcome B) l :
  (forall b a, P b -> exists b', f b a = Ok b' /\ P b') -> forall b, P b -> exists b', foldM f l b = Ok b' /\ P b'.
Proof.
  intros H. induction l as [|a l IH]; intros b Hb; cbn [foldM]; [exists b; auto|].
  destruct (H b a Hb) as (b' & -> & Hb'). cbn [bind]. apply IH, Hb'.
Qed.
Lemma extended_total dump c m k : (forall j, exists t, dump j = Ok t) -> exists t, extended_data dump c m k = Ok t.
Proof.
  intros HD. unfold extended_data.
  assert (HE : exists e, error_data c = Ok e).
  { unfold error_data. destruct (foldM_total arrayish (fun j s => if ps_vote s =? 1 then json_push j (JStr (ps_id s)) else Ok j)
      (pc_selections c)) with (b := JNull) as (e & H & _); [|left; reflexivity|exists e; exact H].
    intros j s Hj. destruct (_ =? 1); [apply push_arrayish, Hj|exists j; auto]. }
  assert (HW : exists w, writeins_of c m = Ok w).
  { unfold writeins_of. destruct (foldM_total objectish (fun j s =>
      if ps_vote s =? 1 then
        foldM (fun j d =>
          if bytes_eqb (ps_id s) (sd_id d) then
            foldM (fun j k => if bytes_eqb (sd_candidate d) (ca_id k) && ca_writein k
                              then json_set j (ps_id s) (JStr (ps_writein s)) else Ok j)
                  (im_candidates m) j
          else Ok j) (ballot_selections c m) j
      else Ok j) (pc_selections c)) with (b := JNull) as (w & H & _); [|left; reflexivity|exists w; exact H].
    intros j s Hj. destruct (_ =? 1); [|exists j; auto]. apply foldM_total; [|exact Hj].
    intros j1 d Hj1. destruct (bytes_eqb _ _); [|exists j1; auto]. apply foldM_total; [|exact Hj1].
    intros j2 x Hj2. destruct (_ && _); [apply set_objectish, Hj2|exists j2; auto]. }
  destruct HE as (e & ->), HW as (w & ->).
  assert (HJ : exists j0, (match k with
     | OVERVOTE => do e <- Ok e; do j <- json_set JNull (s2b "error") (JStr (s2b "overvote")); json_set j (s2b "error_data") e
     | _ => Ok JNull end) = Ok j0 /\ objectish j0).
  { destruct k; try (exists JNull; split; [reflexivity|left; reflexivity]). cbn [bind json_set].
    eexists. split; [reflexivity|]. right. eexists. reflexivity. }
  destruct HJ as (j0 & -> & HO). cbn [bind].
  assert (H1 : exists j1, (if is_null w then Ok j0 else json_set j0 (s2b "write_ins") w) = Ok j1).
  { destruct (is_null w); [eauto|]. destruct (set_objectish j0 (s2b "write_ins") w HO) as (j1 & H & _). eauto. }
  destruct H1 as (j1 & ->). cbn [bind]. destruct (is_null j1); [eauto|apply HD].
Qed.

Lemma mfold_total {A B C} (P : A -> Prop) (f : C -> A -> M (B * C)) l : Forall P l ->
  (forall c a st, P a -> exists y c' s', f c a st = Ok ((y, c'), s')) ->
  forall c st, exists ys c' s', mfold f l c st = Ok ((ys, c'), s') /\ List.length ys = List.length l.
Proof.
  intros HP H. induction HP as [|a l Ha _ IH]; intros c st; cbn [mfold]; [exists [], c, st; split; reflexivity|].
  destruct (H c a st Ha) as (y & c1 & s1 & E1). destruct (IH c1 s1) as (ys & c2 & s2 & E2 & L).
  exists (y :: ys), c2, s2. unfold mbind. rewrite E1, E2. split; [reflexivity|]. cbn [List.length]. congruence.
Qed.

Lemma zsum_nonneg0 l : Forall (fun v => 0 <= v) l -> 0 <= zsum l.
Proof. induction 1 as [|v l H _ IH]; cbn [zsum fold_right]; [reflexivity|]. unfold zsum in *. cbn [fold_right]. lia. Qed.

Section Total.
Context (gp : params) (V : valid_params gp) (sha : bytes -> Z) (hmac : bytes -> bytes -> Z)
        (dump : json -> outcome bytes) (HD : forall j, exists t, dump j = Ok t).
Context (K : Z) (HK : spec_subgroup gp K).
Notation Q := (gpQ gp).

Lemma precomp_total m t q v : (1 <? v) = false ->
  good_triple gp K (tq_t2 t) -> good_quad gp K (tq_q t) ->
  exists p, dproof_make_precomp gp sha m t q v = Ok p.
Proof.
  intros HV (B1 & _) (B2 & _). unfold dproof_make_precomp. rewrite HV. pose proof (vp_Qhi _ V) as HQ.
  assert (C1 : 0 <= tr_exp (tq_t2 t) < W256) by (clear - B1 HQ; lia).
  assert (C2 : 0 <= qd_exp1 (tq_q t) < W256) by (clear - B2 HQ; lia).
  destruct (v =? 1); unfold make_one_precomp, make_zero_precomp;
    rewrite !(a_plus_bc_mod_q_correct gp V) by assumption; cbn [bind]; eexists; reflexivity.
Qed.
Definition nonzero_nonce (seed : Z) (d : selection) : Prop :=
  nonce_of gp sha (selection_hash gp sha d) (HElemQ seed) (sd_seq d) <> 0.
Lemma selection_total E s d ext seed ph st : env_good gp K E -> ps_id s = sd_id d -> ps_vote s <= 1 ->
  nonzero_nonce seed d -> exists c st', encrypt_selection gp sha E s d K ext seed ph false st = Ok (c, st').
Proof.
  intros EG HI HV HN. unfold encrypt_selection.
  assert (HV' : (1 <? ps_vote s) = false) by (apply Z.ltb_ge; exact HV).
  unfold pselection_valid. rewrite HI, bytes_eqb_refl, HV'. cbn [negb].
  unfold mbind at 1, ask_tq. destruct (e_tq E (n_tq st)) as [t|] eqn:ET.
  - destruct (eg_tq _ _ _ EG _ _ ET) as (_ & G2 & G3).
    destruct (precomp_total (elgamal_encrypt_precomp gp (ps_vote s) (tr_g (tq_t1 t)) (tr_k (tq_t1 t))) t ext (ps_vote s) HV' G2 G3) as (p & HP).
    unfold mbind, lift. rewrite HP. eexists. eexists. reflexivity.
  - unfold elgamal_encrypt. unfold nonzero_nonce in HN. apply Z.eqb_neq in HN. rewrite HN.
    unfold mbind at 1, lift. unfold mbind, draw, lift.
    match goal with |- context [dproof_make_rand _ _ ?m ?r ?k ?q ?v ?u1 ?u2 ?u3] =>
      destruct (make_rand_total gp V sha m r k q v u1 u2 u3 (eg_rand _ _ _ EG _) (eg_rand _ _ _ EG _) HV') as (p & HP) end.
    rewrite HP. eexists. eexists. reflexivity.
Qed.
Lemma contest_total E c m d ext seed st dh :
  env_good gp K E -> Forall (fun s => 0 <= ps_vote s) (pc_selections c) ->
  Z.of_nat (List.length (pc_selections c)) < W64 ->
  NoDup (map sd_id (get_selections (cw_base d))) ->
  Z.of_nat (List.length (cw_placeholders d)) = cd_elected (cw_base d) -> cd_elected (cw_base d) < W64 ->
  pc_id c = cd_id (cw_base d) ->
  (List.length (pc_selections c) <= List.length (get_selections (cw_base d)))%nat ->
  (is_overvote (pcontest_valid c (cd_id (cw_base d)) (Z.of_nat (List.length (get_selections (cw_base d))))
      (cd_elected (cw_base d)) (cd_allowed (cw_base d)) true) = true \/
   forall x, In x (get_selections (cw_base d)) -> vote_for (pc_selections c) (sd_id x) <= 1) ->
  contest_hash gp sha (cw_base d) = Ok dh ->
  get_selections (cw_base d) ++ get_placeholders d <> [] ->
  (forall x, In x (get_selections (cw_base d) ++ get_placeholders d) ->
    nonzero_nonce (nonce_of gp sha dh (HElemQ seed) (cd_seq (cw_base d))) x) ->
  exists r st', encrypt_contest gp sha hmac dump E c m d K ext seed false st = Ok (r, st').
Proof.
  intros EG Hl HL ND HPH HE HI Hlen Hv Hdh Hne Hnz.
  (* run the parts; the final aggregation is total because the selections are *)
  unfold encrypt_contest. set (b := cw_base d) in *.
  set (check := pcontest_valid _ _ _ _ _ _) in *.
  assert (HC : check = SUCCESS \/ check = OVERVOTE).
  { unfold check. rewrite (pcontest_valid_eq _ _ _ _ _ _ HL), HI, bytes_eqb_refl. cbn [negb].
    destruct (Z.ltb_spec (Z.of_nat (List.length (get_selections b))) (Z.of_nat (List.length (pc_selections c)))) as [X|X];
      [exfalso; clear - X Hlen; lia|]. destruct (_ || _); auto. }
  assert (HMAIN : exists r st', (
      let! dh := lift (contest_hash gp sha b) in
      let ns := nonces_new gp sha dh (HElemQ seed) in
      let '(contest_nonce, ns1) := nonces_get gp sha ns (cd_seq b) in
      let proof_nonce := fst (nonces_next gp sha ns1) in
      let! data := lift (extended_data dump c m check) in
      let over := is_overvote check in
      let normalized := pc_selections (emplace_contest c d) in
      let! (reals, count) :=
        mfold (encrypt_real gp sha E normalized over K ext contest_nonce false) (get_selections b) 0 in
      let! (phs, count') :=
        mfold (encrypt_placeholder gp sha E over (cd_elected b) K ext contest_nonce false)
              (get_placeholders d) count in
      let! n1 := lift (clone_q gp contest_nonce) in
      let data_nonce := nonce_of gp sha n1 (HStr (s2b "constant-extended-data")) 0 in
      let! t1 := ask_tr E in
      let! hashed := lift (hashed_encrypt gp sha hmac t1 data data_nonce K ext BYTES_512 true) in
      let! n2 := lift (clone_q gp contest_nonce) in
      let! t2 := ask_tr E in
      let! r := lift (ccontest_make gp sha t2 (pc_id c) (cd_seq b) dh (reals ++ phs) K ext
                                    proof_nonce (cd_elected b) (Some n2) (Some hashed)) in
      ret r) st = Ok (r, st')).
  { rewrite Hdh. unfold mbind at 1, lift at 1. cbv zeta.
    destruct (extended_total dump c m check HD) as (data & HDT).
    set (cn := nonce_of gp sha dh (HElemQ seed) (cd_seq b)) in Hnz.
    destruct (nonces_get gp sha (nonces_new gp sha dh (HElemQ seed)) (cd_seq b)) as [cn' ns1] eqn:EN.
    assert (ECN : cn = cn') by (unfold cn, nonce_of; rewrite EN; reflexivity). subst cn'.
    unfold mbind at 1, lift at 1. rewrite HDT.
    rewrite (emplace_selections c d).
    fold b.
    destruct (mfold_total (fun x => In x (get_selections b))
      (encrypt_real gp sha E (map (emplaced (pc_selections c)) (get_selections b)) (is_overvote check) K ext cn false)
      (get_selections b)) with (c := 0) (st := st) as (reals & count & s1 & ER & LR).
    { apply Forall_forall. auto. }
    { intros k x s Hx. unfold encrypt_real. destruct (find_emplaced (pc_selections c) _ _ Hx) as (e & Fe & E1 & E2). rewrite Fe.
      assert (HN : nonzero_nonce cn x) by (apply Hnz, in_app_iff; now left).
      destruct (is_overvote check) eqn:EO.
      - destruct (selection_total E {| ps_id := ps_id e; ps_vote := 0; ps_placeholder := false; ps_writein := [] |}
          x ext cn false s EG E1 ltac:(discriminate) HN) as (y & s' & HY).
        unfold mbind. rewrite HY. eexists. eexists. eexists. reflexivity.
      - assert (HV1 : ps_vote e <= 1) by (rewrite E2; destruct Hv as [Hv|Hv]; [discriminate Hv|apply Hv, Hx]).
        destruct (selection_total E e x ext cn false s EG E1 HV1 HN) as (y & s' & HY).
        unfold mbind. rewrite HY. eexists. eexists. eexists. reflexivity. }
    unfold mbind at 1. rewrite ER.
    destruct (mfold_total (fun x => In x (get_placeholders d))
      (encrypt_placeholder gp sha E (is_overvote check) (cd_elected b) K ext cn false)
      (get_placeholders d)) with (c := count) (st := s1) as (phs & count' & s2 & EP & LP).
    { apply Forall_forall. auto. }
    { intros k x s Hx. unfold encrypt_placeholder.
      assert (HN : nonzero_nonce cn x) by (apply Hnz, in_app_iff; now right).
      destruct (selection_total E (selection_from x true (is_overvote check || (k <? cd_elected b))) x ext cn true s EG eq_refl) as (y & s' & HY);
        [cbn [selection_from ps_vote]; destruct (_ || _); discriminate|exact HN|].
      unfold mbind. rewrite HY. eexists. eexists. eexists. reflexivity. }
    unfold mbind at 1. rewrite EP.
    pose proof (nonce_of_range gp V sha dh (HElemQ seed) (cd_seq b)) as HR. fold cn in HR.
    rewrite (clone_q_id gp cn HR). unfold mbind at 1, lift at 1.
    unfold mbind at 1, ask_tr at 1. unfold mbind at 1, lift at 1.
    assert (HH : exists hc, hashed_encrypt gp sha hmac (e_tr E (n_tr s2)) data
       (nonce_of gp sha cn (HStr (s2b "constant-extended-data")) 0) K ext BYTES_512 true = Ok hc).
    { pose proof (C22_encrypt_total gp sha hmac (e_tr E (n_tr s2)) data
        (nonce_of gp sha cn (HStr (s2b "constant-extended-data")) 0) K ext BYTES_512 true (or_intror eq_refl)) as T.
      cbn [orb] in T. change (BYTES_512 =? 0) with false in T. cbv iota in T.
      destruct (hashed_encrypt _ _ _ _ _ _ _ _ _ _) as [hc| |]; [eauto|discriminate|discriminate]. }
    destruct HH as (hc & HH). rewrite HH.
    unfold mbind at 1, lift at 1. unfold mbind at 1, ask_tr at 1. unfold mbind at 1, lift at 1.
    assert (FH : exists vs, Forall2 (selection_holds gp K) (reals ++ phs) vs /\ Forall (fun v => 0 <= v) vs).
    { destruct (reals_spec gp V sha K HK E (pc_selections c) (get_selections b) (is_overvote check) ext cn false EG Hl
        (get_selections b) 0 st reals count s1 (fun x Hx => Hx) ER) as [FR HCN].
      pose proof W64_pos as HW. specialize (HCN (conj (Z.le_refl 0) HW)).
      assert (HCR : 0 <= count < W64) by (rewrite HCN; apply Z.mod_pos_bound, HW).
      assert (HE0 : 0 <= cd_elected b) by (rewrite <- HPH; apply Nat2Z.is_nonneg).
      destruct (placeholders_spec gp V sha K HK E (is_overvote check) (cd_elected b) ext cn false EG (conj HE0 HE)
        (get_placeholders d) count s1 phs count' s2 HCR EP) as (pvs & FP & LPV & _).
      apply (reals_holds gp sha K ext false) in FR. destruct FR as [FR1 FR2].
      apply (Forall2_combine_holds gp sha K ext false _ _ _ LPV) in FP. destruct FP as [FP1 FP2].
      eexists. split; [apply Forall2_app; [exact FR1|exact FP1]|]. apply Forall_app. split; [|exact FP2].
      eapply Forall_impl; [|exact FR2]. intros v [-> | ->]; discriminate. }
    destruct FH as (vs & FH & FV).
    assert (HNE : reals ++ phs <> []).
    { intros X. apply Hne. apply (f_equal (@List.length _)) in X. rewrite app_length, LR, LP, <- app_length in X.
      destruct (get_selections b ++ get_placeholders d); [reflexivity|discriminate]. }
    destruct (accumulate_holds gp V K HK _ _ HNE FH FV) as (HA & HG & _).
    assert (HMK : exists r, ccontest_make gp sha (e_tr E (S (n_tr s2))) (pc_id c) (cd_seq b) dh (reals ++ phs) K ext
      (fst (nonces_next gp sha ns1)) (cd_elected b) (Some cn) (Some hc) = Ok r).
    { unfold ccontest_make. rewrite HA, HG. unfold ccontest_hash.
      assert (HS : sort_by cs_seq (reals ++ phs) <> []).
      { intros X. apply HNE. apply (f_equal (@List.length _)) in X. rewrite sort_length in X.
        destruct (reals ++ phs); [reflexivity|discriminate]. }
      destruct (sort_by cs_seq (reals ++ phs)); [congruence|]. cbn [bind]. unfold cproof_make.
      pose proof (vp_Qhi _ V) as HQ.
      destruct (e_tr E (S (n_tr s2))) as [t|] eqn:ET.
      - destruct (eg_tr _ _ _ EG _ _ ET) as (T1 & _).
        rewrite (a_plus_bc_mod_q_correct gp V) by (clear - T1 HQ; lia). cbn [bind]. eexists. reflexivity.
      - assert (R : 0 <= cnonce gp sha (fst (nonces_next gp sha ns1)) < Q) by (apply hash_elems_range; exact V).
        rewrite (a_plus_bc_mod_q_correct gp V) by (clear - R HQ; lia). cbn [bind]. eexists. reflexivity. }
    destruct HMK as (r & HMK). cbn [n_tr]. rewrite HMK. eexists. eexists. reflexivity. }
  destruct HC as [HC|HC]; rewrite HC in *; exact HMAIN.
Qed.

(** Conditions under which a ballot can be encrypted: the style is known, has a
    unit and at least one contest; no contest is empty; the voter's votes are 0 or
    1 in every contest that is not overvoted with a total below 2^64; and no derived nonce is zero. *)
Record encryptable (b : pballot) (m : internal_manifest) (seed : Z) (ds : list contest_ph) : Prop := {
  en_style : contests_for m (pb_style b) = Ok ds;
  en_some : ds <> [];
  en_votes : forall d, In d ds ->
    (over_limit (votes_of (voted b d) d) (cd_elected (cw_base d)) (cd_allowed (cw_base d)) /\
     zsum (votes_of (voted b d) d) < W64) \/
    forall x, In x (get_selections (cw_base d)) -> ballot_vote b (cd_id (cw_base d)) (sd_id x) <= 1;
  en_hash : forall d, In d ds -> exists dh, contest_hash gp sha (cw_base d) = Ok dh /\
    get_selections (cw_base d) ++ get_placeholders d <> [] /\
    forall x, In x (get_selections (cw_base d) ++ get_placeholders d) ->
      nonzero_nonce (nonce_of gp sha dh (HElemQ seed) (cd_seq (cw_base d))) x }.
Lemma ballot_total E b m cx code_seed n ts st ds :
  el_pk cx = K -> manifest_ready m -> votes_unsigned b -> env_good gp K E ->
  encryptable b m (nonce_seed gp sha (im_hash m) (pb_id b) n) ds ->
  exists r st', encrypt_ballot gp sha hmac dump E b m cx code_seed (Some n) ts false st = Ok (r, st').
Proof.
  intros HP MR HV EG [H1 H2 H3 H4]. unfold encrypt_ballot.
  destruct (contests_for_style _ _ _ H1) as (style & ES). rewrite ES.
  unfold mbind at 1, ret at 1. set (seed := nonce_seed gp sha (im_hash m) (pb_id b) n) in *.
  assert (HC : exists cs s1, encrypt_contests gp sha hmac dump E b m cx seed false st = Ok (cs, s1) /\ List.length cs = List.length ds).
  { unfold encrypt_contests. rewrite ES. rewrite (get_style_id _ _ _ ES).
    assert (HN : exists nb, emplace_ballot b m = Ok nb /\ pb_contests nb = map (emplaced_contest (pb_contests b)) ds).
    { unfold emplace_ballot. rewrite ES, (get_style_id _ _ _ ES), H1. cbn [bind]. eexists. split; [reflexivity|]. reflexivity. }
    destruct HN as (nb & HN & HNC). rewrite HN, H1. unfold mbind at 1, lift at 1. unfold mbind at 1, lift at 1.
    assert (HA : forall l, (forall d, In d l -> In d ds) -> forall st, exists cs s1,
      mmap (fun d => match find (fun c => bytes_eqb (pc_id c) (cd_id (cw_base d))) (pb_contests nb) with
        | None => lift (Throw RuntimeError)
        | Some c => encrypt_contest gp sha hmac dump E c m d (el_pk cx) (el_ext cx) seed false
        end) l st = Ok (cs, s1) /\ List.length cs = List.length l).
    { induction l as [|d l IH]; intros HI s0; cbn [mmap]; [exists [], s0; split; reflexivity|].
      assert (HD' : In d ds) by (apply HI; now left).
      rewrite HNC, (emplaced_find (pb_contests b) ds); [| |exact HD'].
      2:{ intros x y Hx Hy. apply (mr_ids _ MR); eapply contests_for_in; eassumption. }
      pose proof (contests_for_in _ _ _ _ H1 HD') as HM.
      destruct (H4 d HD') as (dh & A1 & A2 & A3).
      destruct (emplaced_contest_spec (pb_contests b) d) as [ID ESS].
      rewrite HP.
      destruct (contest_total E (emplaced_contest (pb_contests b) d) m d (el_ext cx) seed s0 dh EG) as (r & s1 & HR).
      - rewrite ESS. apply emplaced_unsigned, entries_unsigned, HV.
      - rewrite ESS, map_length. unfold get_selections. rewrite sort_length. apply (mr_sizes _ MR), HM.
      - apply nodup_sorted, (mr_selections _ MR), HM.
      - apply (mr_placeholders _ MR), HM.
      - apply (mr_elected _ MR), HM.
      - exact ID.
      - rewrite ESS, map_length. apply le_n.
      - destruct (H3 d HD') as [OV|OV]; [left|right].
        + rewrite pcontest_valid_eq.
          2:{ rewrite ESS, map_length. unfold get_selections. rewrite sort_length. apply (mr_sizes _ MR), HM. }
          rewrite ID, bytes_eqb_refl, ESS, map_length, Z.ltb_irrefl. cbn [negb].
          match goal with |- is_overvote (if ?u || ?v then _ else _) = true => assert (O : u || v = true) end; [|rewrite O; reflexivity].
          destruct OV as [OV OT]. rewrite marked_filter, total_sum, votes_emplaced.
          change (map (fun d0 => vote_for (contest_entries (pb_contests b) (cd_id (cw_base d))) (sd_id d0)) (get_selections (cw_base d)))
            with (votes_of (voted b d) d).
          rewrite Z.mod_small; [rewrite orb_true_iff, !Z.ltb_lt; exact OV|]. split; [|exact OT].
          unfold votes_of. apply zsum_nonneg0. apply Forall_map, Forall_forall. intros y _.
          apply vote_for_nonneg, entries_unsigned, HV.
        + intros x Hx. rewrite ESS, vote_for_emplaced by exact Hx. apply OV, Hx.
      - exact A1.
      - exact A2.
      - exact A3.
      - unfold mbind at 1. rewrite HR. destruct (IH (fun x Hx => HI x (or_intror Hx)) s1) as (cs & s2 & HCS & HL).
        rewrite HNC, HP in HCS. unfold mbind at 1. rewrite HCS. eexists. eexists. split; [reflexivity|].
        cbn [List.length]. congruence. }
    apply HA. auto. }
  destruct HC as (cs & s1 & HCS & HL). unfold mbind at 1. rewrite HCS.
  assert (HT : exists t s2, (if ts =? 0 then ask_clock E else ret ts) s1 = Ok (t, s2)).
  { destruct (ts =? 0); eexists; eexists; reflexivity. }
  destruct HT as (t & s2 & HT). unfold mbind at 1. rewrite HT.
  assert (HW : exists now s3, (if t =? 0 then ask_clock E else ret 0) s2 = Ok (now, s3)).
  { destruct (t =? 0); eexists; eexists; reflexivity. }
  destruct HW as (now & s3 & HW). unfold mbind at 1. rewrite HW.
  unfold cballot_make, cballot_hash. destruct cs as [|c0 cs].
  { destruct ds; [congruence|discriminate]. }
  cbn [bind]. unfold mbind at 1, lift at 1. cbn [negb]. eexists. eexists. reflexivity.
Qed.
End Total.
