(** Reproducing ballots: runs with the same nonce, the verification flag, compact
    ballots and the chain of ballot codes. *)
From Coq Require Import Permutation Psatz String.
From Verif Require Import Base GroupModel GroupSpec GroupProofs CodecModel HashModel Algebra
  ElgamalModel ElgamalSpec ElgamalProofs ChaumModel ChaumProofs TallyProofs HashedProofs
  SortModel SortProofs ManifestModel ManifestSpec ManifestProofs BallotModel JsonModel EncryptModel
  PropElgamal PropChaum PropManifest EncryptSpec EncryptProofs BallotProofs BallotProofs2.
Open Scope list_scope.
Open Scope Z_scope.
Ltac Zify.zify_post_hook ::= idtac.

(** ** Simulation of one run by another *)
Definition sim {A} (R : A -> A -> Prop) (f g : M A) : Prop :=
  forall st1 st2 x s1, f st1 = Ok (x, s1) -> exists y s2, g st2 = Ok (y, s2) /\ R x y.
Lemma sim_bind {A B} (R : A -> A -> Prop) (R' : B -> B -> Prop) f g k k' :
  sim R f g -> (forall a b, R a b -> sim R' (k a) (k' b)) -> sim R' (mbind f k) (mbind g k').
Proof.
  intros H1 H2 st1 st2 x s1 H. apply mbind_ok in H. destruct H as (a & s & Ha & H).
  destruct (H1 _ st2 _ _ Ha) as (b & s' & Hb & HR). unfold mbind. rewrite Hb. eapply H2; eassumption.
Qed.
Lemma sim_ret {A} (R : A -> A -> Prop) a b : R a b -> sim R (ret a) (ret b).
Proof. intros H st1 st2 x s1 E. apply ret_ok in E. destruct E as [-> _]. exists b, st2. auto. Qed.
Lemma sim_lift {A} (R : A -> A -> Prop) o o' : (forall x, o = Ok x -> exists y, o' = Ok y /\ R x y) ->
  sim R (lift o) (lift o').
Proof.
  intros H st1 st2 x s1 E. apply lift_ok in E. destruct E as [E _].
  destruct (H x E) as (y & E' & HR). exists y, st2. unfold lift. rewrite E'. auto.
Qed.
Lemma sim_lift_eq {A} (o : outcome A) : sim eq (lift o) (lift o).
Proof. apply sim_lift. intros x H. exists x. auto. Qed.
Lemma sim_mfold {A B C} (R : B -> B -> Prop) (f g : C -> A -> M (B * C)) l :
  (forall c a, sim (fun x y => R (fst x) (fst y) /\ snd x = snd y) (f c a) (g c a)) ->
  forall c, sim (fun x y => Forall2 R (fst x) (fst y) /\ snd x = snd y) (mfold f l c) (mfold g l c).
Proof.
  intros H. induction l as [|a l IH]; intros c; cbn [mfold].
  - apply sim_ret. cbn [fst snd]. split; [constructor|reflexivity].
  - eapply sim_bind; [apply H|]. intros [x c1] [x' c1'] [H1 H2]. cbn [fst snd] in H1, H2. subst c1'.
    eapply sim_bind; [apply IH|]. intros [xs c2] [xs' c2'] [H3 H4]. cbn [fst snd] in H3, H4. subst c2'.
    apply sim_ret. cbn [fst snd]. split; [constructor; assumption|reflexivity].
Qed.
Lemma sim_mmap {A B} (R : B -> B -> Prop) (f g : A -> M B) l : (forall a, sim R (f a) (g a)) ->
  sim (Forall2 R) (mmap f l) (mmap g l).
Proof.
  intros H. induction l as [|a l IH]; cbn [mmap]; [apply sim_ret; constructor|].
  eapply sim_bind; [apply H|]. intros x x' H1. eapply sim_bind; [apply IH|]. intros xs xs' H2.
  apply sim_ret. now constructor.
Qed.

Definition same_sel (c c' : cselection) : Prop := strip_selection c = strip_selection c'.
Definition same_con (c c' : ccontest) : Prop := strip_contest c = strip_contest c'.
Definition same_bal (b b' : cballot) : Prop := strip_ballot b = strip_ballot b'.
Lemma Forall2_strip {A B} (f : A -> B) l l' : Forall2 (fun x y => f x = f y) l l' <-> map f l = map f l'.
Proof.
  split.
  - induction 1 as [|x y l l' H _ IH]; cbn [map]; congruence.
  - revert l'. induction l as [|x l IH]; intros [|y l'] H; try discriminate; [constructor|].
    cbn [map] in H. injection H as H1 H2. constructor; [exact H1|apply IH, H2].
Qed.

Section Rep.
Context (gp : params) (V : valid_params gp) (sha : bytes -> Z) (hmac : bytes -> bytes -> Z)
        (dump : json -> outcome bytes).
Notation Q := (gpQ gp).

Lemma contest_hash_strip id l d : ccontest_hash gp sha id (map strip_selection l) d = ccontest_hash gp sha id l d.
Proof. unfold ccontest_hash. destruct l as [|x l]; [reflexivity|]. cbn [map]. rewrite map_map. reflexivity. Qed.
Lemma accumulate_strip l : accumulate gp (map strip_selection l) = accumulate gp l.
Proof. unfold accumulate. rewrite map_map. reflexivity. Qed.
Lemma aggregate_strip l : aggregate_nonce gp (map strip_selection l) = aggregate_nonce gp l.
Proof.
  unfold aggregate_nonce. f_equal. induction l as [|x l IH]; [reflexivity|]. cbn [map mapM]. rewrite IH. reflexivity.
Qed.
Lemma sorted_strip l : sort_by cs_seq (map strip_selection l) = map strip_selection (sort_by cs_seq l).
Proof. apply sort_by_map. reflexivity. Qed.

Lemma contest_make_sim pre id seq desc l l' pk ext ps n nonce h c :
  Forall2 same_sel l l' -> ccontest_make gp sha pre id seq desc l pk ext ps n nonce h = Ok c ->
  exists c', ccontest_make gp sha pre id seq desc l' pk ext ps n nonce h = Ok c' /\ same_con c c'.
Proof.
  intros HS. apply Forall2_strip in HS. unfold ccontest_make.
  rewrite <- (contest_hash_strip id (sort_by cs_seq l)), <- (contest_hash_strip id (sort_by cs_seq l')).
  rewrite <- (accumulate_strip (sort_by cs_seq l)), <- (accumulate_strip (sort_by cs_seq l')).
  rewrite <- (aggregate_strip (sort_by cs_seq l)), <- (aggregate_strip (sort_by cs_seq l')).
  rewrite <- !sorted_strip, HS. set (refs := sort_by cs_seq (map strip_selection l')). clearbody refs.
  destruct (ccontest_hash gp sha id refs desc) as [hh| |]; cbn [bind]; try discriminate.
  destruct (accumulate gp refs) as [acc| |]; cbn [bind]; try discriminate.
  destruct (aggregate_nonce gp refs) as [agg| |]; cbn [bind]; try discriminate.
  destruct (cproof_make gp sha pre acc agg pk ps ext n) as [p| |]; cbn [bind]; try discriminate.
  intros H. apply Ok_inj in H. subst c. eexists. split; [reflexivity|].
  unfold same_con, strip_contest. cbn [cc_id cc_seq cc_desc cc_selections cc_nonce cc_acc cc_hash cc_proof cc_hashed].
  rewrite HS. reflexivity.
Qed.

Definition rand_good (E : env) : Prop := forall n, 0 <= e_rand E n < Q.

Lemma make_rand_total m r k q v u1 u2 u3 : 0 <= u1 < Q -> 0 <= u2 < Q -> (1 <? v) = false ->
  exists p, dproof_make_rand gp sha m r k q v u1 u2 u3 = Ok p.
Proof.
  intros H1 H2 HV. unfold dproof_make_rand. rewrite HV. pose proof (vp_Qhi _ V) as HQ.
  assert (B1 : 0 <= u1 < W256) by (clear - H1 HQ; lia). assert (B2 : 0 <= u2 < W256) by (clear - H2 HQ; lia).
  destruct (v =? 1); unfold make_one_rand, make_zero_rand;
    rewrite !(a_plus_bc_mod_q_correct gp V) by assumption; cbn [bind]; eexists; reflexivity.
Qed.

Lemma selection_sim E E' s d pk ext seed ph : env_empty E -> env_empty E' -> rand_good E' ->
  sim same_sel (encrypt_selection gp sha E s d pk ext seed ph false)
               (encrypt_selection gp sha E' s d pk ext seed ph false).
Proof.
  intros [HE _] [HE' _] HR. unfold encrypt_selection.
  destruct (pselection_valid s (sd_id d)) eqn:PV; cbn [negb]; [|apply sim_lift; discriminate].
  assert (HV : (1 <? ps_vote s) = false).
  { unfold pselection_valid in PV. destruct (bytes_eqb (ps_id s) (sd_id d)); [|discriminate].
    cbn [negb] in PV. destruct (1 <? ps_vote s); [discriminate|reflexivity]. }
  apply sim_bind with (R := fun a b => a = None /\ b = None).
  { intros st1 st2 x s1 H. unfold ask_tq in *. apply pair_ok in H. destruct H as [H _]. rewrite HE in H. subst x.
    eexists. eexists. split; [reflexivity|]. split; [reflexivity|apply HE']. }
  intros a b [-> ->].
  apply sim_bind with (R := same_sel); [|intros c c' H; apply sim_ret, H].
  apply sim_bind with (R := eq); [apply sim_lift_eq|]. intros ct ct' <-.
  intros st1 st2 x s1 H.
  apply mbind_ok in H. destruct H as (u & t1 & _ & H).
  apply mbind_ok in H. destruct H as (v & t2 & _ & H).
  apply mbind_ok in H. destruct H as (w & t3 & _ & H).
  apply mbind_ok in H. destruct H as (p & t4 & _ & H).
  apply ret_ok in H. destruct H as [-> _].
  unfold mbind, draw. cbn [n_rand].
  match goal with |- context [dproof_make_rand _ _ ?m ?r ?k ?q ?v ?u1 ?u2 ?u3] =>
    destruct (make_rand_total m r k q v u1 u2 u3 (HR _) (HR _) HV) as (p' & HP) end.
  unfold lift. rewrite HP. eexists. eexists. split; [reflexivity|]. reflexivity.
Qed.

Lemma contest_sim E E' c m d pk ext seed : env_empty E -> env_empty E' -> rand_good E' ->
  sim same_con (encrypt_contest gp sha hmac dump E c m d pk ext seed false)
               (encrypt_contest gp sha hmac dump E' c m d pk ext seed false).
Proof.
  intros HE HE' HR. unfold encrypt_contest.
  assert (S1 : forall norm over seed l k,
    sim (fun x y => Forall2 same_sel (fst x) (fst y) /\ snd x = snd y)
        (mfold (encrypt_real gp sha E norm over pk ext seed false) l k)
        (mfold (encrypt_real gp sha E' norm over pk ext seed false) l k)).
  { intros. apply sim_mfold. intros k1 a. unfold encrypt_real. destruct (find _ norm) as [s|]; [|apply sim_lift; discriminate].
    eapply sim_bind; [apply selection_sim; assumption|]. intros x x' Hx. apply sim_ret. cbn [fst snd]. auto. }
  assert (S2 : forall over n seed l k,
    sim (fun x y => Forall2 same_sel (fst x) (fst y) /\ snd x = snd y)
        (mfold (encrypt_placeholder gp sha E over n pk ext seed false) l k)
        (mfold (encrypt_placeholder gp sha E' over n pk ext seed false) l k)).
  { intros. apply sim_mfold. intros k1 a. unfold encrypt_placeholder.
    eapply sim_bind; [apply selection_sim; assumption|]. intros x x' Hx. apply sim_ret. cbn [fst snd]. auto. }
  assert (S3 : sim (fun a b => a = None /\ b = None) (ask_tr E) (ask_tr E')).
  { intros st1 st2 x s1 H. unfold ask_tr in *. apply pair_ok in H. destruct H as [H _].
    rewrite (proj2 HE) in H. subst x. eexists. eexists. split; [reflexivity|]. split; [reflexivity|apply (proj2 HE')]. }
  destruct (pcontest_valid _ _ _ _ _ _); try (apply sim_lift; discriminate);
  (eapply sim_bind; [apply sim_lift_eq|]; intros dh ? <-; destruct (nonces_get _ _ _ _) as [cn ns1];
   eapply sim_bind; [apply sim_lift_eq|]; intros data ? <-;
   eapply sim_bind; [apply S1|]; intros [reals count] [reals' count'] [F1 EC]; cbn [fst snd] in F1, EC; subst count';
   eapply sim_bind; [apply S2|]; intros [phs c2] [phs' c2'] [F2 EC]; cbn [fst snd] in F2, EC; subst c2';
   eapply sim_bind; [apply sim_lift_eq|]; intros n1 ? <-;
   eapply sim_bind; [apply S3|]; intros t1 t1' [-> ->];
   eapply sim_bind; [apply sim_lift_eq|]; intros hh ? <-;
   eapply sim_bind; [apply sim_lift_eq|]; intros n2 ? <-;
   eapply sim_bind; [apply S3|]; intros t2 t2' [-> ->];
   eapply sim_bind with (R := same_con);
     [apply sim_lift; intros x Hx; eapply contest_make_sim; [|exact Hx]; apply Forall2_app; assumption|];
   intros r r' HRR; cbn [negb]; apply sim_ret, HRR).
Qed.

Lemma ballot_hash_strip id l l' man : Forall2 same_con l l' ->
  cballot_hash gp sha id l man = cballot_hash gp sha id l' man.
Proof.
  intros H. assert (E : map cc_hash l = map cc_hash l').
  { induction H as [|x y l l' H _ IH]; cbn [map]; [reflexivity|]. f_equal; [|exact IH].
    apply (f_equal cc_hash) in H. exact H. }
  unfold cballot_hash. destruct l as [|x l], l' as [|x' l']; try (inversion H; fail); [reflexivity|].
  cbn [map] in E |- *. injection E as E1 E2. rewrite E1.
  do 3 f_equal. f_equal. rewrite <- (map_map cc_hash (fun h => HElemQ h) l), <- (map_map cc_hash (fun h => HElemQ h) l'), E2.
  reflexivity.
Qed.

(** Two runs with the same nonce and time and without precomputed values. *)
Lemma ballot_sim E E' b m cx code_seed n ts :
  env_empty E -> env_empty E' -> rand_good E' -> ts <> 0 ->
  sim same_bal (encrypt_ballot gp sha hmac dump E b m cx code_seed (Some n) ts false)
               (encrypt_ballot gp sha hmac dump E' b m cx code_seed (Some n) ts false).
Proof.
  intros HE HE' HR HT. apply Z.eqb_neq in HT. unfold encrypt_ballot. rewrite HT.
  destruct (get_style m (pb_style b)); [|apply sim_lift; discriminate].
  eapply sim_bind with (R := eq); [now apply sim_ret|]. intros k ? <-.
  eapply sim_bind with (R := Forall2 same_con).
  { unfold encrypt_contests. destruct (get_style m (pb_style b)); [|apply sim_lift; discriminate].
    eapply sim_bind; [apply sim_lift_eq|]. intros nb ? <-. eapply sim_bind; [apply sim_lift_eq|]. intros ds ? <-.
    apply sim_mmap. intros d. destruct (find _ _); [apply contest_sim; assumption|apply sim_lift; discriminate]. }
  intros cs cs' HF.
  eapply sim_bind with (R := fun a b => a = ts /\ b = ts); [now apply sim_ret|]. intros t t' [-> ->]. rewrite HT.
  eapply sim_bind with (R := eq); [now apply sim_ret|]. intros now ? <-.
  eapply sim_bind with (R := same_bal); [|intros r r' HRR; cbn [negb]; apply sim_ret, HRR].
  apply sim_lift. intros x. unfold cballot_make. rewrite (ballot_hash_strip _ _ _ _ HF).
  destruct cs as [|c0 cs], cs' as [|c0' cs']; try (inversion HF; fail); [discriminate|].
  destruct (cballot_hash gp sha (pb_id b) (c0' :: cs') (im_hash m)) as [h| |]; cbn [bind]; try discriminate.
  intros H. apply Ok_inj in H. subst x. eexists. split; [reflexivity|].
  unfold same_bal, strip_ballot.
  cbn [cb_id cb_style cb_manifest cb_seed cb_contests cb_code cb_timestamp cb_nonce cb_hash].
  apply (Forall2_strip strip_contest) in HF. rewrite HF. reflexivity.
Qed.

(** ** The verification flag: accepted when every check is *)
Definition sup_ok {A} (P : A -> Prop) (f g : M A) : Prop :=
  forall st x s, g st = Ok (x, s) -> P x -> f st = Ok (x, s).
Definition sel_fine (pk ext : Z) (c : cselection) : Prop := cselection_valid gp sha c (cs_desc c) pk ext = true.
Definition con_fine (pk ext : Z) (c : ccontest) : Prop :=
  Forall (sel_fine pk ext) (cc_selections c) /\ ccontest_valid gp sha c (cc_desc c) pk ext = Ok true.

Lemma sup_mfold {A B C} (P : B -> Prop) (f g : C -> A -> M (B * C)) l :
  (forall c a, sup_ok (fun x => P (fst x)) (f c a) (g c a)) ->
  forall c, sup_ok (fun x => Forall P (fst x)) (mfold f l c) (mfold g l c).
Proof.
  intros H. induction l as [|a l IH]; intros c st x s; cbn [mfold]; intros E HP; [exact E|].
  apply mbind_ok in E. destruct E as ([y c1] & s1 & E1 & E).
  apply mbind_ok in E. destruct E as ([ys c2] & s2 & E2 & E). apply ret_ok in E. destruct E as [-> ->].
  cbn [fst] in HP. inversion HP as [|? ? P1 P2]; subst.
  unfold mbind. rewrite (H c a st _ _ E1 P1). rewrite (IH c1 s1 _ _ E2 P2). reflexivity.
Qed.
Lemma sup_mmap {A B} (P : B -> Prop) (f g : A -> M B) l :
  (forall a, sup_ok P (f a) (g a)) -> sup_ok (Forall P) (mmap f l) (mmap g l).
Proof.
  intros H. induction l as [|a l IH]; intros st x s; cbn [mmap]; intros E HP; [exact E|].
  apply mbind_ok in E. destruct E as (y & s1 & E1 & E).
  apply mbind_ok in E. destruct E as (ys & s2 & E2 & E). apply ret_ok in E. destruct E as [-> ->].
  inversion HP as [|? ? P1 P2]; subst.
  unfold mbind. rewrite (H a st _ _ E1 P1). rewrite (IH s1 _ _ E2 P2). reflexivity.
Qed.
Lemma sup_selection E s d pk ext seed ph : sup_ok (sel_fine pk ext)
  (encrypt_selection gp sha E s d pk ext seed ph true) (encrypt_selection gp sha E s d pk ext seed ph false).
Proof.
  intros st x s'. unfold encrypt_selection. destruct (negb (pselection_valid s (sd_id d))); [discriminate|].
  cbn [negb]. intros H HP.
  apply mbind_ok in H. destruct H as (tq & s1 & H1 & H).
  apply mbind_ok in H. destruct H as (c & s2 & H2 & H). apply ret_ok in H. destruct H as [-> ->].
  assert (HD : cs_desc c = selection_hash gp sha d).
  { destruct tq as [t|].
    - apply mbind_ok in H2. destruct H2 as (p & s3 & _ & H2). apply ret_ok in H2. destruct H2 as [-> _]. reflexivity.
    - apply mbind_ok in H2. destruct H2 as (ct & s3 & _ & H2).
      apply mbind_ok in H2. destruct H2 as (u & s4 & _ & H2).
      apply mbind_ok in H2. destruct H2 as (v & s5 & _ & H2).
      apply mbind_ok in H2. destruct H2 as (w & s6 & _ & H2).
      apply mbind_ok in H2. destruct H2 as (p & s7 & _ & H2). apply ret_ok in H2. destruct H2 as [-> _]. reflexivity. }
  unfold mbind at 1. rewrite H1. unfold mbind at 1. rewrite H2.
  unfold sel_fine in HP. rewrite HD in HP. rewrite HP. reflexivity.
Qed.
Lemma make_fields pre id seq desc l pk ext ps n nonce h c :
  ccontest_make gp sha pre id seq desc l pk ext ps n nonce h = Ok c ->
  cc_selections c = l /\ cc_desc c = desc.
Proof.
  unfold ccontest_make. intros H.
  apply bind_ok in H. destruct H as (hh & _ & H). apply bind_ok in H. destruct H as (acc & _ & H).
  apply bind_ok in H. destruct H as (agg & _ & H). apply bind_ok in H. destruct H as (p & _ & H).
  apply Ok_inj in H. subst c. split; reflexivity.
Qed.
Lemma sup_contest E c m d pk ext seed : sup_ok (con_fine pk ext)
  (encrypt_contest gp sha hmac dump E c m d pk ext seed true)
  (encrypt_contest gp sha hmac dump E c m d pk ext seed false).
Proof.
  intros st x s'. unfold encrypt_contest.
  assert (S1 : forall norm over seed l k,
    sup_ok (fun x => Forall (sel_fine pk ext) (fst x))
        (mfold (encrypt_real gp sha E norm over pk ext seed true) l k)
        (mfold (encrypt_real gp sha E norm over pk ext seed false) l k)).
  { intros. apply sup_mfold. intros k1 a. unfold encrypt_real. destruct (find _ norm) as [q|]; [|intros ? ? ? X; discriminate].
    intros t1 y t2 H HP. apply mbind_ok in H. destruct H as (z & t3 & H1 & H). apply ret_ok in H. destruct H as [-> ->].
    unfold mbind. rewrite (sup_selection _ _ _ _ _ _ _ _ _ _ H1 HP). reflexivity. }
  assert (S2 : forall over n seed l k,
    sup_ok (fun x => Forall (sel_fine pk ext) (fst x))
        (mfold (encrypt_placeholder gp sha E over n pk ext seed true) l k)
        (mfold (encrypt_placeholder gp sha E over n pk ext seed false) l k)).
  { intros. apply sup_mfold. intros k1 a. unfold encrypt_placeholder.
    intros t1 y t2 H HP. apply mbind_ok in H. destruct H as (z & t3 & H1 & H). apply ret_ok in H. destruct H as [-> ->].
    unfold mbind. rewrite (sup_selection _ _ _ _ _ _ _ _ _ _ H1 HP). reflexivity. }
  destruct (pcontest_valid _ _ _ _ _ _); try discriminate;
  (intros H HP;
   apply mbind_ok in H; destruct H as (dh & s1 & H1 & H);
   unfold mbind at 1; rewrite H1; cbv beta zeta; cbv beta zeta in H; revert H;
   destruct (nonces_get _ _ _ _) as [cn ns1]; intros H;
   apply mbind_ok in H; destruct H as (data & s2 & H2 & H);
   apply mbind_ok in H; destruct H as ([reals count] & s3 & H3 & H);
   apply mbind_ok in H; destruct H as ([phs count'] & s4 & H4 & H);
   apply mbind_ok in H; destruct H as (n1 & s5 & H5 & H);
   apply mbind_ok in H; destruct H as (t1 & s6 & H6 & H);
   apply mbind_ok in H; destruct H as (hh & s7 & H7 & H);
   apply mbind_ok in H; destruct H as (n2 & s8 & H8 & H);
   apply mbind_ok in H; destruct H as (t2 & s9 & H9 & H);
   apply mbind_ok in H; destruct H as (r & s10 & H10 & H);
   cbn [negb] in H; apply ret_ok in H; destruct H as [-> ->];
   destruct HP as [HP1 HP2];
   pose proof H10 as HM; apply lift_ok in HM; destruct HM as [HM _]; apply make_fields in HM; destruct HM as [HM1 HM2];
   rewrite HM1 in HP1; apply Forall_app in HP1; destruct HP1 as [HPr HPp];
   unfold mbind at 1; rewrite H2;
   unfold mbind at 1; rewrite (S1 _ _ _ _ _ _ _ _ H3 HPr);
   unfold mbind at 1; rewrite (S2 _ _ _ _ _ _ _ _ H4 HPp);
   unfold mbind at 1; rewrite H5; unfold mbind at 1; rewrite H6; unfold mbind at 1; rewrite H7;
   unfold mbind at 1; rewrite H8; unfold mbind at 1; rewrite H9; unfold mbind at 1; rewrite H10;
   cbn [negb]; rewrite <- HM2, HP2; reflexivity).
Qed.
Lemma make_contests now id style man l nonce ts seed code r :
  cballot_make gp sha now id style man l nonce ts seed code = Ok r -> cb_contests r = l.
Proof.
  unfold cballot_make. destruct l as [|c l]; [discriminate|]. intros H.
  apply bind_ok in H. destruct H as (h & _ & H). apply Ok_inj in H. subst r. reflexivity.
Qed.
Lemma sup_ballot E b m cx code_seed nonce ts :
  sup_ok (fun r => Forall (con_fine (el_pk cx) (el_ext cx)) (cb_contests r) /\
                   cballot_valid gp sha r (im_hash m) (el_pk cx) (el_ext cx) = Ok true)
         (encrypt_ballot gp sha hmac dump E b m cx code_seed nonce ts true)
         (encrypt_ballot gp sha hmac dump E b m cx code_seed nonce ts false).
Proof.
  intros st x s'. unfold encrypt_ballot. destruct (get_style m (pb_style b)) eqn:ES; [|discriminate].
  cbn [negb]. intros H [HP1 HP2].
  apply mbind_ok in H. destruct H as (n & s1 & H1 & H).
  apply mbind_ok in H. destruct H as (cs & s2 & H2 & H).
  apply mbind_ok in H. destruct H as (t & s3 & H3 & H).
  apply mbind_ok in H. destruct H as (now & s4 & H4 & H).
  apply mbind_ok in H. destruct H as (r & s5 & H5 & H). apply ret_ok in H. destruct H as [-> ->].
  pose proof H5 as HM. apply lift_ok in HM. destruct HM as [HM _]. apply make_contests in HM. rewrite HM in HP1.
  unfold mbind at 1. rewrite H1. unfold mbind at 1.
  assert (H2' : encrypt_contests gp sha hmac dump E b m cx (nonce_seed gp sha (im_hash m) (pb_id b) n) true s1 = Ok (cs, s2)).
  { revert H2. unfold encrypt_contests. rewrite ES. intros H2.
    apply mbind_ok in H2. destruct H2 as (nb & t1 & H6 & H2).
    apply mbind_ok in H2. destruct H2 as (ds & t2 & H7 & H2).
    unfold mbind at 1. rewrite H6. unfold mbind at 1. rewrite H7.
    eapply sup_mmap; [|exact H2|exact HP1]. intros d. cbv beta. destruct (find _ _); [apply sup_contest|].
    intros ? ? ? X. discriminate. }
  rewrite H2'. unfold mbind at 1. rewrite H3. unfold mbind at 1. rewrite H4. unfold mbind at 1. rewrite H5.
  unfold mbind, lift. rewrite HP2. reflexivity.
Qed.

(** The flag rejects exactly the runs with a zero scalar in a proof. *)
Lemma ballot_fine E b m cx code_seed nonce ts verify st r st' :
  manifest_ready m -> votes_unsigned b -> spec_subgroup gp (el_pk cx) -> env_good gp (el_pk cx) E ->
  (forall d, In d (im_contests m) -> cd_elected (cw_base d) <= Q) ->
  encrypt_ballot gp sha hmac dump E b m cx code_seed nonce ts verify st = Ok (r, st') ->
  Forall (fun cc => con_fine (el_pk cx) (el_ext cx) cc <-> no_zero_scalars cc) (cb_contests r) /\
  (verify = true -> Forall (con_fine (el_pk cx) (el_ext cx)) (cb_contests r)).
Proof.
  intros MR HV HK EG HQ H.
  destruct (ballot_results gp V sha hmac dump _ _ _ _ _ _ _ _ _ _ _ MR HV HK EG H) as (n & ds & _ & Hds & HF).
  assert (HF' : Forall2 (fun d cc => In d (im_contests m) /\
      ballot_contest gp sha hmac dump cx (nonce_seed gp sha (im_hash m) (pb_id b) n) verify b m d cc) ds (cb_contests r)).
  { eapply Forall2_impl; [|exact HF]. cbv beta. intros d cc [H1 H2]. split; [|exact H2].
    eapply contests_for_in; eassumption. }
  clear HF H Hds. split.
  - induction HF' as [|d cc ds cs [H1 H2] _ IH]; constructor; [|exact IH].
    pose proof (contest_sels_valid gp sha hmac dump _ _ _ _ _ _ _ H2) as SV.
    destruct H2 as (dh & over & reals & phs & pvs & data & hc & t1 & CR).
    unfold con_fine, no_zero_scalars. rewrite (cr_desc _ _ _ _ _ _ _ _ _ _ _ _ _ _ _ _ _ _ _ _ CR).
    rewrite (cr_pvalid _ _ _ _ _ _ _ _ _ _ _ _ _ _ _ _ _ _ _ _ CR (HQ _ H1)).
    rewrite !Forall_forall in *. unfold sel_fine.
    split; intros [A1 A2]; (split; [|exact A2]); intros x Hx; apply (SV x Hx), (A1 x Hx).
  - intros ->. induction HF' as [|d cc ds cs [H1 H2] _ IH]; constructor; [|exact IH].
    destruct H2 as (dh & over & reals & phs & pvs & data & hc & t1 & CR). split.
    + rewrite (cr_sels _ _ _ _ _ _ _ _ _ _ _ _ _ _ _ _ _ _ _ _ CR). apply Forall_app. split.
      * pose proof (cr_reals _ _ _ _ _ _ _ _ _ _ _ _ _ _ _ _ _ _ _ _ CR) as FR. clear - FR.
        induction FR as [|p x ps xs F1 _ IH]; constructor; [|exact IH]. apply (sr_valid _ _ _ _ _ _ _ _ _ F1), eq_refl.
      * pose proof (cr_phs _ _ _ _ _ _ _ _ _ _ _ _ _ _ _ _ _ _ _ _ CR) as FP.
        pose proof (cr_len _ _ _ _ _ _ _ _ _ _ _ _ _ _ _ _ _ _ _ _ CR) as LP. clear - FP LP.
        revert pvs LP FP. generalize (get_placeholders d). induction phs as [|x phs IH]; intros ps pvs LP FP; [constructor|].
        destruct pvs as [|v pvs]; [discriminate|]. injection LP as LP. cbn [combine] in FP.
        inversion FP as [|? ? ? ? F1 F2]; subst. cbn [fst snd] in F1.
        constructor; [apply (sr_valid _ _ _ _ _ _ _ _ _ F1), eq_refl|]. eapply IH; eassumption.
    + rewrite (cr_desc _ _ _ _ _ _ _ _ _ _ _ _ _ _ _ _ _ _ _ _ CR).
      apply (cr_verified _ _ _ _ _ _ _ _ _ _ _ _ _ _ _ _ _ _ _ _ CR), eq_refl.
Qed.
Lemma verify_iff E b m cx code_seed nonce ts st r st' :
  manifest_ready m -> votes_unsigned b -> spec_subgroup gp (el_pk cx) -> env_good gp (el_pk cx) E ->
  (forall d, In d (im_contests m) -> cd_elected (cw_base d) <= Q) ->
  encrypt_ballot gp sha hmac dump E b m cx code_seed nonce ts true st = Ok (r, st') <->
  encrypt_ballot gp sha hmac dump E b m cx code_seed nonce ts false st = Ok (r, st') /\
  Forall no_zero_scalars (cb_contests r).
Proof.
  intros MR HV HK EG HQ. split.
  - intros H. split; [apply (sub_ballot gp sha hmac dump _ _ _ _ _ _ _ _ _ H)|].
    destruct (ballot_fine _ _ _ _ _ _ _ _ _ _ _ MR HV HK EG HQ H) as [F1 F2]. specialize (F2 eq_refl).
    rewrite Forall_forall in *. intros x Hx. apply (F1 x Hx), (F2 x Hx).
  - intros [H NZ]. apply sup_ballot; [exact H|]. split.
    + destruct (ballot_fine _ _ _ _ _ _ _ _ _ _ _ MR HV HK EG HQ H) as [F1 _].
      rewrite Forall_forall in *. intros x Hx. apply (F1 x Hx), (NZ x Hx).
    + eapply ballot_valid_true; eassumption.
Qed.

(** ** Placeholder marks of plaintext selections do not matter *)
Lemma find_unmark (p : pselection -> bool) l : (forall s, p (unmark_selection s) = p s) ->
  find p (map unmark_selection l) = option_map unmark_selection (find p l).
Proof.
  intros H. induction l as [|s l IH]; [reflexivity|]. cbn [map find]. rewrite H. destruct (p s); [reflexivity|exact IH].
Qed.
Lemma count_unmark l : forall a, fold_left count_step (map unmark_selection l) a = fold_left count_step l a.
Proof. induction l as [|s l IH]; intros a; [reflexivity|]. cbn [map fold_left]. rewrite IH. reflexivity. Qed.
Lemma pcontest_valid_unmark c id n e a o :
  pcontest_valid (unmark_contest c) id n e a o = pcontest_valid c id n e a o.
Proof.
  unfold pcontest_valid. cbn [unmark_contest pc_id pc_selections]. rewrite map_length, count_unmark. reflexivity.
Qed.
Lemma foldM_unmark {B} (f : B -> pselection -> outcome B) l : (forall b s, f b (unmark_selection s) = f b s) ->
  forall b, foldM f (map unmark_selection l) b = foldM f l b.
Proof.
  intros H. induction l as [|s l IH]; intros b; [reflexivity|]. cbn [map foldM]. rewrite H.
  destruct (f b s) as [b'| |]; cbn [bind]; [apply IH|reflexivity|reflexivity].
Qed.
Lemma extended_unmark c m k : extended_data dump (unmark_contest c) m k = extended_data dump c m k.
Proof.
  unfold extended_data, error_data, writeins_of, ballot_selections. cbn [unmark_contest pc_id pc_selections].
  rewrite !foldM_unmark; [reflexivity| |]; intros b s; reflexivity.
Qed.
Lemma emplace_unmark c d : emplace_contest (unmark_contest c) d = unmark_contest (emplace_contest c d).
Proof.
  unfold emplace_contest, unmark_contest. cbn [pc_id pc_selections]. f_equal. rewrite map_map. apply map_ext. intros s.
  rewrite find_unmark by reflexivity. destruct (find _ (pc_selections c)); reflexivity.
Qed.
Lemma mfold_ext {A B C} (f g : C -> A -> M (B * C)) l : (forall c a st, f c a st = g c a st) ->
  forall c st, mfold f l c st = mfold g l c st.
Proof.
  intros H. induction l as [|a l IH]; intros c st; cbn [mfold]; [reflexivity|]. unfold mbind. rewrite H.
  destruct (g c a st) as [[[y c1] s]| |]; try reflexivity. rewrite IH. reflexivity.
Qed.
Lemma mmap_ext {A B} (f g : A -> M B) l : (forall a st, f a st = g a st) -> forall st, mmap f l st = mmap g l st.
Proof.
  intros H. induction l as [|a l IH]; intros st; cbn [mmap]; [reflexivity|]. unfold mbind. rewrite H.
  destruct (g a st) as [[y s]| |]; try reflexivity. rewrite IH. reflexivity.
Qed.
Lemma mbind_ext {A B} (f g : M A) (k k' : A -> M B) st : f st = g st -> (forall a s, k a s = k' a s) ->
  mbind f k st = mbind g k' st.
Proof. intros H1 H2. unfold mbind. rewrite H1. destruct (g st) as [[a s]| |]; [apply H2|reflexivity|reflexivity]. Qed.
Lemma contest_unmark E c m d pk ext seed verify st :
  encrypt_contest gp sha hmac dump E (unmark_contest c) m d pk ext seed verify st
  = encrypt_contest gp sha hmac dump E c m d pk ext seed verify st.
Proof.
  unfold encrypt_contest. rewrite pcontest_valid_unmark, emplace_unmark.
  cbn [unmark_contest pc_id]. 
  assert (S1 : forall norm over seed l k st,
    mfold (encrypt_real gp sha E (map unmark_selection norm) over pk ext seed verify) l k st
    = mfold (encrypt_real gp sha E norm over pk ext seed verify) l k st).
  { intros norm ov sd l k st0. apply mfold_ext. intros k1 a st1. unfold encrypt_real. rewrite find_unmark by reflexivity.
    destruct (find _ norm) as [q|]; [|reflexivity]. cbn [option_map]. destruct ov; reflexivity. }
  destruct (pcontest_valid _ _ _ _ _ _); try reflexivity;
  (apply mbind_ext; [reflexivity|]; intros dh s1; destruct (nonces_get _ _ _ _) as [cn ns1];
   rewrite extended_unmark; apply mbind_ext; [reflexivity|]; intros data s2;
   apply mbind_ext; [apply S1|]; reflexivity).
Qed.
Lemma emplaced_unmark l d : emplaced_contest (map unmark_contest l) d = unmark_contest (emplaced_contest l d).
Proof.
  unfold emplaced_contest. induction l as [|c l IH]; cbn [map find].
  - unfold unmark_contest, contest_from. cbn [pc_id pc_selections]. rewrite map_map. reflexivity.
  - cbn [unmark_contest pc_id]. destruct (bytes_eqb (pc_id c) (cd_id (cw_base d))); [apply emplace_unmark|exact IH].
Qed.
Lemma emplace_ballot_unmark b m : emplace_ballot (unmark b) m
  = match emplace_ballot b m with Ok nb => Ok (unmark nb) | Throw e => Throw e | UB => UB end.
Proof.
  unfold emplace_ballot. cbn [unmark pb_id pb_style pb_contests]. destruct (get_style m (pb_style b)) as [style|]; [|reflexivity].
  destruct (contests_for m (bs_id style)) as [ds| |]; cbn [bind]; try reflexivity.
  unfold unmark. cbn [pb_id pb_style pb_contests]. do 2 f_equal. rewrite map_map. apply map_ext. intros d.
  apply (emplaced_unmark (pb_contests b) d).
Qed.
Lemma find_unmark_contest (id : bytes) l :
  find (fun c => bytes_eqb (pc_id c) id) (map unmark_contest l)
  = option_map unmark_contest (find (fun c => bytes_eqb (pc_id c) id) l).
Proof.
  induction l as [|c l IH]; [reflexivity|]. cbn [map find unmark_contest pc_id].
  destruct (bytes_eqb (pc_id c) id); [reflexivity|exact IH].
Qed.
Lemma ballot_unmark E b m cx code_seed nonce ts verify st :
  encrypt_ballot gp sha hmac dump E (unmark b) m cx code_seed nonce ts verify st
  = encrypt_ballot gp sha hmac dump E b m cx code_seed nonce ts verify st.
Proof.
  unfold encrypt_ballot. cbn [unmark pb_id pb_style]. destruct (get_style m (pb_style b)) as [style|] eqn:ES; [|reflexivity].
  apply mbind_ext; [reflexivity|]. intros n s1. apply mbind_ext; [|reflexivity].
  unfold encrypt_contests. cbn [unmark pb_id pb_style]. rewrite ES. fold (unmark b). rewrite emplace_ballot_unmark.
  destruct (emplace_ballot b m) as [nb| |]; [|reflexivity|reflexivity]. unfold mbind, lift.
  destruct (contests_for m (bs_id style)) as [ds| |]; [|reflexivity|reflexivity].
  apply mmap_ext. intros d s2. cbn [unmark pb_contests]. rewrite find_unmark_contest.
  destruct (find _ (pb_contests nb)); [cbn [option_map]; apply contest_unmark|reflexivity].
Qed.
End Rep.
