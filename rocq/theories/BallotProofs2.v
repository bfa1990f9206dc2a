(** Whole ballots: contents, validity and the effect of the verification flag. *)
From Coq Require Import Permutation Psatz String.
From Verif Require Import Base GroupModel GroupSpec GroupProofs CodecModel HashModel Algebra
  ElgamalModel ElgamalSpec ElgamalProofs ChaumModel ChaumProofs TallyProofs HashedProofs
  SortModel SortProofs ManifestModel ManifestSpec ManifestProofs BallotModel JsonModel EncryptModel
  PropElgamal PropChaum PropManifest EncryptSpec EncryptProofs BallotProofs.
Open Scope list_scope.
Open Scope Z_scope.
Ltac Zify.zify_post_hook ::= idtac.

Lemma Forall2_in_l {A B} (R : A -> B -> Prop) l l' : Forall2 R l l' ->
  Forall2 (fun a b => In a l /\ R a b) l l'.
Proof.
  induction 1 as [|a b l l' H F IH]; constructor; [split; [now left|exact H]|].
  eapply Forall2_impl; [|exact IH]. intros x y [H1 H2]. split; [now right|exact H2].
Qed.
Lemma contests_for_in m id ds d : contests_for m id = Ok ds -> In d ds -> In d (im_contests m).
Proof.
  unfold contests_for. destruct (get_style m id) as [s|]; [|discriminate].
  destruct (bs_units s) as [|u us]; [discriminate|]. intros E HI. apply Ok_inj in E. subst ds.
  apply sort_in in HI. apply in_flat_map in HI. destruct HI as (x & Hx & HI).
  apply in_flat_map in HI. destruct HI as (y & Hy & HI).
  destruct (bytes_eqb (cd_district (cw_base x)) y); [|destruct HI].
  destruct HI as [<- | []]. exact Hx.
Qed.
Lemma contests_for_ascending m id ds : contests_for m id = Ok ds -> ascending cw_seq ds.
Proof.
  unfold contests_for. destruct (get_style m id) as [s|]; [|discriminate].
  destruct (bs_units s) as [|u us]; [discriminate|]. intros E. apply Ok_inj in E. subst ds. apply sort_sorted.
Qed.
Lemma entries_unsigned b id : votes_unsigned b -> Forall (fun s => 0 <= ps_vote s) (contest_entries (pb_contests b) id).
Proof.
  unfold votes_unsigned. intros H. induction H as [|c l H _ IH]; cbn [contest_entries]; [constructor|].
  destruct (list_eq_dec Z.eq_dec (pc_id c) id); [|exact IH].
  eapply Forall_impl; [|exact H]. intros s [A _]. exact A.
Qed.
Lemma emplaced_unsigned l ds : Forall (fun s => 0 <= ps_vote s) l ->
  Forall (fun s => 0 <= ps_vote s) (map (emplaced l) ds).
Proof.
  intros H. apply Forall_map, Forall_forall. intros d _. rewrite (proj2 (emplaced_spec l d)).
  apply vote_for_nonneg, H.
Qed.

Section Ball2.
Context (gp : params) (V : valid_params gp) (sha : bytes -> Z) (hmac : bytes -> bytes -> Z)
        (dump : json -> outcome bytes).
Notation Q := (gpQ gp).

(** The result of every contest of an encrypted ballot. *)
Definition ballot_contest (cx : context) (seed : Z) (verify : bool) (b : pballot) (m : internal_manifest)
  (d : contest_ph) (cc : ccontest) : Prop :=
  exists dh over reals phs pvs data hc t1,
    contest_result gp sha hmac dump (el_pk cx) (el_ext cx) seed verify (emplaced_contest (pb_contests b) d) m d
      cc dh over reals phs pvs data hc t1.
Lemma ballot_results E b m cx code_seed nonce ts verify st r st' :
  manifest_ready m -> votes_unsigned b -> spec_subgroup gp (el_pk cx) -> env_good gp (el_pk cx) E ->
  encrypt_ballot gp sha hmac dump E b m cx code_seed nonce ts verify st = Ok (r, st') ->
  exists n ds, (nonce = Some n \/ nonce = None /\ n = e_rand E (n_rand st)) /\
    contests_for m (pb_style b) = Ok ds /\
    Forall2 (fun d cc => In d ds /\ ballot_contest cx (nonce_seed gp sha (im_hash m) (pb_id b) n) verify b m d cc)
      ds (cb_contests r).
Proof.
  intros MR HV HK EG H. apply (encrypt_ballot_ok gp sha hmac dump) in H.
  destruct H as (n & Hn & ds & nb & Hds & Hnb & HF & _).
  exists n, ds. split; [exact Hn|]. split; [exact Hds|].
  apply emplace_ballot_spec in Hnb. destruct Hnb as (style & ds' & _ & Hds' & _ & _ & Hc).
  rewrite Hds in Hds'. apply Ok_inj in Hds'. subst ds'.
  apply Forall2_in_l in HF. eapply Forall2_impl; [|exact HF]. cbv beta.
  intros d cc (HI & c & s1 & s2 & Hf & He). split; [exact HI|].
  pose proof (contests_for_in _ _ _ _ Hds HI) as HM.
  rewrite Hc, emplaced_find in Hf; [| |exact HI].
  2:{ intros x y Hx Hy. apply (mr_ids _ MR); eapply contests_for_in; eassumption. }
  apply (f_equal (fun o => match o with Some x => x | None => c end)) in Hf. subst c.
  destruct (emplaced_contest_spec (pb_contests b) d) as [_ ES].
  assert (LS : Z.of_nat (List.length (pc_selections (emplaced_contest (pb_contests b) d))) < W64).
  { rewrite ES, map_length. unfold get_selections. rewrite sort_length. apply (mr_sizes _ MR), HM. }
  unfold ballot_contest.
  eapply (encrypt_contest_spec gp V sha hmac dump (el_pk cx) HK); [exact EG| |exact LS| | | |exact He].
  - rewrite ES. apply emplaced_unsigned, entries_unsigned, HV.
  - apply nodup_sorted, (mr_selections _ MR), HM.
  - apply (mr_placeholders _ MR), HM.
  - apply (mr_elected _ MR), HM.
Qed.

Definition voted (b : pballot) (d : contest_ph) : list pselection :=
  contest_entries (pb_contests b) (cd_id (cw_base d)).

Lemma contest_contents_ext over over' votes votes' d cc vs pvs s :
  (over <-> over') -> votes_of votes d = votes_of votes' d ->
  contest_contents gp s over votes d cc vs pvs -> contest_contents gp s over' votes' d cc vs pvs.
Proof.
  intros HO HE [H1 H2 H3 H4 H5 H6 H7 H8]. constructor; try assumption.
  - intros N. rewrite <- HE. apply H7. tauto.
  - intros N. apply H8. tauto.
Qed.

Lemma ballot_contents (PP : prime_params gp) s E b m cx code_seed nonce ts verify st r st' :
  manifest_ready m -> votes_unsigned b -> 0 <= s < W256 -> el_pk cx = spec_key gp s ->
  env_good gp (el_pk cx) E ->
  encrypt_ballot gp sha hmac dump E b m cx code_seed nonce ts verify st = Ok (r, st') ->
  exists ds, contests_for m (pb_style b) = Ok ds /\
    Forall2 (fun d cc => exists vs pvs,
      contest_contents gp s (over_limit (votes_of (voted b d) d) (cd_elected (cw_base d)) (cd_allowed (cw_base d)))
        (voted b d) d cc vs pvs) ds (cb_contests r).
Proof.
  intros MR HV Hs HK EG H.
  assert (HS : spec_subgroup gp (el_pk cx)).
  { rewrite HK. apply (spec_key_subgroup gp s V). clear - Hs. lia. }
  destruct (ballot_results _ _ _ _ _ _ _ _ _ _ _ MR HV HS EG H) as (n & ds & _ & Hds & HF).
  exists ds. split; [exact Hds|]. eapply Forall2_impl; [|exact HF]. cbv beta.
  intros d cc (HI & dh & over & reals & phs & pvs & data & hc & t1 & CR).
  pose proof (contests_for_in _ _ _ _ Hds HI) as HM.
  rewrite HK in CR.
  destruct (contents_of_result gp V sha hmac dump PP s _ _ _ _ _ _ _ _ _ _ _ _ _ _ _ Hs (mr_placeholders _ MR _ HM) CR) as (vs & CC).
  exists vs, pvs.
  assert (EV : votes_of (pc_selections (emplaced_contest (pb_contests b) d)) d = votes_of (voted b d) d).
  { rewrite (proj2 (emplaced_contest_spec _ _)). unfold votes_of. apply map_ext_in. intros x Hx.
    apply vote_for_emplaced, Hx. }
  eapply contest_contents_ext; [|exact EV|exact CC].
  apply contest_over_iff.
  - apply emplaced_unsigned, entries_unsigned, HV.
  - unfold get_selections. rewrite sort_length. apply (mr_sizes _ MR), HM.
  - apply (mr_elected _ MR), HM.
  - pose proof (cr_over _ _ _ _ _ _ _ _ _ _ _ _ _ _ _ _ _ _ _ _ CR) as CO.
    rewrite (proj2 (emplaced_contest_spec _ _)) in CO. exact CO.
  - intros EO. pose proof (co_real _ _ _ _ _ _ _ _ CC) as CRl.
    rewrite EV in CRl. rewrite <- CRl by (rewrite EO; discriminate).
    pose proof (co_bits _ _ _ _ _ _ _ _ CC) as CB. apply Forall_app in CB. apply CB.
  - apply (mr_allowed _ MR), HM.
Qed.

(** ** Validity *)
Lemma sel_valid_iff K ext verify ph v d x : sel_result gp sha K ext verify ph v d x ->
  (cselection_valid gp sha x (cs_desc x) K ext = true <-> forall p, cs_proof x = Some p -> scalars_nonzero p).
Proof.
  intros [_ _ _ _ _ _ HH (p & HP & HV) _]. unfold cselection_valid. rewrite elem_eq_refl, HH, elem_eq_refl, HP.
  cbn [negb]. rewrite HV. split; [intros N q Hq; congruence|intros N; now apply N].
Qed.
Lemma contest_sels_valid cx seed verify b m d cc : ballot_contest cx seed verify b m d cc ->
  Forall (fun x => cselection_valid gp sha x (cs_desc x) (el_pk cx) (el_ext cx) = true <->
                   forall p, cs_proof x = Some p -> scalars_nonzero p) (cc_selections cc).
Proof.
  intros (dh & over & reals & phs & pvs & data & hc & t1 & CR).
  destruct CR as [C1 C2 C3 C4 C5 C6 C7 CS FR FP LP SUM C13 C14 C15 C16 C17 C18 C19 C20 C21 C22].
  rewrite CS. apply Forall_app. split.
  - clear - FR. induction FR as [|p x ps xs F1 _ IH]; constructor; [|exact IH]. eapply sel_valid_iff, F1.
  - clear - FP LP. revert pvs LP FP. generalize (get_placeholders d). induction phs as [|x phs IH]; intros ps pvs LP FP; [constructor|].
    destruct pvs as [|v pvs]; [discriminate|]. injection LP as LP. cbn [combine] in FP.
    inversion FP as [|? ? ? ? F1 F2]; subst. cbn [fst snd] in F1. constructor; [eapply sel_valid_iff, F1|].
    eapply IH; eassumption.
Qed.
Lemma contest_results_true cx seed verify b m d cc : cd_elected (cw_base d) <= Q ->
  ballot_contest cx seed verify b m d cc -> no_zero_scalars cc ->
  exists rs, contest_results gp sha cc (el_pk cx) (el_ext cx) = Ok rs /\ forallb snd rs = true.
Proof.
  intros HQ BC (N1 & N2). pose proof (contest_sels_valid _ _ _ _ _ _ _ BC) as SV.
  destruct BC as (dh & over & reals & phs & pvs & data & hc & t1 & CR).
  unfold contest_results. rewrite (cr_desc _ _ _ _ _ _ _ _ _ _ _ _ _ _ _ _ _ _ _ _ CR).
  rewrite (proj2 (cr_pvalid _ _ _ _ _ _ _ _ _ _ _ _ _ _ _ _ _ _ _ _ CR HQ) N2). cbn [bind].
  eexists. split; [reflexivity|]. rewrite forallb_app. cbn [forallb snd andb]. rewrite andb_true_r.
  apply forallb_forall. intros kv HI. apply in_map_iff in HI. destruct HI as (x & <- & Hx). cbn [snd].
  unfold cc_sorted in Hx. apply sort_in in Hx. rewrite Forall_forall in SV, N1. apply (SV x Hx), (N1 x Hx).
Qed.
Lemma concat_forallb {A} (f : A -> bool) ls : Forall (fun l => forallb f l = true) ls -> forallb f (concat ls) = true.
Proof. induction 1 as [|l ls H _ IH]; cbn [concat]; [reflexivity|]. rewrite forallb_app, H, IH. reflexivity. Qed.
Lemma mapM_all {A B} (f : A -> outcome B) (P : B -> Prop) l :
  Forall (fun a => exists b, f a = Ok b /\ P b) l -> exists bs, mapM f l = Ok bs /\ Forall P bs.
Proof.
  induction 1 as [|a l (b & Hb & HP) _ (bs & H & F)]; cbn [mapM]; [exists []; split; [reflexivity|constructor]|].
  rewrite Hb. cbn [bind]. rewrite H. cbn [bind]. eexists. split; [reflexivity|]. now constructor.
Qed.
Lemma ballot_sorted ds (cs : list ccontest) : ascending cw_seq ds ->
  Forall2 (fun d cc => cc_seq cc = cw_seq d) ds cs -> sort_by cc_seq cs = cs.
Proof.
  intros HA HF. apply sort_by_sorted_id. unfold ascending in *. revert HA.
  induction HF as [|d cc ds cs E F IH]; intros HA; [constructor|]. inversion HA as [|? ? HA1 HA2]; subst.
  constructor; [apply IH, HA1|]. clear IH HA HA1. induction F as [|d' cc' ds cs E' F IH]; [constructor|].
  inversion HA2 as [|? ? A1 A2]; subst. constructor; [clear - E E' A1; lia|]. apply IH, A2.
Qed.

Lemma ballot_valid_true E b m cx code_seed nonce ts verify st r st' :
  manifest_ready m -> votes_unsigned b -> spec_subgroup gp (el_pk cx) -> env_good gp (el_pk cx) E ->
  (forall d, In d (im_contests m) -> cd_elected (cw_base d) <= Q) ->
  encrypt_ballot gp sha hmac dump E b m cx code_seed nonce ts verify st = Ok (r, st') ->
  Forall no_zero_scalars (cb_contests r) ->
  cballot_valid gp sha r (im_hash m) (el_pk cx) (el_ext cx) = Ok true.
Proof.
  intros MR HV HK EG HQ H NZ.
  destruct (ballot_results _ _ _ _ _ _ _ _ _ _ _ MR HV HK EG H) as (n & ds & _ & Hds & HF).
  apply (encrypt_ballot_ok gp sha hmac dump) in H.
  destruct H as (_ & _ & _ & _ & _ & _ & _ & _ & Hid & _ & Hman & _ & _ & _ & Hh & _ & _).
  assert (SO : cb_sorted r = cb_contests r).
  { unfold cb_sorted. apply (ballot_sorted ds); [eapply contests_for_ascending, Hds|].
    eapply Forall2_impl; [|exact HF]. cbv beta. intros d cc (_ & dh & over & reals & phs & pvs & data & hc & t1 & CR).
    rewrite (cr_seq _ _ _ _ _ _ _ _ _ _ _ _ _ _ _ _ _ _ _ _ CR). reflexivity. }
  unfold cballot_valid. rewrite Hman, elem_eq_refl. cbn [negb]. rewrite SO, Hid, Hh. cbn [bind].
  rewrite elem_eq_refl. cbn [negb].
  destruct (mapM_all (fun c => contest_results gp sha c (el_pk cx) (el_ext cx)) (fun rs => forallb snd rs = true)
              (cb_contests r)) as (bs & HB & FB).
  { clear - HF NZ HQ Hds MR. assert (HF' : Forall2 (fun d cc => In d (im_contests m) /\
      ballot_contest cx (nonce_seed gp sha (im_hash m) (pb_id b) n) verify b m d cc) ds (cb_contests r)).
    { eapply Forall2_impl; [|exact HF]. cbv beta. intros d cc [H1 H2]. split; [|exact H2].
      eapply contests_for_in; eassumption. }
    clear HF Hds. induction HF' as [|d cc ds cs [H1 H2] _ IH]; [constructor|].
    inversion NZ as [|? ? N1 N2]; subst. constructor; [|apply IH, N2].
    eapply contest_results_true; [apply HQ, H1|exact H2|exact N1]. }
  rewrite HB. cbn [bind]. rewrite map_store_forall; [reflexivity|reflexivity|]. apply concat_forallb, FB.
Qed.

(** ** The extended data of a contest *)
Lemma contest_data s ext seed verify c m d cc dh over reals phs pvs data hc t1 :
  0 <= s < W256 ->
  contest_result gp sha hmac dump (spec_key gp s) ext seed verify c m d cc dh over reals phs pvs data hc t1 ->
  hashed_decrypt gp sha hmac hc s ext true = Ok (firstn 510 data).
Proof.
  intros Hs CR. pose proof (cr_henc _ _ _ _ _ _ _ _ _ _ _ _ _ _ _ _ _ _ _ _ CR) as HE.
  pose proof (cr_t1 _ _ _ _ _ _ _ _ _ _ _ _ _ _ _ _ _ _ _ _ CR) as HT.
  pose proof (vp_Qhi _ V) as HQ.
  assert (HN : 0 <= data_nonce gp sha (nonce_of gp sha dh (HElemQ seed) (cd_seq (cw_base d))) < 2 ^ 256).
  { unfold data_nonce. change (2 ^ 256) with W256.
    match goal with |- 0 <= nonce_of gp sha ?a ?h ?i < _ => pose proof (nonce_of_range gp V sha a h i) as R end.
    clear - R HQ. lia. }
  destruct t1 as [t|].
  - destruct (HT t eq_refl) as (T1 & T2 & T3).
    eapply C22_roundtrip_precomputed; [exact V|exact Hs|exact HN| |exact T2|exact T3|exact HE].
    change (2 ^ 256) with W256. clear - T1 HQ. lia.
  - eapply C22_roundtrip_padded; [exact V|exact Hs|exact HN|exact HE].
Qed.

(** ** The verification flag only removes results *)
Definition sub_ok {A} (f g : M A) : Prop := forall st x, f st = Ok x -> g st = Ok x.
Lemma sub_bind {A B} (f g : M A) (k k' : A -> M B) : sub_ok f g -> (forall a, sub_ok (k a) (k' a)) ->
  sub_ok (mbind f k) (mbind g k').
Proof.
  intros H1 H2 st x. unfold mbind. destruct (f st) as [[a s]| |] eqn:E; try discriminate.
  rewrite (H1 _ _ E). apply H2.
Qed.
Lemma sub_refl {A} (f : M A) : sub_ok f f.
Proof. intros st x H. exact H. Qed.
Lemma sub_mfold {A B C} (f g : C -> A -> M (B * C)) l : (forall c a, sub_ok (f c a) (g c a)) ->
  forall c, sub_ok (mfold f l c) (mfold g l c).
Proof.
  intros H. induction l as [|a l IH]; intros c; cbn [mfold]; [apply sub_refl|].
  apply sub_bind; [apply H|]. intros [y c1]. apply sub_bind; [apply IH|]. intros [ys c2]. apply sub_refl.
Qed.
Lemma sub_mmap {A B} (f g : A -> M B) l : (forall a, sub_ok (f a) (g a)) -> sub_ok (mmap f l) (mmap g l).
Proof.
  intros H. induction l as [|a l IH]; cbn [mmap]; [apply sub_refl|].
  apply sub_bind; [apply H|]. intros y. apply sub_bind; [apply IH|]. intros ys. apply sub_refl.
Qed.
Lemma sub_check {A} (a : A) (b : bool) e : sub_ok (if b then ret a else lift (Throw e)) (ret a).
Proof. destruct b; intros st x H; [exact H|discriminate]. Qed.
Lemma sub_check_o {A} (a : A) (o : outcome bool) e :
  sub_ok (let! ok := lift o in if ok : bool then ret a else lift (Throw e)) (ret a).
Proof.
  intros st x. unfold mbind, lift. destruct o as [[|]| |]; try discriminate. intros H. exact H.
Qed.
Lemma sub_selection E s d pk ext seed ph : sub_ok (encrypt_selection gp sha E s d pk ext seed ph true)
  (encrypt_selection gp sha E s d pk ext seed ph false).
Proof.
  unfold encrypt_selection. destruct (negb (pselection_valid _ _)); [apply sub_refl|].
  apply sub_bind; [apply sub_refl|]. intros tq. apply sub_bind; [apply sub_refl|]. intros c.
  cbn [negb]. apply sub_check.
Qed.
Lemma sub_contest E c m d pk ext seed : sub_ok (encrypt_contest gp sha hmac dump E c m d pk ext seed true)
  (encrypt_contest gp sha hmac dump E c m d pk ext seed false).
Proof.
  unfold encrypt_contest.
  assert (S1 : forall norm over pk ext seed l c,
    sub_ok (mfold (encrypt_real gp sha E norm over pk ext seed true) l c)
           (mfold (encrypt_real gp sha E norm over pk ext seed false) l c)).
  { intros. apply sub_mfold. intros c1 a. unfold encrypt_real. destruct (find _ norm); [|apply sub_refl].
    apply sub_bind; [apply sub_selection|]. intros y. apply sub_refl. }
  assert (S2 : forall over n pk ext seed l c,
    sub_ok (mfold (encrypt_placeholder gp sha E over n pk ext seed true) l c)
           (mfold (encrypt_placeholder gp sha E over n pk ext seed false) l c)).
  { intros. apply sub_mfold. intros c1 a. unfold encrypt_placeholder.
    apply sub_bind; [apply sub_selection|]. intros y. apply sub_refl. }
  destruct (pcontest_valid _ _ _ _ _ _); try apply sub_refl;
  (apply sub_bind; [apply sub_refl|]; intros dh; destruct (nonces_get _ _ _ _) as [cn ns1];
   apply sub_bind; [apply sub_refl|]; intros data; apply sub_bind; [apply S1|]; intros [reals count];
   apply sub_bind; [apply S2|]; intros [phs count']; apply sub_bind; [apply sub_refl|]; intros n1;
   apply sub_bind; [apply sub_refl|]; intros t1; apply sub_bind; [apply sub_refl|]; intros h;
   apply sub_bind; [apply sub_refl|]; intros n2; apply sub_bind; [apply sub_refl|]; intros t2;
   apply sub_bind; [apply sub_refl|]; intros r; cbn [negb]; apply sub_check_o).
Qed.
Lemma sub_ballot E b m cx code_seed nonce ts :
  sub_ok (encrypt_ballot gp sha hmac dump E b m cx code_seed nonce ts true)
         (encrypt_ballot gp sha hmac dump E b m cx code_seed nonce ts false).
Proof.
  unfold encrypt_ballot. destruct (get_style m (pb_style b)); [|apply sub_refl].
  apply sub_bind; [apply sub_refl|]. intros n. apply sub_bind.
  { unfold encrypt_contests. destruct (get_style m (pb_style b)); [|apply sub_refl].
    apply sub_bind; [apply sub_refl|]. intros nb. apply sub_bind; [apply sub_refl|]. intros ds.
    apply sub_mmap. intros d. destruct (find _ _); [apply sub_contest|apply sub_refl]. }
  intros cs. apply sub_bind; [apply sub_refl|]. intros t. apply sub_bind; [apply sub_refl|]. intros now.
  apply sub_bind; [apply sub_refl|]. intros r. cbn [negb]. apply sub_check_o.
Qed.
End Ball2.
