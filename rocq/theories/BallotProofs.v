(** Proofs about encrypted ballots: encrypt.cpp, ballot.cpp, ballot_compact.cpp. *)
From Coq Require Import Permutation Psatz String.
From Verif Require Import Base GroupModel GroupSpec GroupProofs CodecModel HashModel Algebra
  ElgamalModel ElgamalSpec ElgamalProofs ChaumModel ChaumProofs TallyProofs HashedProofs
  SortModel SortProofs ManifestModel ManifestSpec ManifestProofs BallotModel JsonModel EncryptModel
  PropElgamal PropChaum EncryptSpec EncryptProofs.
Open Scope list_scope.
Open Scope Z_scope.
Ltac Zify.zify_post_hook ::= idtac.

Lemma mmap_ok {A B} (f : A -> M B) l : forall s ys s', mmap f l s = Ok (ys, s') ->
  Forall2 (fun x y => exists s1 s2, f x s1 = Ok (y, s2)) l ys.
Proof.
  induction l as [|x l IH]; intros s ys s' H; cbn [mmap] in H.
  - apply ret_ok in H. destruct H as [-> _]. constructor.
  - apply mbind_ok in H. destruct H as (y & s1 & H1 & H).
    apply mbind_ok in H. destruct H as (zs & s2 & H2 & H).
    apply ret_ok in H. destruct H as [-> _]. constructor; eauto.
Qed.

Lemma get_style_id m id s : get_style m id = Some s -> bs_id s = id.
Proof. unfold get_style. intros H. apply find_some in H. destruct H as [_ H]. now apply bytes_eqb_eq in H. Qed.
Lemma contests_for_style m id ds : contests_for m id = Ok ds -> exists s, get_style m id = Some s.
Proof. unfold contests_for. destruct (get_style m id); [eauto|discriminate]. Qed.

(** ** Completing a ballot *)
Definition emplaced_contest (l : list pcontest) (d : contest_ph) : pcontest :=
  match find (fun c => bytes_eqb (pc_id c) (cd_id (cw_base d))) l with
  | Some c => emplace_contest c d
  | None => contest_from d
  end.
Lemma emplace_ballot_spec b m nb : emplace_ballot b m = Ok nb ->
  exists style ds, get_style m (pb_style b) = Some style /\ contests_for m (pb_style b) = Ok ds /\
  pb_id nb = pb_id b /\ pb_style nb = pb_style b /\
  pb_contests nb = map (emplaced_contest (pb_contests b)) ds.
Proof.
  unfold emplace_ballot. destruct (get_style m (pb_style b)) as [style|] eqn:ES; [|discriminate].
  intros H. apply bind_ok in H. destruct H as (ds & H1 & H). apply Ok_inj in H.
  exists style, ds. rewrite (get_style_id _ _ _ ES) in H1. rewrite <- H.
  cbn [pb_id pb_style pb_contests]. repeat split; try assumption.
Qed.
Lemma emplaced_nil d : emplaced [] d = selection_from d false false.
Proof. reflexivity. Qed.
Lemma emplaced_contest_spec l d :
  pc_id (emplaced_contest l d) = cd_id (cw_base d) /\
  pc_selections (emplaced_contest l d)
  = map (emplaced (contest_entries l (cd_id (cw_base d)))) (get_selections (cw_base d)).
Proof.
  unfold emplaced_contest. induction l as [|c l IH]; cbn [find contest_entries].
  - split; [reflexivity|]. cbn [contest_from pc_selections]. apply map_ext. intros s. reflexivity.
  - unfold bytes_eqb. destruct (list_eq_dec Z.eq_dec (pc_id c) (cd_id (cw_base d))) as [E|E].
    + split; reflexivity.
    + exact IH.
Qed.
Lemma emplaced_first l d :
  emplaced l d = match first_entry l (sd_id d) with Some s => s | None => selection_from d false false end.
Proof.
  unfold emplaced. induction l as [|s l IH]; cbn [find first_entry]; [reflexivity|].
  unfold bytes_eqb. destruct (list_eq_dec Z.eq_dec (ps_id s) (sd_id d)); [reflexivity|exact IH].
Qed.
Lemma total_emplaced l ds :
  total_votes (map (emplaced l) ds) = zsum (map (fun d => vote_for l (sd_id d)) ds).
Proof.
  induction ds as [|d ds IH]; [reflexivity|]. cbn [map total_votes]. rewrite zsum_cons, IH.
  rewrite (proj2 (emplaced_spec l d)). reflexivity.
Qed.
Lemma emplaced_find l ds : (forall d d', In d ds -> In d' ds -> cd_id (cw_base d) = cd_id (cw_base d') -> d = d') ->
  forall d, In d ds ->
  find (fun c => bytes_eqb (pc_id c) (cd_id (cw_base d))) (map (emplaced_contest l) ds)
  = Some (emplaced_contest l d).
Proof.
  induction ds as [|e ds IH]; intros HU d HI; [destruct HI|]. cbn [map find].
  rewrite (proj1 (emplaced_contest_spec l e)).
  destruct (bytes_eqb (cd_id (cw_base e)) (cd_id (cw_base d))) eqn:EB.
  - apply bytes_eqb_eq in EB. rewrite (HU e d); [reflexivity|now left|exact HI|exact EB].
  - destruct HI as [-> | HI]; [rewrite bytes_eqb_refl in EB; discriminate|].
    apply IH; [|exact HI]. intros a a' Ha Ha'. apply HU; now right.
Qed.

Section Ball.
Context (gp : params) (V : valid_params gp) (sha : bytes -> Z) (hmac : bytes -> bytes -> Z)
        (dump : json -> outcome bytes).
Notation Q := (gpQ gp).

Lemma encrypt_contests_ok E b m cx seed verify st cs st' :
  encrypt_contests gp sha hmac dump E b m cx seed verify st = Ok (cs, st') ->
  exists ds nb, contests_for m (pb_style b) = Ok ds /\ emplace_ballot b m = Ok nb /\
  Forall2 (fun d cc => exists c s1 s2,
    find (fun c => bytes_eqb (pc_id c) (cd_id (cw_base d))) (pb_contests nb) = Some c /\
    encrypt_contest gp sha hmac dump E c m d (el_pk cx) (el_ext cx) seed verify s1 = Ok (cc, s2)) ds cs.
Proof.
  unfold encrypt_contests. destruct (get_style m (pb_style b)) as [style|] eqn:ES; [|discriminate].
  rewrite (get_style_id _ _ _ ES). intros H.
  apply mbind_ok in H. destruct H as (nb & s1 & H1 & H). apply lift_ok in H1. destruct H1 as [Hnb ->].
  apply mbind_ok in H. destruct H as (ds & s2 & H1 & H). apply lift_ok in H1. destruct H1 as [Hds ->].
  exists ds, nb. split; [exact Hds|]. split; [exact Hnb|]. apply mmap_ok in H.
  clear Hds. induction H as [|d cc ds' cs' (s3 & s4 & H) _ IH]; [constructor|constructor; [|exact IH]].
  destruct (find _ (pb_contests nb)) as [c|]; [|discriminate]. exists c, s3, s4. auto.
Qed.

Lemma encrypt_ballot_ok E b m cx code_seed nonce ts verify st r st' :
  encrypt_ballot gp sha hmac dump E b m cx code_seed nonce ts verify st = Ok (r, st') ->
  exists n, (nonce = Some n \/ nonce = None /\ n = e_rand E (n_rand st)) /\
  exists ds nb, contests_for m (pb_style b) = Ok ds /\ emplace_ballot b m = Ok nb /\
  Forall2 (fun d cc => exists c s1 s2,
    find (fun c => bytes_eqb (pc_id c) (cd_id (cw_base d))) (pb_contests nb) = Some c /\
    encrypt_contest gp sha hmac dump E c m d (el_pk cx) (el_ext cx)
      (nonce_seed gp sha (im_hash m) (pb_id b) n) verify s1 = Ok (cc, s2)) ds (cb_contests r) /\
  cb_contests r <> [] /\
  cb_id r = pb_id b /\ cb_style r = pb_style b /\ cb_manifest r = im_hash m /\ cb_seed r = code_seed /\
  cb_nonce r = Some n /\ (ts <> 0 -> cb_timestamp r = ts) /\
  cballot_hash gp sha (pb_id b) (cb_contests r) (im_hash m) = Ok (cb_hash r) /\
  cb_code r = ballot_code gp sha code_seed (cb_timestamp r) (cb_hash r) /\
  (verify = true -> cballot_valid gp sha r (im_hash m) (el_pk cx) (el_ext cx) = Ok true).
Proof.
  unfold encrypt_ballot. destruct (get_style m (pb_style b)) as [style|] eqn:ES; [|discriminate].
  intros H. apply mbind_ok in H. destruct H as (n & s1 & Hn & H).
  exists n. split.
  { destruct nonce as [n0|].
    - apply ret_ok in Hn. destruct Hn as [-> _]. now left.
    - unfold draw in Hn. apply pair_ok in Hn. destruct Hn as [<- _]. right. auto. }
  clear Hn. apply mbind_ok in H. destruct H as (cs & s2 & Hcs & H).
  apply encrypt_contests_ok in Hcs. destruct Hcs as (ds & nb & Hds & Hnb & HF).
  exists ds, nb. split; [exact Hds|]. split; [exact Hnb|].
  apply mbind_ok in H. destruct H as (t & s3 & Ht & H).
  apply mbind_ok in H. destruct H as (now & s4 & Hnow & H).
  apply mbind_ok in H. destruct H as (r0 & s5 & H1 & H). apply lift_ok in H1. destruct H1 as [Hmake ->].
  assert (HR : r = r0 /\ (verify = true -> cballot_valid gp sha r0 (im_hash m) (el_pk cx) (el_ext cx) = Ok true)).
  { destruct verify; cbn [negb] in H.
    - apply mbind_ok in H. destruct H as (ok & s6 & H1 & H). apply lift_ok in H1. destruct H1 as [Hok ->].
      destruct ok; [|discriminate]. apply ret_ok in H. destruct H as [-> _]. auto.
    - apply ret_ok in H. destruct H as [-> _]. split; [reflexivity|discriminate]. }
  destruct HR as [-> Hver]. clear H.
  unfold cballot_make in Hmake.
  assert (Hne : cs <> []) by (intros ->; discriminate).
  assert (HX : exists h, cballot_hash gp sha (pb_id b) cs (im_hash m) = Ok h /\
    r0 = {| cb_id := pb_id b; cb_style := pb_style b; cb_manifest := im_hash m; cb_seed := code_seed;
            cb_contests := cs; cb_code := ballot_code gp sha code_seed (if t =? 0 then now else t) h;
            cb_timestamp := if t =? 0 then now else t; cb_nonce := Some n; cb_hash := h |}).
  { destruct cs as [|c0 cs]; [congruence|]. apply bind_ok in Hmake. destruct Hmake as (h & Hh & Hmake).
    apply Ok_inj in Hmake. exists h. split; [exact Hh|]. symmetry. exact Hmake. }
  destruct HX as (h & Hh & HX). subst r0.
  cbn [cb_id cb_style cb_manifest cb_seed cb_contests cb_code cb_timestamp cb_nonce cb_hash].
  split; [exact HF|]. split; [exact Hne|]. do 5 (split; [reflexivity|]). split.
  { intros Hts. apply Z.eqb_neq in Hts. rewrite Hts in Ht. apply ret_ok in Ht. destruct Ht as [-> _].
    rewrite Hts. reflexivity. }
  split; [exact Hh|]. split; [reflexivity|exact Hver].
Qed.

(** ** Ballot validity *)
Lemma map_store_forall l : forall m, forallb snd m = true -> forallb snd l = true ->
  forallb snd (fold_left map_store l m) = true.
Proof.
  induction l as [|kv l IH]; intros m Hm Hl; cbn [fold_left]; [exact Hm|].
  cbn [forallb] in Hl. apply andb_true_iff in Hl. destruct Hl as [H1 H2]. apply IH; [|exact H2].
  unfold map_store. cbn [forallb]. rewrite H1. cbn [andb]. apply forallb_forall. intros x Hx.
  apply filter_In in Hx. rewrite forallb_forall in Hm. apply Hm, Hx.
Qed.
Lemma map_store_in l : forall m kv, In kv (fold_left map_store l m) -> In kv m \/ In kv l.
Proof.
  induction l as [|x l IH]; intros m kv H; cbn [fold_left] in H; [now left|].
  apply IH in H. destruct H as [H|H]; [|right; now right].
  unfold map_store in H. destruct H as [<- | H]; [right; now left|]. apply filter_In in H. left. apply H.
Qed.
(** With distinct keys nothing is overwritten. *)
Lemma map_store_keep l : forall m, NoDup (map fst m ++ map fst l) ->
  forall kv, In kv m \/ In kv l -> In kv (fold_left map_store l m).
Proof.
  induction l as [|x l IH]; intros m ND kv H; cbn [fold_left]; [destruct H as [H|[]]; exact H|].
  assert (ND' : NoDup (map fst (map_store m x) ++ map fst l)).
  { unfold map_store. cbn [map app]. cbn [map] in ND. apply NoDup_remove in ND. destruct ND as [ND NI].
    rewrite in_app_iff in NI.
    assert (EF : filter (fun y => negb (bytes_eqb (fst y) (fst x))) m = m).
    { clear IH ND H. induction m as [|y m IHm]; [reflexivity|]. cbn [filter map In] in *.
      destruct (bytes_eqb (fst y) (fst x)) eqn:EB.
      - apply bytes_eqb_eq in EB. exfalso. apply NI. left. now left.
      - cbn [negb]. f_equal. apply IHm. tauto. }
    rewrite EF. constructor; [rewrite in_app_iff; exact NI|exact ND]. }
  apply IH; [exact ND'|].
  destruct H as [H|[-> | H]].
  - left. unfold map_store. right. apply filter_In. split; [exact H|].
    apply negb_true_iff, bytes_eqb_neq. intros EQ. cbn [map] in ND. apply NoDup_remove_2 in ND.
    apply ND. apply in_app_iff. left. rewrite <- EQ. now apply in_map.
  - left. now left.
  - now right.
Qed.

(** ** What a contest decrypts to *)
Lemma nodup_sorted d : NoDup (map sd_id (cd_selections (cw_base d))) ->
  NoDup (map sd_id (get_selections (cw_base d))).
Proof.
  intros H. eapply Permutation_NoDup; [|exact H]. unfold get_selections. apply Permutation_map, sort_perm.
Qed.
Lemma vote_for_emplaced l ds d : In d ds -> vote_for (map (emplaced l) ds) (sd_id d) = vote_for l (sd_id d).
Proof.
  induction ds as [|e ds IH]; intros HI; [destruct HI|]. cbn [map vote_for].
  destruct (emplaced_spec l e) as [E1 E2]. rewrite E1.
  destruct (list_eq_dec Z.eq_dec (sd_id e) (sd_id d)) as [E|E]; [rewrite E2; now rewrite E|].
  destruct HI as [-> | HI]; [contradiction|]. apply IH, HI.
Qed.
Lemma marked_filter l : marked l = Z.of_nat (List.length (filter (fun v => 1 <=? v) (map ps_vote l))).
Proof.
  induction l as [|s l IH]; [reflexivity|]. cbn [marked map filter]. rewrite IH.
  destruct (1 <=? ps_vote s); cbn [List.length]; [rewrite Nat2Z.inj_succ|]; lia.
Qed.
Lemma total_sum l : total_votes l = fold_right Z.add 0 (map ps_vote l).
Proof. induction l as [|s l IH]; [reflexivity|]. cbn [total_votes map fold_right]. now rewrite IH. Qed.
Lemma votes_emplaced l ds : map ps_vote (map (emplaced l) ds) = map (fun d => vote_for l (sd_id d)) ds.
Proof. rewrite map_map. apply map_ext. intros d. apply emplaced_spec. Qed.
Lemma all_bits_sum {A} (f : A -> Z) l : Forall (fun x => f x = 0 \/ f x = 1) l ->
  0 <= zsum (map f l) <= Z.of_nat (List.length l).
Proof.
  induction 1 as [|x l H _ IH]; [split; reflexivity|]. cbn [map List.length]. rewrite zsum_cons, Nat2Z.inj_succ.
  destruct H as [-> | ->]; lia.
Qed.
Lemma all_ones vs : Forall (fun v => v = 0 \/ v = 1) vs -> zsum vs = Z.of_nat (List.length vs) ->
  Forall (fun v => v = 1) vs.
Proof.
  induction 1 as [|v vs H F IH]; intros E; constructor; rewrite zsum_cons in E; cbn [List.length] in E;
    rewrite Nat2Z.inj_succ in E.
  - pose proof (all_bits_sum (fun x => x) vs F) as B. rewrite map_id in B. destruct H as [-> | ->]; lia.
  - apply IH. pose proof (all_bits_sum (fun x => x) vs F) as B. rewrite map_id in B.
    destruct H as [-> | ->]; lia.
Qed.
Lemma Forall_const {A B} (c : B) l (l' : list A) : Forall (fun v => v = c) l -> List.length l = List.length l' ->
  l = map (fun _ => c) l'.
Proof.
  intros H. revert l'. induction H as [|v l E _ IH]; intros [|x l'] L; try discriminate; [reflexivity|].
  cbn [map]. injection L as L. rewrite E. f_equal. apply IH, L.
Qed.

Lemma decrypt_holds (PP : prime_params gp) s c v : 0 <= s < W256 -> v = 0 \/ v = 1 ->
  selection_holds gp (spec_key gp s) c v -> decrypt gp (cs_ct c) s = v.
Proof.
  intros Hs Hv (r & _ & Hr & ->). pose proof (vp_Qlo _ V) as HQ.
  assert (Hs0 : 0 <= s) by (clear - Hs; lia). assert (Hr0 : 0 <= r) by (clear - Hr; lia).
  assert (Hv0 : 0 <= v) by (destruct Hv as [-> | ->]; discriminate).
  rewrite (C15_decrypt_exact gp _ s v PP).
  - destruct Hv as [-> | ->]; reflexivity.
  - exact (spec_key_subgroup gp r V Hr0).
  - exact Hs.
  - split; [exact Hv0|]. destruct Hv as [-> | ->]; clear - HQ; lia.
  - apply (spec_enc_decrypts gp V); assumption.
Qed.

Lemma contents_of_result (PP : prime_params gp) s ext seed verify c m d r dh over reals phs pvs data hc t1 :
  0 <= s < W256 -> Z.of_nat (List.length (cw_placeholders d)) = cd_elected (cw_base d) ->
  contest_result gp sha hmac dump (spec_key gp s) ext seed verify c m d r dh over reals phs pvs data hc t1 ->
  exists vs, contest_contents gp s (over = true) (pc_selections c) d r vs pvs.
Proof.
  intros Hs HPH [C1 C2 C3 C4 C5 C6 C7 CS FR FP LP SUM C13 C14 C15 C16 C17 C18 C19 C20 C21 C22].
  exists (map (real_value over (pc_selections c)) (get_selections (cw_base d))).
  clear C13 C14 C15 C16 C17 C18 C19 C20 C21 C22 C1 C3 C4 C7.
  assert (BP : Forall (fun v => v = 0 \/ v = 1) pvs /\ List.length pvs = List.length (get_placeholders d) /\
    map cs_id phs = map sd_id (get_placeholders d) /\ map cs_placeholder phs = map (fun _ => true) (get_placeholders d) /\
    map (fun x => decrypt gp (cs_ct x) s) phs = pvs).
  { clear SUM CS. revert phs pvs LP FP. induction (get_placeholders d) as [|p ps IH]; intros phs pvs LP FP.
    - inversion FP as [HX|]. destruct phs as [|x phs], pvs as [|v pvs]; try discriminate. repeat split; constructor.
    - destruct phs as [|x phs], pvs as [|v pvs]; try discriminate; cbn [combine] in FP; inversion FP as [|? ? ? ? F1 F2]; subst.
      cbn [fst snd] in F1. injection LP as LP. destruct (IH phs pvs LP F2) as (I1 & I2 & I3 & I4 & I5).
      cbn [map List.length]. rewrite I2, I3, I4, I5. destruct F1 as [S1 S2 S3 S4 S5 S6 S7 S8 S9].
      split; [constructor; assumption|]. split; [reflexivity|]. rewrite S1, S4.
      split; [reflexivity|]. split; [reflexivity|]. f_equal. exact (decrypt_holds PP s x v Hs S5 S6). }
  destruct BP as (B1 & B2 & B3 & B4 & B5).
  assert (BR : map cs_id reals = map sd_id (get_selections (cw_base d)) /\
    map cs_placeholder reals = map (fun _ => false) (get_selections (cw_base d)) /\
    Forall (fun v => v = 0 \/ v = 1) (map (real_value over (pc_selections c)) (get_selections (cw_base d))) /\
    map (fun x => decrypt gp (cs_ct x) s) reals = map (real_value over (pc_selections c)) (get_selections (cw_base d))).
  { clear SUM CS. induction FR as [|p x ps xs F1 _ (I1 & I2 & I3 & I4)]; [repeat split; constructor|]. cbn [map].
    rewrite I1, I2, I4. destruct F1 as [S1 S2 S3 S4 S5 S6 S7 S8 S9]. rewrite S1, S4.
    split; [reflexivity|]. split; [reflexivity|]. split; [constructor; assumption|].
    f_equal. exact (decrypt_holds PP s x _ Hs S5 S6). }
  destruct BR as (R1 & R2 & R3 & R4).
  constructor.
  - split; assumption.
  - rewrite CS, map_app. congruence.
  - rewrite CS, map_app. congruence.
  - rewrite CS, map_app. congruence.
  - apply Forall_app. split; assumption.
  - change (fold_right Z.add 0) with zsum. rewrite zsum_app_eq. exact SUM.
  - intros NO. assert (EO : over = false) by (destruct over; congruence). rewrite EO. reflexivity.
  - intros EO. rewrite EO in *. split; [reflexivity|]. apply Forall_const; [|exact B2]. apply all_ones; [exact B1|].
    assert (Z0 : zsum (map (real_value true (pc_selections c)) (get_selections (cw_base d))) = 0) by apply zsum_const_0.
    rewrite Z0 in SUM. rewrite Z.add_0_l in SUM. rewrite SUM, <- HPH, B2. unfold get_placeholders.
    rewrite sort_length. reflexivity.
Qed.

(** Either the contest was overvoted, or its votes are the voter's and their total
    did not wrap. *)
Lemma contest_over_iff (votes : list pselection) d over :
  Forall (fun s => 0 <= ps_vote s) (map (emplaced votes) (get_selections (cw_base d))) ->
  Z.of_nat (List.length (get_selections (cw_base d))) < W64 -> cd_elected (cw_base d) < W64 ->
  (over = true <-> cd_elected (cw_base d) < marked (map (emplaced votes) (get_selections (cw_base d))) \/
    vote_limit (cd_elected (cw_base d)) (cd_allowed (cw_base d))
    < total_votes (map (emplaced votes) (get_selections (cw_base d))) mod W64) ->
  (over = false -> Forall (fun v => v = 0 \/ v = 1) (votes_of votes d)) ->
  cd_allowed (cw_base d) < W64 ->
  (over = true <-> over_limit (votes_of votes d) (cd_elected (cw_base d)) (cd_allowed (cw_base d))).
Proof.
  intros F HL HE HO HB HA. rewrite marked_filter, total_sum, votes_emplaced in HO.
  change (map (fun d0 => vote_for votes (sd_id d0)) (get_selections (cw_base d))) with (votes_of votes d) in HO.
  unfold over_limit. pose proof W64_pos as HW.
  assert (N : 0 <= fold_right Z.add 0 (votes_of votes d)).
  { rewrite Forall_map in F. unfold votes_of. clear - F. induction F as [|x l Hx _ IH]; cbn [map fold_right]; [discriminate|].
    rewrite (proj2 (emplaced_spec votes x)) in Hx. apply Z.add_nonneg_nonneg; assumption. }
  destruct (Z.ltb_spec (fold_right Z.add 0 (votes_of votes d)) W64) as [C|C].
  - rewrite Z.mod_small in HO by (split; assumption). exact HO.
  - split; intros _.
    + right. unfold vote_limit. destruct (_ =? 0); clear - C HA HE; lia.
    + destruct over; [reflexivity|]. exfalso. specialize (HB eq_refl).
      pose proof (all_bits_sum (fun x => x) _ HB) as B. rewrite map_id in B.
      change zsum with (fold_right Z.add 0) in B.
      assert (LL : List.length (votes_of votes d) = List.length (get_selections (cw_base d))) by apply map_length.
      rewrite LL in B. clear - B C HL. lia.
Qed.
End Ball.
