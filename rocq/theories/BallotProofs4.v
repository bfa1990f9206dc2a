(** Compact ballots and the chain of ballot codes. *)
From Coq Require Import Permutation Psatz String.
From Verif Require Import Base GroupModel GroupSpec GroupProofs CodecModel HashModel Algebra
  ElgamalModel ElgamalSpec ElgamalProofs ChaumModel ChaumProofs TallyProofs HashedProofs
  SortModel SortProofs ManifestModel ManifestSpec ManifestProofs BallotModel JsonModel EncryptModel
  PropElgamal PropChaum PropManifest EncryptSpec EncryptProofs BallotProofs BallotProofs2 BallotProofs3.
Open Scope list_scope.
Open Scope Z_scope.
Ltac Zify.zify_post_hook ::= idtac.

(** ** Expanding compact plaintext ballots *)
Lemma skip_cons {A} (l : list A) : forall i x t, skipn i l = x :: t -> nth_error l i = Some x /\ skipn (S i) l = t.
Proof.
  induction l as [|y l IH]; intros [|i] x t H; try discriminate.
  - cbn in H. injection H as -> ->. split; reflexivity.
  - cbn [skipn] in H. apply IH in H. exact H.
Qed.
Lemma firstn_add {A} (l : list A) : forall n k, firstn (n + k) l = firstn n l ++ firstn k (skipn n l).
Proof.
  induction l as [|x l IH]; intros [|n] k; cbn [firstn skipn plus]; try reflexivity.
  - now rewrite firstn_nil.
  - cbn [app]. f_equal. apply IH.
Qed.
Lemma skipn_plus {A} (l : list A) : forall i n, skipn (i + n) l = skipn n (skipn i l).
Proof.
  induction l as [|x l IH]; intros [|i] n; cbn [skipn plus]; try reflexivity; [now rewrite skipn_nil|apply IH].
Qed.
Definition slots (ds : list contest_ph) : nat :=
  List.length (flat_map (fun d => get_selections (cw_base d)) ds).
Lemma expand_selections_spec cp ids : forall i vs ws tv tw,
  List.length vs = List.length ids -> List.length ws = List.length ids ->
  skipn i (cpt_votes cp) = vs ++ tv -> skipn i (cpt_writeins cp) = ws ++ tw ->
  expand_selections cp ids i
  = Ok (map (fun x => {| ps_id := sd_id (fst x); ps_vote := fst (snd x); ps_placeholder := false;
                         ps_writein := snd (snd x) |}) (combine ids (combine vs ws))) /\
  skipn (i + List.length ids) (cpt_votes cp) = tv /\ skipn (i + List.length ids) (cpt_writeins cp) = tw.
Proof.
  induction ids as [|d ids IH]; intros i vs ws tv tw L1 L2 S1 S2.
  - destruct vs, ws; try discriminate. cbn [expand_selections combine map List.length].
    rewrite Nat.add_0_r. repeat split; assumption.
  - destruct vs as [|v vs], ws as [|w ws]; try discriminate. injection L1 as L1. injection L2 as L2.
    cbn [app] in S1, S2. apply skip_cons in S1. apply skip_cons in S2. destruct S1 as [N1 S1], S2 as [N2 S2].
    destruct (IH (S i) vs ws tv tw L1 L2 S1 S2) as (E & R1 & R2).
    cbn [expand_selections]. unfold vec_at. rewrite N1, N2. cbn [bind]. rewrite E. cbn [bind combine map fst snd List.length].
    replace (i + S (List.length ids))%nat with (S i + List.length ids)%nat by (cbn; lia).
    split; [reflexivity|]. split; assumption.
Qed.
Lemma expand_selections_short cp ids : forall i,
  (i <= List.length (cpt_votes cp))%nat -> (i <= List.length (cpt_writeins cp))%nat ->
  (List.length (cpt_votes cp) < i + List.length ids)%nat \/ (List.length (cpt_writeins cp) < i + List.length ids)%nat ->
  expand_selections cp ids i = Throw OutOfRange.
Proof.
  induction ids as [|d ids IH]; intros i L1 L2 HS; cbn [List.length] in HS; [lia|].
  cbn [expand_selections]. unfold vec_at.
  destruct (nth_error (cpt_votes cp) i) as [v|] eqn:N1; [|reflexivity]. cbn [bind].
  destruct (nth_error (cpt_writeins cp) i) as [w|] eqn:N2; [|reflexivity]. cbn [bind].
  assert (M1 : (i < List.length (cpt_votes cp))%nat) by (apply nth_error_Some; congruence).
  assert (M2 : (i < List.length (cpt_writeins cp))%nat) by (apply nth_error_Some; congruence).
  rewrite IH; [reflexivity|lia|lia|lia].
Qed.
Lemma take_split {A} (l : list A) i n : (i + n <= List.length l)%nat ->
  skipn i l = firstn n (skipn i l) ++ skipn (i + n) l /\ List.length (firstn n (skipn i l)) = n.
Proof.
  intros H. split.
  - rewrite skipn_plus. symmetry. apply firstn_skipn.
  - rewrite firstn_length, skipn_length. lia.
Qed.
Lemma map_combine_votes (ids : list selection) : forall (vs : list Z) (ws : list bytes),
  List.length vs = List.length ids -> List.length ws = List.length ids ->
  let ss := map (fun x => {| ps_id := sd_id (fst x); ps_vote := fst (snd x); ps_placeholder := false;
                         ps_writein := snd (snd x) |}) (combine ids (combine vs ws)) in
  map ps_id ss = map sd_id ids /\ map ps_vote ss = vs /\ map ps_writein ss = ws /\
  Forall (fun s => ps_placeholder s = false) ss.
Proof.
  induction ids as [|d ids IH]; intros [|v vs] [|w ws] L1 L2; try discriminate; cbn [combine map]; [repeat split; constructor|].
  injection L1 as L1. injection L2 as L2. destruct (IH vs ws L1 L2) as (I1 & I2 & I3 & I4).
  cbn [map fst snd ps_id ps_vote ps_writein] in *. split; [f_equal; exact I1|]. split; [f_equal; exact I2|].
  split; [f_equal; exact I3|]. constructor; [reflexivity|exact I4].
Qed.
Record expanded (ds : list contest_ph) (vs : list Z) (ws : list bytes) (cs : list pcontest) : Prop := {
  ex_contests : map pc_id cs = map (fun d => cd_id (cw_base d)) ds;
  ex_ids : map (fun c => map ps_id (pc_selections c)) cs = map (fun d => map sd_id (get_selections (cw_base d))) ds;
  ex_votes : map ps_vote (flat_map pc_selections cs) = vs;
  ex_writeins : map ps_writein (flat_map pc_selections cs) = ws;
  ex_marks : Forall (fun s => ps_placeholder s = false) (flat_map pc_selections cs) }.
Lemma expand_contests_spec cp ds : forall i,
  (i + slots ds <= List.length (cpt_votes cp))%nat -> (i + slots ds <= List.length (cpt_writeins cp))%nat ->
  exists cs, expand_contests cp ds i = Ok cs /\
    expanded ds (firstn (slots ds) (skipn i (cpt_votes cp))) (firstn (slots ds) (skipn i (cpt_writeins cp))) cs.
Proof.
  induction ds as [|d ds IH]; intros i L1 L2; cbn [expand_contests].
  - exists []. split; [reflexivity|]. cbn. constructor; try reflexivity. constructor.
  - set (ids := get_selections (cw_base d)).
    assert (SL : slots (d :: ds) = (List.length ids + slots ds)%nat).
    { unfold slots. cbn [flat_map]. rewrite app_length. reflexivity. }
    rewrite SL in L1, L2 |- *.
    destruct (take_split (cpt_votes cp) i (List.length ids)) as [T1 K1]; [lia|].
    destruct (take_split (cpt_writeins cp) i (List.length ids)) as [T2 K2]; [lia|].
    destruct (expand_selections_spec cp ids i _ _ _ _ K1 K2 T1 T2) as (E & _ & _).
    rewrite E. cbn [bind].
    destruct (IH (i + List.length ids)%nat) as (cs & E2 & [X1 X2 X3 X4 X5]); [lia|lia|].
    rewrite E2. cbn [bind]. eexists. split; [reflexivity|].
    destruct (map_combine_votes ids _ _ K1 K2) as (M1 & M2 & M3 & M4).
    constructor; cbn [map flat_map pc_id pc_selections].
    + rewrite X1. reflexivity.
    + rewrite X2, M1. reflexivity.
    + rewrite map_app, M2, X3, firstn_add. rewrite skipn_plus. reflexivity.
    + rewrite map_app, M3, X4, firstn_add. rewrite skipn_plus. reflexivity.
    + apply Forall_app. split; assumption.
Qed.

Lemma expand_contests_short cp ds : forall i,
  (i <= List.length (cpt_votes cp))%nat -> (i <= List.length (cpt_writeins cp))%nat ->
  (List.length (cpt_votes cp) < i + slots ds)%nat \/ (List.length (cpt_writeins cp) < i + slots ds)%nat ->
  expand_contests cp ds i = Throw OutOfRange.
Proof.
  induction ds as [|d ds IH]; intros i L1 L2 HS; [unfold slots in HS; cbn in HS; lia|]. cbn [expand_contests].
  set (ids := get_selections (cw_base d)).
  assert (SL : slots (d :: ds) = (List.length ids + slots ds)%nat).
  { unfold slots. cbn [flat_map]. rewrite app_length. reflexivity. }
  rewrite SL in HS.
  assert (C : ((List.length (cpt_votes cp) < i + List.length ids)%nat \/ (List.length (cpt_writeins cp) < i + List.length ids)%nat)
    \/ ((i + List.length ids <= List.length (cpt_votes cp))%nat /\ (i + List.length ids <= List.length (cpt_writeins cp))%nat)) by lia.
  destruct C as [C|[C1 C2]]; [rewrite (expand_selections_short cp ids i L1 L2 C); reflexivity|].
  destruct (take_split (cpt_votes cp) i (List.length ids) C1) as [T1 K1].
  destruct (take_split (cpt_writeins cp) i (List.length ids) C2) as [T2 K2].
  destruct (expand_selections_spec cp ids i _ _ _ _ K1 K2 T1 T2) as (E & _ & _).
  rewrite E. cbn [bind]. rewrite IH; [reflexivity|exact C1|exact C2|lia].
Qed.

Lemma app_inj_len {A} (a b c d : list A) : a ++ b = c ++ d -> List.length a = List.length c -> a = c /\ b = d.
Proof.
  revert c. induction a as [|x a IH]; intros [|y c] H L; try discriminate; [split; [reflexivity|exact H]|].
  cbn [app] in H. injection H as -> H. injection L as L. destruct (IH c H L) as [-> ->]. auto.
Qed.
(** A list of contests is determined by the identifiers and the flattened values. *)
Lemma contests_ext (cs cs' : list pcontest) :
  map pc_id cs = map pc_id cs' ->
  map (fun c => map ps_id (pc_selections c)) cs = map (fun c => map ps_id (pc_selections c)) cs' ->
  map ps_vote (flat_map pc_selections cs) = map ps_vote (flat_map pc_selections cs') ->
  map ps_writein (flat_map pc_selections cs) = map ps_writein (flat_map pc_selections cs') ->
  map unmark_contest cs = map unmark_contest cs'.
Proof.
  revert cs'. induction cs as [|c cs IH]; intros [|c' cs'] H1 H2 H3 H4; try discriminate; [reflexivity|].
  cbn [map flat_map] in *. injection H1 as H1 H1'. injection H2 as H2 H2'.
  rewrite !map_app in H3, H4.
  assert (L : List.length (pc_selections c) = List.length (pc_selections c')).
  { apply (f_equal (@List.length _)) in H2. rewrite !map_length in H2. exact H2. }
  apply app_inj_len in H3; [|rewrite !map_length; exact L]. apply app_inj_len in H4; [|rewrite !map_length; exact L].
  destruct H3 as [H3 H3'], H4 as [H4 H4']. f_equal; [|apply IH; assumption].
  unfold unmark_contest. rewrite H1. f_equal. clear - H2 H3 H4 L.
  revert H2 H3 H4 L. generalize (pc_selections c'). induction (pc_selections c) as [|s l IH]; intros [|s' l'] H2 H3 H4 L; try discriminate; [reflexivity|].
  cbn [map] in *. injection H2 as A1 A2. injection H3 as B1 B2. injection H4 as D1 D2. injection L as L.
  f_equal; [unfold unmark_selection; congruence|apply IH; assumption].
Qed.
Lemma unmark_all cs : Forall (fun s => ps_placeholder s = false) (flat_map pc_selections cs) -> map unmark_contest cs = cs.
Proof.
  induction cs as [|c cs IH]; intros H; [reflexivity|]. cbn [flat_map map] in *. apply Forall_app in H. destruct H as [H1 H2].
  f_equal; [|apply IH, H2]. destruct c as [i l]. unfold unmark_contest. cbn [pc_id pc_selections] in *. f_equal. clear - H1.
  induction H1 as [|s l H _ IH]; [reflexivity|]. cbn [map]. f_equal; [|exact IH]. destruct s. unfold unmark_selection. cbn in *. congruence.
Qed.

(** Expanding what was compressed. *)
Lemma expand_compress b m nb : emplace_ballot b m = Ok nb -> expand_plain (compress_plain nb) m = Ok (unmark nb).
Proof.
  intros H. apply emplace_ballot_spec in H. destruct H as (style & ds & _ & Hds & Hid & Hst & Hc).
  unfold expand_plain. cbn [compress_plain cpt_id cpt_style]. rewrite Hst, Hds. cbn [bind].
  set (ss := flat_map pc_selections (pb_contests nb)).
  assert (SL : slots ds = List.length ss).
  { unfold slots, ss. rewrite Hc. clear. induction ds as [|d ds IH]; [reflexivity|]. cbn [flat_map map].
    rewrite !app_length, IH, (proj2 (emplaced_contest_spec _ _)), map_length. reflexivity. }
  destruct (expand_contests_spec (compress_plain nb) ds 0) as (cs & E & [X1 X2 X3 X4 X5]).
  { cbn [compress_plain cpt_votes]. rewrite map_length, SL. apply le_n. }
  { cbn [compress_plain cpt_writeins]. rewrite map_length, SL. apply le_n. }
  cbn [skipn compress_plain cpt_votes cpt_writeins] in X3, X4. fold ss in X3, X4.
  rewrite SL, firstn_all2 in X3, X4 by (rewrite map_length; apply le_n).
  assert (E' : expand_contests (compress_plain nb) ds 0 = Ok cs) by exact E.
  unfold compress_plain in E'. fold ss in E'. unfold compress_plain. fold ss. rewrite E'. cbn [bind].
  unfold unmark. rewrite Hst. do 2 f_equal. rewrite <- (unmark_all cs X5). apply contests_ext.
  - rewrite X1, Hc, map_map. apply map_ext. intros d. symmetry. apply emplaced_contest_spec.
  - rewrite X2, Hc, map_map. apply map_ext. intros d. rewrite (proj2 (emplaced_contest_spec _ _)), map_map.
    apply map_ext. intros x. symmetry. apply emplaced_spec.
  - exact X3.
  - exact X4.
Qed.

Section Compact.
Context (gp : params) (V : valid_params gp) (sha : bytes -> Z) (hmac : bytes -> bytes -> Z)
        (dump : json -> outcome bytes).
Notation Q := (gpQ gp).

Lemma clone_val v v' : clone_q gp v = Ok v' -> v' = v /\ clone_q gp v = Ok v.
Proof.
  unfold clone_q, make_q. cbn [Nat.ltb Nat.leb negb andb]. destruct (gpQ gp <? v); [discriminate|].
  intros H. apply Ok_inj in H. auto.
Qed.
Lemma compress_cipher_ok p c cc : compress_cipher gp p c = Ok cc ->
  exists n, cb_nonce c = Some n /\ clone_q gp n = Ok n /\
  cc = {| cct_plain := compress_plain p; cct_state := BS_unknown; cct_seed := cb_seed c; cct_code := cb_code c;
          cct_timestamp := cb_timestamp c; cct_nonce := n |}.
Proof.
  unfold compress_cipher. destruct (cb_nonce c) as [n|]; [|discriminate]. intros H.
  apply bind_ok in H. destruct H as (s & H1 & H). apply bind_ok in H. destruct H as (k & H2 & H).
  apply bind_ok in H. destruct H as (n' & H3 & H). apply Ok_inj in H.
  apply clone_val in H1. apply clone_val in H2. apply clone_val in H3.
  destruct H1 as [-> _], H2 as [-> _], H3 as [-> H3]. exists n. auto.
Qed.
(** A run with a drawn nonce and the clock is also a run with them given. *)
Lemma ballot_replay E b m cx code_seed nonce ts verify st r st' n :
  encrypt_ballot gp sha hmac dump E b m cx code_seed nonce ts verify st = Ok (r, st') ->
  cb_nonce r = Some n -> cb_timestamp r <> 0 ->
  exists s1 s2, encrypt_ballot gp sha hmac dump E b m cx code_seed (Some n) (cb_timestamp r) verify s1 = Ok (r, s2).
Proof.
  unfold encrypt_ballot. destruct (get_style m (pb_style b)) as [style|] eqn:ES; [|discriminate].
  intros H HN HT. apply mbind_ok in H. destruct H as (n' & s1 & H1 & H).
  apply mbind_ok in H. destruct H as (cs & s2 & H2 & H).
  apply mbind_ok in H. destruct H as (t & s3 & H3 & H).
  apply mbind_ok in H. destruct H as (now & s4 & H4 & H).
  apply mbind_ok in H. destruct H as (r0 & s5 & H5 & H).
  apply lift_ok in H5. destruct H5 as [H5 ->].
  assert (HR : r = r0 /\ (verify = true -> cballot_valid gp sha r0 (im_hash m) (el_pk cx) (el_ext cx) = Ok true)).
  { destruct verify; cbn [negb] in H.
    - apply mbind_ok in H. destruct H as (ok & s6 & H6 & H). apply lift_ok in H6. destruct H6 as [Hok ->].
      destruct ok; [|discriminate]. apply ret_ok in H. destruct H as [-> _]. auto.
    - apply ret_ok in H. destruct H as [-> _]. split; [reflexivity|discriminate]. }
  destruct HR as [-> Hver]. clear H.
  assert (HX : cballot_make gp sha 0 (pb_id b) (pb_style b) (im_hash m) cs (Some n) (cb_timestamp r0) (Some code_seed) None = Ok r0).
  { revert H5 HN HT. unfold cballot_make. destruct cs as [|c0 cs]; [discriminate|].
    destruct (cballot_hash gp sha (pb_id b) (c0 :: cs) (im_hash m)) as [h| |]; cbn [bind]; try discriminate.
    intros H5 HN HT. apply Ok_inj in H5. subst r0. cbn [cb_nonce cb_timestamp] in *.
    apply Z.eqb_neq in HT. rewrite HT, HN. reflexivity. }
  assert (HNN : n' = n).
  { revert H5 HN. unfold cballot_make. destruct cs as [|c0 cs]; [discriminate|].
    destruct (cballot_hash gp sha (pb_id b) (c0 :: cs) (im_hash m)) as [h| |]; cbn [bind]; try discriminate.
    intros H5 HN. apply Ok_inj in H5. subst r0. cbn [cb_nonce] in HN. congruence. }
  subst n'. exists s1. eexists. apply Z.eqb_neq in HT.
  unfold mbind at 1. unfold ret at 1. unfold mbind at 1. rewrite H2. unfold mbind at 1. rewrite HT. unfold ret at 1.
  unfold mbind at 1. rewrite HT. unfold ret at 1. unfold mbind at 1, lift at 1. rewrite HX.
  destruct verify; cbn [negb]; [|reflexivity]. unfold mbind, lift. rewrite (Hver eq_refl). reflexivity.
Qed.

(** Expanding a compact ciphertext ballot, without precomputed values. *)
Lemma expand_cipher_spec E E' b m cx code_seed nonce ts verify st cc st' st2 :
  env_empty E -> env_empty E' -> env_good gp (el_pk cx) E' ->
  encrypt_compact_ballot gp sha hmac dump E b m cx code_seed nonce ts verify st = Ok (cc, st') ->
  cct_timestamp cc <> 0 ->
  exists nb c s1 r2 s2,
    emplace_ballot b m = Ok nb /\
    encrypt_ballot gp sha hmac dump E nb m cx code_seed nonce ts verify st = Ok (c, s1) /\
    cct_code cc = cb_code c /\ cct_seed cc = cb_seed c /\ cct_timestamp cc = cb_timestamp c /\
    encrypt_ballot gp sha hmac dump E' (unmark nb) m cx (cct_seed cc) (Some (cct_nonce cc)) (cct_timestamp cc) false st2
      = Ok (r2, s2) /\
    strip_ballot c = strip_ballot r2 /\
    (encrypt_ballot gp sha hmac dump E' (unmark nb) m cx (cct_seed cc) (Some (cct_nonce cc)) (cct_timestamp cc) true st2
      = Ok (r2, s2) -> expand_cipher gp sha hmac dump E' cc m cx st2 = Ok (r2, s2)) /\
    (forall r s, expand_cipher gp sha hmac dump E' cc m cx st2 = Ok (r, s) -> r = r2).
Proof.
  intros HE HE' EG H HT. unfold encrypt_compact_ballot in H.
  apply mbind_ok in H. destruct H as (nb & s0 & H1 & H). apply lift_ok in H1. destruct H1 as [Hnb ->].
  apply mbind_ok in H. destruct H as (c & s1 & H2 & H). apply lift_ok in H. destruct H as [H3 ->].
  apply compress_cipher_ok in H3. destruct H3 as (n & Hn & Hcl & HX). subst cc.
  cbn [cct_plain cct_state cct_seed cct_code cct_timestamp cct_nonce] in *.
  destruct (ballot_replay _ _ _ _ _ _ _ _ _ _ _ _ H2 Hn HT) as (q1 & q2 & H4).
  assert (HS : cb_seed c = code_seed).
  { apply (encrypt_ballot_ok gp sha hmac dump) in H2.
    destruct H2 as (_ & _ & _ & _ & _ & _ & _ & _ & _ & _ & _ & HS & _). exact HS. }
  assert (H5 : encrypt_ballot gp sha hmac dump E nb m cx code_seed (Some n) (cb_timestamp c) false q1 = Ok (c, q2)).
  { destruct verify; [apply (sub_ballot gp sha hmac dump _ _ _ _ _ _ _ _ _ H4)|exact H4]. }
  destruct (ballot_sim gp V sha hmac dump E E' nb m cx code_seed n (cb_timestamp c) HE HE' (eg_rand _ _ _ EG) HT
              q1 st2 c q2 H5) as (r2 & s2 & H6 & HB).
  exists nb, c, s1, r2, s2. rewrite !ballot_unmark, HS.
  split; [exact Hnb|]. split; [exact H2|]. do 3 (split; [reflexivity|]). split; [exact H6|]. split; [exact HB|].
  assert (HC : cb_code r2 = cb_code c) by (apply (f_equal cb_code) in HB; symmetry; exact HB).
  unfold expand_cipher. cbn [cct_plain cct_state cct_seed cct_code cct_timestamp cct_nonce].
  rewrite (expand_compress _ _ _ Hnb), Hcl.
  split.
  - intros H7. unfold mbind, lift. rewrite ballot_unmark, H7, HC, elem_eq_refl. reflexivity.
  - intros r s. unfold mbind at 1, lift at 1. unfold mbind at 1, lift at 1. intros H7.
    apply mbind_ok in H7. destruct H7 as (r' & s' & H7 & H8). rewrite ballot_unmark in H7.
    apply (sub_ballot gp sha hmac dump) in H7. rewrite H6 in H7.
    destruct (elem_eq (cb_code r') (cb_code c)); [|discriminate]. apply ret_ok in H8. destruct H8 as [-> _].
    apply pair_ok in H7. destruct H7 as [H7 _]. symmetry. exact H7.
Qed.
End Compact.
