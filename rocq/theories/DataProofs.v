(** The encrypted data of a contest is what [DataSpec] asks for. *)
From Coq Require Import Permutation Psatz String.
From Verif Require Import Base GroupModel GroupSpec GroupProofs CodecModel HashModel Algebra
  ElgamalModel ElgamalSpec ElgamalProofs ChaumModel ChaumProofs TallyProofs HashedProofs
  SortModel SortProofs ManifestModel ManifestSpec ManifestProofs BallotModel JsonModel EncryptModel
  PropElgamal PropChaum PropManifest EncryptSpec EncryptProofs BallotProofs BallotProofs2 BallotProofs3
  BallotProofs5 DataSpec.
Open Scope string_scope.
Open Scope list_scope.
Open Scope Z_scope.
Ltac Zify.zify_post_hook ::= idtac.

Lemma nodup_key {A B} (f : A -> B) l x y : NoDup (map f l) -> In x l -> In y l -> f x = f y -> x = y.
Proof.
  induction l as [|a l IH]; intros ND Hx Hy E; [destruct Hx|]. cbn [map] in ND. inversion ND as [|? ? N1 N2]; subst.
  destruct Hx as [-> | Hx], Hy as [-> | Hy]; auto; exfalso; apply N1.
  - rewrite E. now apply in_map.
  - rewrite <- E. now apply in_map.
Qed.
Lemma member_set l k v k' :
  member (members_set l k v) k' = if bytes_eqb k' k then Some v else member l k'.
Proof.
  induction l as [|[a w] l IH]; cbn [members_set member]; [reflexivity|].
  destruct (bytes_eqb k a) eqn:E1.
  - apply bytes_eqb_eq in E1. subst a. cbn [member]. destruct (bytes_eqb k' k); reflexivity.
  - destruct (bytes_ltb k a); cbn [member]; [reflexivity|]. rewrite IH.
    destruct (bytes_eqb k' a) eqn:E2; [|reflexivity]. apply bytes_eqb_eq in E2. subst a.
    destruct (bytes_eqb k' k) eqn:E3; [|reflexivity]. apply bytes_eqb_eq in E3. subst k'. rewrite bytes_eqb_refl in E1. discriminate.
Qed.
Lemma members_names l k v a w : In (a, w) (members_set l k v) -> a = k \/ In (a, w) l.
Proof.
  induction l as [|[b u] l IH]; cbn [members_set]; intros H.
  - destruct H as [H|[]]. injection H as <- <-. now left.
  - destruct (bytes_eqb k b); [destruct H as [H|H]; [injection H as <- <-; now left|right; now right]|].
    destruct (bytes_ltb k b); [destruct H as [H|H]; [injection H as <- <-; now left|now right]|].
    destruct H as [H|H]; [right; now left|]. destruct (IH H) as [X|X]; [now left|right; now right].
Qed.

(** [w] holds exactly the texts of [ws]. *)
Definition texts (f : bytes -> bytes) (w : json) (ws : list bytes) : Prop :=
  match w with
  | JNull => ws = []
  | JObj l => ws <> [] /\ (forall k v, In (k, v) l -> In k ws) /\
      forall k, In k ws -> member l k = Some (JStr (f k))
  | _ => False
  end.
Lemma texts_set f w ws k : texts f w ws -> exists w', json_set w k (JStr (f k)) = Ok w' /\ texts f w' (ws ++ [k]).
Proof.
  intros H. destruct w; cbn [texts] in H; try contradiction.
  - subst ws. eexists. split; [reflexivity|]. cbn. split; [discriminate|]. split.
    + intros a v [E|[]]. injection E as <- <-. now left.
    + intros a [<- | []]. rewrite bytes_eqb_refl. reflexivity.
  - destruct H as (_ & H1 & H2). eexists. split; [reflexivity|]. cbn [texts]. split; [destruct ws; discriminate|]. split.
    + intros a v HI. apply members_names in HI. apply in_app_iff. destruct HI as [-> | HI]; [right; now left|].
      left. eapply H1, HI.
    + intros a HI. rewrite member_set. destruct (bytes_eqb a k) eqn:E; [apply bytes_eqb_eq in E; subst; reflexivity|].
      apply H2. apply in_app_iff in HI. destruct HI as [HI|[<-|[]]]; [exact HI|]. rewrite bytes_eqb_refl in E. discriminate.
Qed.
Lemma texts_ext f w ws ws' : (forall k, In k ws <-> In k ws') -> texts f w ws -> texts f w ws'.
Proof.
  intros H T. destruct w; cbn [texts] in *; try contradiction.
  - subst. destruct ws' as [|k t]; [reflexivity|]. destruct (proj2 (H k)). now left.
  - destruct T as (T0 & T1 & T2). split; [|split].
    + destruct ws as [|k t]; [congruence|]. intros ->. apply (proj1 (H k)). now left.
    + intros k v X. apply H. eapply T1, X.
    + intros k X. apply T2, H, X.
Qed.

Lemma error_data_spec c : error_data c =
  Ok (array_of (map (fun s => JStr (ps_id s)) (filter (fun s => ps_vote s =? 1) (pc_selections c)))).
Proof.
  unfold error_data.
  assert (G : forall l acc, foldM (fun j s => if ps_vote s =? 1 then json_push j (JStr (ps_id s)) else Ok j) l (array_of acc)
    = Ok (array_of (acc ++ map (fun s => JStr (ps_id s)) (filter (fun s => ps_vote s =? 1) l)))).
  { induction l as [|s l IH]; intros acc; cbn [foldM filter map]; [rewrite app_nil_r; reflexivity|].
    destruct (ps_vote s =? 1); cbn [map]; [|cbn [bind]; apply IH].
    replace (json_push (array_of acc) (JStr (ps_id s))) with (Ok (array_of (acc ++ [JStr (ps_id s)]))).
    - cbn [bind]. rewrite IH, <- app_assoc. reflexivity.
    - destruct acc as [|a acc]; reflexivity. }
  apply (G (pc_selections c) []).
Qed.

Section Ext.
Context (dump : json -> outcome bytes).

(** The loop over candidates sets the text when some candidate matches. *)
Lemma cand_loop f d ks k : forall w ws, texts f w ws ->
  exists w', foldM (fun j c => if bytes_eqb (sd_candidate d) (ca_id c) && ca_writein c
                               then json_set j k (JStr (f k)) else Ok j) ks w = Ok w' /\
    texts f w' (if existsb (fun c => bytes_eqb (sd_candidate d) (ca_id c) && ca_writein c) ks then ws ++ [k] else ws).
Proof.
  induction ks as [|c ks IH]; intros w ws T; cbn [foldM existsb]; [eauto|].
  destruct (bytes_eqb (sd_candidate d) (ca_id c) && ca_writein c); cbn [orb].
  - destruct (texts_set f w ws k T) as (w1 & -> & T1). cbn [bind]. destruct (IH w1 _ T1) as (w2 & H & T2).
    exists w2. split; [exact H|]. eapply texts_ext; [|exact T2]. intros a. destruct (existsb _ ks); [|reflexivity].
    rewrite !in_app_iff. cbn. tauto.
  - cbn [bind]. apply IH, T.
Qed.
Lemma opt_loop f m k xs : forall w ws, texts f w ws ->
  exists w', foldM (fun j d => if bytes_eqb k (sd_id d) then
      foldM (fun j c => if bytes_eqb (sd_candidate d) (ca_id c) && ca_writein c
                        then json_set j k (JStr (f k)) else Ok j) (im_candidates m) j else Ok j) xs w = Ok w' /\
    texts f w' (ws ++ map (fun _ => k) (filter (fun d => bytes_eqb k (sd_id d) && for_writein m d) xs)).
Proof.
  induction xs as [|d xs IH]; intros w ws T; cbn [foldM filter]; [rewrite app_nil_r; eauto|].
  destruct (bytes_eqb k (sd_id d)); cbn [andb bind]; [|apply IH, T].
  destruct (cand_loop f d (im_candidates m) k w ws T) as (w1 & -> & T1). cbn [bind].
  destruct (IH w1 _ T1) as (w2 & H & T2). exists w2. split; [exact H|].
  unfold for_writein at 1. destruct (existsb _ (im_candidates m)); cbn [map]; [|exact T2].
  rewrite <- app_assoc in T2. exact T2.
Qed.

Lemma written_emplaced l x : ps_writein (emplaced l x) = written l (sd_id x).
Proof. unfold written. rewrite emplaced_first. destruct (first_entry l (sd_id x)); reflexivity. Qed.

(** 367-371: with distinct contest ids the last contest with the id is the contest. *)
Lemma ballot_selections_spec m d c :
  manifest_ready m -> In d (im_contests m) -> pc_id c = cd_id (cw_base d) ->
  ballot_selections c m = get_selections (cw_base d).
Proof.
  intros MR HI HC. unfold ballot_selections. rewrite HC.
  assert (HI' : In d (im_get_contests m)) by (unfold im_get_contests; apply sort_in, HI).
  assert (IDS : forall y, In y (im_get_contests m) -> cd_id (cw_base d) = cd_id (cw_base y) -> y = d).
  { intros y Hy E. apply (mr_ids _ MR); [apply sort_in in Hy; exact Hy|exact HI|congruence]. }
  revert HI' IDS. generalize (im_get_contests m) as l.
  assert (KEEP : forall l, (forall y, In y l -> cd_id (cw_base d) = cd_id (cw_base y) -> y = d) ->
    fold_left (fun acc y => if bytes_eqb (cd_id (cw_base d)) (cd_id (cw_base y)) then get_selections (cw_base y) else acc) l
      (get_selections (cw_base d)) = get_selections (cw_base d)).
  { induction l as [|y l IH]; intros H; [reflexivity|]. cbn [fold_left].
    destruct (bytes_eqb _ _) eqn:E; [|apply IH; intros z Hz; apply H; now right].
    apply bytes_eqb_eq in E. rewrite (H y (or_introl eq_refl) E). apply IH. intros z Hz. apply H. now right. }
  intros l. generalize (@nil selection) as acc.
  induction l as [|y l IH]; intros acc HIn H; [destruct HIn|]. cbn [fold_left]. destruct HIn as [-> | HIn].
  - rewrite bytes_eqb_refl. apply KEEP. intros z Hz. apply H. now right.
  - apply IH; [exact HIn|]. intros z Hz. apply H. now right.
Qed.

Lemma emplaced_marked l xs :
  filter (fun s => ps_vote s =? 1) (map (emplaced l) xs)
  = map (emplaced l) (filter (fun x => vote_for l (sd_id x) =? 1) xs).
Proof.
  induction xs as [|x xs IH]; [reflexivity|]. cbn [map filter]. rewrite (proj2 (emplaced_spec l x)).
  destruct (_ =? 1); cbn [map]; rewrite IH; reflexivity.
Qed.

(** The write-ins of a completed contest. *)
Lemma writeins_spec m d l c :
  manifest_ready m -> In d (im_contests m) -> pc_id c = cd_id (cw_base d) ->
  pc_selections c = map (emplaced l) (get_selections (cw_base d)) ->
  exists w, writeins_of c m = Ok w /\ texts (written l) w (map sd_id (filter (for_writein m) (options_marked l d))).
Proof.
  intros MR HI HC HS. unfold writeins_of. rewrite (ballot_selections_spec m d c MR HI HC), HS. unfold options_marked.
  set (xs := get_selections (cw_base d)).
  assert (SUB : forall ys, (forall y, In y ys -> In y xs) -> forall w ws, texts (written l) w ws -> exists w',
    foldM (fun j s => if ps_vote s =? 1 then
      foldM (fun j d => if bytes_eqb (ps_id s) (sd_id d) then
          foldM (fun j k => if bytes_eqb (sd_candidate d) (ca_id k) && ca_writein k
                            then json_set j (ps_id s) (JStr (ps_writein s)) else Ok j) (im_candidates m) j
        else Ok j) xs j else Ok j) (map (emplaced l) ys) w = Ok w' /\
    texts (written l) w' (ws ++ map sd_id (filter (for_writein m) (filter (fun x => vote_for l (sd_id x) =? 1) ys)))).
  { induction ys as [|y ys IH]; intros HY w ws T; cbn [map foldM filter]; [rewrite app_nil_r; eauto|].
    rewrite (proj2 (emplaced_spec l y)), (proj1 (emplaced_spec l y)), (written_emplaced l y).
    destruct (vote_for l (sd_id y) =? 1); cbn [bind]; [|apply IH; [intros z Hz; apply HY; now right|exact T]].
    destruct (opt_loop (written l) m (sd_id y) xs w ws T) as (w1 & -> & T1). cbn [bind].
    destruct (IH (fun z Hz => HY z (or_intror Hz)) w1 _ T1) as (w2 & H & T2). exists w2. split; [exact H|].
    eapply texts_ext; [|exact T2]. cbn [filter]. intros k.
    assert (ONE : In k (map (fun _ => sd_id y) (filter (fun d0 => bytes_eqb (sd_id y) (sd_id d0) && for_writein m d0) xs))
      <-> for_writein m y = true /\ k = sd_id y).
    { rewrite in_map_iff. split.
      - intros (z & <- & Hz). apply filter_In in Hz. destruct Hz as [Hz Z]. apply andb_true_iff in Z. destruct Z as [Z1 Z2].
        apply bytes_eqb_eq in Z1. split; [|reflexivity].
        assert (E : z = y) by (apply (nodup_key sd_id xs); [apply nodup_sorted, (mr_selections _ MR _ HI)|exact Hz|apply HY; now left|congruence]).
        subst z. exact Z2.
      - intros [Z ->]. exists y. split; [reflexivity|]. apply filter_In. split; [apply HY; now left|].
        rewrite bytes_eqb_refl, Z. reflexivity. }
    rewrite !in_app_iff, ONE. destruct (for_writein m y); cbn [map In]; clear; intuition congruence. }
  destruct (SUB xs (fun y Hy => Hy) JNull [] eq_refl) as (w & H & T). exists w. split; [exact H|exact T].
Qed.

Lemma texts_shape f w ws : texts f w ws -> match ws with [] => w = JNull | _ => exists l, w = JObj l end.
Proof.
  intros T. destruct w; cbn [texts] in T; try contradiction; [subst; reflexivity|].
  destruct T as [T _]. destruct ws; [congruence|eauto].
Qed.
Lemma texts_get f l ws : texts f (JObj l) ws -> names_in (JObj l) ws /\ forall k, In k ws -> obj_get (JObj l) k = Some (JStr (f k)).
Proof. intros (_ & H1 & H2). split; [exact H1|exact H2]. Qed.

(** The data of a completed contest. *)
Lemma extended_spec m d l c (over : bool) data :
  manifest_ready m -> In d (im_contests m) -> pc_id c = cd_id (cw_base d) ->
  pc_selections c = map (emplaced l) (get_selections (cw_base d)) ->
  extended_data dump c m (if over then OVERVOTE else SUCCESS) = Ok data ->
  nothing_to_say m l d over /\ data = [] \/
  exists j, ~ nothing_to_say m l d over /\ describes m l d over j /\ dump j = Ok data.
Proof.
  intros MR HI HC HS H. destruct (writeins_spec m d l c MR HI HC HS) as (w & HW & T).
  unfold extended_data in H. rewrite HW in H.
  set (ws := filter (for_writein m) (options_marked l d)) in *.
  assert (ME : map (fun s => JStr (ps_id s)) (filter (fun s => ps_vote s =? 1) (pc_selections c))
             = map (fun x => JStr (sd_id x)) (options_marked l d)).
  { rewrite HS, emplaced_marked, map_map. apply map_ext. intros x. rewrite (proj1 (emplaced_spec l x)). reflexivity. }
  pose proof (texts_shape _ _ _ T) as SH.
  destruct over; cbn [bind] in H.
  - rewrite error_data_spec, ME in H. cbn [bind json_set] in H. right.
    destruct ws as [|x ws'] eqn:EW; cbn [map] in SH.
    + subst w. cbn [is_null bind] in H. eexists. split; [intros [X _]; discriminate|]. split; [|exact H].
      constructor; fold ws; try rewrite EW; try reflexivity.
      intros k v HIn. cbn in HIn. destruct HIn as [X|[X|[]]]; injection X as <- _; cbn; auto.
    + destruct SH as (lw & ->). cbn [is_null bind json_set] in H. eexists. split; [intros [X _]; discriminate|]. split; [|exact H].
      destruct (texts_get _ _ _ T) as [T1 T2].
      constructor; fold ws; try rewrite EW; try reflexivity.
      * intros k v HIn. cbn in HIn. destruct HIn as [X|[X|[X|[]]]]; injection X as <- _; cbn; auto.
      * exists (JObj lw). split; [reflexivity|]. split; [exact T1|]. intros y Hy. apply T2. change (In (sd_id y) (map sd_id (x :: ws'))). apply in_map, Hy.
  - destruct ws as [|x ws'] eqn:EW; cbn [map] in SH.
    + subst w. cbn [is_null bind] in H. left. apply Ok_inj in H. subst data. split; [split; [reflexivity|exact EW]|reflexivity].
    + destruct SH as (lw & ->). cbn [is_null bind json_set] in H. right. eexists. split; [intros [_ X]; fold ws in X; congruence|]. split; [|exact H].
      destruct (texts_get _ _ _ T) as [T1 T2].
      constructor; fold ws; try rewrite EW; try reflexivity.
      * intros k v HIn. cbn in HIn. destruct HIn as [X|[]]; injection X as <- _; cbn; auto.
      * exists (JObj lw). split; [reflexivity|]. split; [exact T1|]. intros y Hy. apply T2. change (In (sd_id y) (map sd_id (x :: ws'))). apply in_map, Hy.
Qed.
End Ext.
