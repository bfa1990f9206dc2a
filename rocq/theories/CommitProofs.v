(** Ballot hashes and codes commit to the contents of the ballot. *)
From Coq Require Import Permutation.
From Verif Require Import Base GroupModel GroupSpec GroupProofs CodecModel CodecProofs HashModel HashProofs ElgamalModel
  HashedProofs SortModel SortProofs ManifestSpec ManifestCommit BallotModel CommitSpec.
Open Scope list_scope.
Open Scope Z_scope.
Ltac Zify.zify_post_hook ::= idtac.

Section C.
Context (gp : params) (V : valid_params gp) (sha : bytes -> Z).
Notation hash := (hash_elems gp sha).
Notation hs := (hash_string gp sha).
Notation queries := (queries gp sha).

(** The byte strings hashed for a ballot. *)
Definition cselection_queries (a : cselection) : list bytes :=
  queries [HStr (cs_id a); HElemQ (cs_desc a); HHash (ct_hash gp sha (cs_ct a))]
  ++ queries [HElemP (ct_pad (cs_ct a)); HElemP (ct_data (cs_ct a))].
Definition ccontest_queries (a : ccontest) : list bytes :=
  queries (HStr (cc_id a) :: HElemQ (cc_desc a) :: map (fun s => HElemQ (cs_hash s)) (cc_sorted a))
  ++ flat_map cselection_queries (cc_sorted a).
Definition cballot_queries (a : cballot) : list bytes :=
  queries (HStr (cb_id a) :: HElemQ (cb_manifest a) :: map (fun c => HElemQ (cc_hash c)) (cb_contests a))
  ++ flat_map ccontest_queries (cb_contests a).
Definition code_queries (a : cballot) : list bytes :=
  queries [HElemQ (cb_seed a); HU64 (cb_timestamp a); HElemQ (cb_hash a)] ++ cballot_queries a.

Ltac clean_list := repeat (apply Forall_cons; [cbn [item_clean]; try exact Logic.I; try assumption|]); try apply Forall_nil.
Section Two.
Context (S S' : list bytes) (NC : no_collision gp sha S S').

Lemma elemq_iff a b : 0 <= a < 2 ^ 256 -> 0 <= b < 2 ^ 256 -> (hs (HElemQ a) = hs (HElemQ b) <-> a = b).
Proof. intros Ha Hb. split; [|now intros ->]. apply to_hex_q_inj; assumption. Qed.
Lemma elemp_iff a b : 0 <= a < 2 ^ 4096 -> 0 <= b < 2 ^ 4096 -> (hs (HElemP a) = hs (HElemP b) <-> a = b).
Proof. intros Ha Hb. split; [|now intros ->]. apply to_hex_p_inj; assumption. Qed.
Lemma map_elemq_iff l l' : Forall (fun h => 0 <= h < 2 ^ 256) l -> Forall (fun h => 0 <= h < 2 ^ 256) l' ->
  (map hs (map HElemQ l) = map hs (map HElemQ l') <-> l = l').
Proof.
  intros B B'. split; [|now intros ->]. rewrite !map_map.
  apply (map_inj_on (fun h => 0 <= h < 2 ^ 256)); try assumption.
  intros x y Hx Hy. apply to_hex_q_inj; assumption.
Qed.
Lemma ct_iff a b :
  incl (queries [HElemP (ct_pad a); HElemP (ct_data a)]) S -> incl (queries [HElemP (ct_pad b); HElemP (ct_data b)]) S' ->
  0 <= ct_pad a < 2 ^ 4096 -> 0 <= ct_data a < 2 ^ 4096 -> 0 <= ct_pad b < 2 ^ 4096 -> 0 <= ct_data b < 2 ^ 4096 ->
  (ct_hash gp sha a = ct_hash gp sha b <-> a = b).
Proof.
  intros I I' H1 H2 H3 H4. unfold ct_hash.
  rewrite (hash_iff gp sha S S' _ _ NC I I'); [|clean_list|clean_list|discriminate|discriminate].
  rewrite map2, (elemp_iff _ _ H1 H3), (elemp_iff _ _ H2 H4). destruct a, b; cbn. split; [intros [-> ->]; reflexivity|intros E; now inversion E].
Qed.
Lemma ct_range c : 0 <= ct_hash gp sha c < W256.
Proof. apply (hash_range gp V sha (fun _ => [])). Qed.
Lemma incl_l {A} (a b c : list A) : incl (a ++ b) c -> incl a c.
Proof. intros H x Hx. apply H, in_or_app. now left. Qed.
Lemma incl_r {A} (a b c : list A) : incl (a ++ b) c -> incl b c.
Proof. intros H x Hx. apply H, in_or_app. now right. Qed.

Lemma cselection_iff a b : incl (cselection_queries a) S -> incl (cselection_queries b) S' ->
  clean_cselection a -> clean_cselection b -> stored_selection gp sha a -> stored_selection gp sha b ->
  (cs_hash a = cs_hash b <-> same_cselection a b).
Proof.
  intros I I' (C1 & C2 & C3 & C4) (D1 & D2 & D3 & D4) Sa Sb. rewrite Sa, Sb. unfold cselection_hash.
  unfold cselection_queries in I, I'.
  rewrite (hash_iff gp sha S S' _ _ NC (incl_l _ _ _ I) (incl_l _ _ _ I')); [|clean_list|clean_list|discriminate|discriminate].
  rewrite map3, str_iff, (elemq_iff _ _ C2 D2), (hash_item_iff gp sha (ct_hash gp sha (cs_ct a)) (ct_hash gp sha (cs_ct b)) (ct_range _) (ct_range _)).
  rewrite (ct_iff _ _ (incl_r _ _ _ I) (incl_r _ _ _ I') C3 C4 D3 D4). reflexivity.
Qed.
Lemma head_iff id d l id' d' l' : no_bar id -> no_bar id' -> 0 <= d < 2 ^ 256 -> 0 <= d' < 2 ^ 256 ->
  Forall (fun h => 0 <= h < 2 ^ 256) l -> Forall (fun h => 0 <= h < 2 ^ 256) l' ->
  incl (queries (HStr id :: HElemQ d :: map HElemQ l)) S -> incl (queries (HStr id' :: HElemQ d' :: map HElemQ l')) S' ->
  (hash (HStr id :: HElemQ d :: map HElemQ l) = hash (HStr id' :: HElemQ d' :: map HElemQ l') <->
   same_str id id' /\ d = d' /\ l = l').
Proof.
  intros N N' D D' L L' I I'.
  assert (CL : forall i x (z : list Z), no_bar i -> Forall item_clean (HStr i :: HElemQ x :: map HElemQ z)).
  { intros i x z Hi. constructor; [exact Hi|]. constructor; [exact Logic.I|]. apply Forall_map, Forall_forall. intros. exact Logic.I. }
  rewrite (hash_iff gp sha S S' _ _ NC I I'); [|now apply CL|now apply CL|discriminate|discriminate].
  change (map hs (HStr ?a :: HElemQ ?b :: ?c)) with (hs (HStr a) :: hs (HElemQ b) :: map hs c).
  rewrite <- (str_iff gp sha), <- (elemq_iff d d' D D'), <- (map_elemq_iff l l' L L'). split.
  - intros E. split; [exact (f_equal (hd []) E)|]. split; [exact (f_equal (fun x => hd [] (tl x)) E)|exact (f_equal (fun x => tl (tl x)) E)].
  - intros (-> & -> & ->). reflexivity.
Qed.
Lemma stored_range a : stored_selection gp sha a -> 0 <= cs_hash a < 2 ^ 256.
Proof. intros ->. apply (hash_range gp V sha (fun _ => [])). Qed.
Lemma stored_range_c a : stored_contest gp sha a -> 0 <= cc_hash a < 2 ^ 256.
Proof.
  intros [H _]. unfold ccontest_hash in H. destruct (cc_sorted a); [discriminate|]. apply Ok_inj in H. rewrite <- H.
  apply (hash_range gp V sha (fun _ => [])).
Qed.
Lemma stored_range_b a : stored_ballot gp sha a -> 0 <= cb_hash a < 2 ^ 256.
Proof.
  intros [H _]. unfold cballot_hash in H. destruct (cb_contests a); [discriminate|]. apply Ok_inj in H. rewrite <- H.
  apply (hash_range gp V sha (fun _ => [])).
Qed.
Lemma sorted_Forall (P : cselection -> Prop) a : Forall P (cc_selections a) -> Forall P (cc_sorted a).
Proof.
  intros H. unfold cc_sorted. rewrite Forall_forall in *. intros x Hx. apply H. now apply sort_in in Hx.
Qed.
Lemma ccontest_hash_eq id l d h : ccontest_hash gp sha id l d = Ok h ->
  h = hash (HStr id :: HElemQ d :: map HElemQ (map cs_hash l)).
Proof. unfold ccontest_hash. destruct l; [discriminate|]. intros H. apply Ok_inj in H. rewrite <- H. now rewrite map_map. Qed.
Lemma cballot_hash_eq id l d h : cballot_hash gp sha id l d = Ok h ->
  h = hash (HStr id :: HElemQ d :: map HElemQ (map cc_hash l)).
Proof. unfold cballot_hash. destruct l; [discriminate|]. intros H. apply Ok_inj in H. rewrite <- H. now rewrite map_map. Qed.

Lemma ccontest_iff a b : incl (ccontest_queries a) S -> incl (ccontest_queries b) S' ->
  clean_ccontest a -> clean_ccontest b -> stored_contest gp sha a -> stored_contest gp sha b ->
  (cc_hash a = cc_hash b <-> same_ccontest a b).
Proof.
  intros I I' (C1 & C2 & C3) (D1 & D2 & D3) [Sa Fa] [Sb Fb].
  apply sorted_Forall in C3, D3, Fa, Fb. apply ccontest_hash_eq in Sa, Sb. rewrite Sa, Sb.
  unfold ccontest_queries in I, I'. rewrite <- (map_map cs_hash HElemQ) in I, I'.
  assert (R : forall l, Forall (stored_selection gp sha) l -> Forall (fun h => 0 <= h < 2 ^ 256) (map cs_hash l)).
  { intros l F. apply Forall_map. eapply Forall_impl; [|exact F]. apply stored_range. }
  rewrite (head_iff _ _ _ _ _ _ C1 D1 C2 D2 (R _ Fa) (R _ Fb) (incl_l _ _ _ I) (incl_l _ _ _ I')).
  unfold same_ccontest. rewrite (Forall2_map_iff cs_hash same_cselection); [reflexivity|].
  rewrite Forall_forall in C3, D3, Fa, Fb.
  intros x y Hx Hy. apply cselection_iff; auto.
  - eapply incl_flat; [eapply incl_r; exact I|exact Hx].
  - eapply incl_flat; [eapply incl_r; exact I'|exact Hy].
Qed.
Lemma cballot_iff a b : incl (cballot_queries a) S -> incl (cballot_queries b) S' ->
  clean_cballot a -> clean_cballot b -> stored_ballot gp sha a -> stored_ballot gp sha b ->
  (cb_hash a = cb_hash b <-> same_cballot a b).
Proof.
  intros I I' (C1 & C2 & _ & _ & C3) (D1 & D2 & _ & _ & D3) [Sa Fa] [Sb Fb].
  apply cballot_hash_eq in Sa, Sb. rewrite Sa, Sb.
  unfold cballot_queries in I, I'. rewrite <- (map_map cc_hash HElemQ) in I, I'.
  assert (R : forall l, Forall (stored_contest gp sha) l -> Forall (fun h => 0 <= h < 2 ^ 256) (map cc_hash l)).
  { intros l F. apply Forall_map. eapply Forall_impl; [|exact F]. apply stored_range_c. }
  rewrite (head_iff _ _ _ _ _ _ C1 D1 C2 D2 (R _ Fa) (R _ Fb) (incl_l _ _ _ I) (incl_l _ _ _ I')).
  unfold same_cballot. rewrite (Forall2_map_iff cc_hash same_ccontest); [reflexivity|].
  rewrite Forall_forall in C3, D3, Fa, Fb.
  intros x y Hx Hy. apply ccontest_iff; auto.
  - eapply incl_flat; [eapply incl_r; exact I|exact Hx].
  - eapply incl_flat; [eapply incl_r; exact I'|exact Hy].
Qed.
Lemma code_iff a b : incl (code_queries a) S -> incl (code_queries b) S' ->
  clean_cballot a -> clean_cballot b -> stored_code gp sha a -> stored_code gp sha b ->
  (cb_code a = cb_code b <-> cb_seed a = cb_seed b /\ cb_timestamp a = cb_timestamp b /\ same_cballot a b).
Proof.
  intros I I' CA CB [Sa Ea] [Sb Eb]. rewrite Ea, Eb. unfold ballot_code. unfold code_queries in I, I'.
  pose proof CA as (_ & _ & C1 & C2 & _). pose proof CB as (_ & _ & D1 & D2 & _).
  rewrite (hash_iff gp sha S S' _ _ NC (incl_l _ _ _ I) (incl_l _ _ _ I'));
    [|clean_list; apply C2|clean_list; apply D2|discriminate|discriminate].
  rewrite map3, (elemq_iff _ _ C1 D1), (u64_iff gp sha _ _ C2 D2), (elemq_iff _ _ (stored_range_b _ Sa) (stored_range_b _ Sb)).
  rewrite (cballot_iff _ _ (incl_r _ _ _ I) (incl_r _ _ _ I') CA CB Sa Sb). reflexivity.
Qed.
End Two.
End C.
