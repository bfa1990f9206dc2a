(** The hashed objects follow FormatSpec.v. *)
From Coq Require Import String.
From Verif Require Import Base GroupModel GroupSpec GroupProofs CodecModel HashModel HashProofs ElgamalModel
  ChaumModel HashedProofs ManifestModel ManifestSpec ManifestCommit BallotModel EncryptModel HashSpec HashSpecProofs FormatSpec.
Open Scope string_scope.
Open Scope list_scope.
Open Scope Z_scope.
Ltac Zify.zify_post_hook ::= idtac.

Definition q256 (v : Z) : Prop := 0 <= v < 2 ^ 256.
Definition p4096 (v : Z) : Prop := 0 <= v < 2 ^ 4096.
Definition ct_4096 (c : ciphertext) : Prop := p4096 (ct_pad c) /\ p4096 (ct_data c).
(** The numbers of a manifest fit their C++ types. *)
Definition selection_u64 (s : selection) : Prop := u64 (sd_seq s).
Definition contest_u64 (c : contest) : Prop :=
  u64 (cd_seq c) /\ u64 (cd_elected c) /\ u64 (cd_allowed c) /\ Forall selection_u64 (cd_selections c).

Section F.
Context (gp : params) (V : valid_params gp) (sha : bytes -> Z).
Notation Q := (gpQ gp).
Notation hash := (hash_elems gp sha).

Lemma hash_q l : q256 (hash l).
Proof. apply hash_close_range; exact V. Qed.
Lemma nested_ok (l : list hitem) : Forall item_ok l -> item_ok (HVec l).
Proof. intros H. apply items_ok_Forall in H. exact H. Qed.
Lemma fmt_eq l : l <> [] -> Forall item_ok l -> hash l = H Q sha (map fld l).
Proof. intros N F. apply hash_format; [exact V|exact N|]. now apply items_ok_Forall. Qed.

Lemma docs_ok {A} (f : A -> Z) l : (forall a, q256 (f a)) -> item_ok (HVec (map (fun a => HHash (f a)) l)).
Proof. intros HQ. apply nested_ok, Forall_map, Forall_forall. intros a _. apply HQ. Qed.
Lemma texts_ok l : item_ok (HVec (map HStr l)).
Proof. apply nested_ok, Forall_map, Forall_forall. intros a _. exact I. Qed.
Lemma hopt_ok {A} (f : A -> Z) o : (forall a, q256 (f a)) -> item_ok (hopt f o).
Proof. intros HQ. destruct o; [apply HQ|exact I]. Qed.
Lemma docs_fld {A} (f g : A -> Z) l : (forall a, In a l -> f a = g a) ->
  fld (HVec (map (fun a => HHash (f a)) l)) = docs g l.
Proof.
  intros E. unfold docs. cbn [fld]. f_equal. rewrite map_map. apply map_ext_in. intros a Ha. cbn [fld].
  unfold doc. now rewrite E.
Qed.
Lemma texts_fld l : fld (HVec (map HStr l)) = texts l.
Proof. unfold texts. cbn [fld]. f_equal. rewrite map_map. reflexivity. Qed.
Lemma hopt_fld {A} (f g : A -> Z) o : (forall a, o = Some a -> f a = g a) -> fld (hopt f o) = opt g o.
Proof. intros E. destruct o; [|reflexivity]. cbn [hopt fld opt]. unfold doc. now rewrite E. Qed.

Ltac oks := repeat apply Forall_cons; try apply Forall_nil; try exact I; try apply hash_q;
  try apply texts_ok; try (apply docs_ok; intros; apply hash_q); try (apply hopt_ok; intros; apply hash_q); try assumption.
Ltac go := rewrite fmt_eq; [|discriminate|oks].

Lemma annotated_fmt a : annotated_hash gp sha a = h_annotated Q sha a.
Proof. unfold annotated_hash. go. reflexivity. Qed.
Lemma language_fmt a : language_hash gp sha a = h_language Q sha a.
Proof. unfold language_hash. go. reflexivity. Qed.
Lemma intl_fmt a : intl_hash gp sha a = h_intl Q sha a.
Proof.
  unfold intl_hash. go. cbn [map]. rewrite (docs_fld _ (h_language Q sha)) by (intros; apply language_fmt). reflexivity.
Qed.
Lemma contact_fmt a : contact_hash gp sha a = h_contact Q sha a.
Proof.
  unfold contact_hash. go. cbn [map]. rewrite texts_fld, !(docs_fld _ (h_annotated Q sha)) by (intros; apply annotated_fmt).
  reflexivity.
Qed.
Lemma unit_fmt a : unit_hash gp sha a = h_unit Q sha a.
Proof. unfold unit_hash. go. cbn [map]. rewrite (hopt_fld _ (h_contact Q sha)) by (intros; apply contact_fmt). reflexivity. Qed.
Lemma style_fmt a : style_hash gp sha a = h_style Q sha a.
Proof. unfold style_hash. go. cbn [map]. rewrite !texts_fld. reflexivity. Qed.
Lemma party_fmt a : party_hash gp sha a = h_party Q sha a.
Proof. unfold party_hash. go. cbn [map]. rewrite (hopt_fld _ (h_intl Q sha)) by (intros; apply intl_fmt). reflexivity. Qed.
Lemma candidate_fmt a : candidate_hash gp sha a = h_candidate Q sha a.
Proof. unfold candidate_hash. go. cbn [map]. rewrite (hopt_fld _ (h_intl Q sha)) by (intros; apply intl_fmt). reflexivity. Qed.
Lemma selection_fmt a : selection_u64 a -> selection_hash gp sha a = h_selection Q sha a.
Proof. intros HU. unfold selection_hash. go. reflexivity. Qed.
Lemma contest_fmt c h : contest_u64 c -> contest_hash gp sha c = Ok h -> h = h_contest Q sha c.
Proof.
  intros (H1 & H2 & H3 & H4) E.
  assert (T : title_ok c).
  { unfold title_ok. unfold contest_hash in E. destruct (cd_title c), (cd_subtitle c); try discriminate; congruence. }
  pose proof T as T'. apply (contest_hash_ok gp sha) in T'. rewrite T' in E. apply Ok_inj in E. subst h.
  unfold contest_hash_items, contest_items. 
  assert (K1 : item_ok (fst (contest_title_items gp sha c)) /\ fld (fst (contest_title_items gp sha c)) = opt (h_intl Q sha) (cd_title c)).
  { unfold contest_title_items. destruct (cd_title c) as [t|]; cbn [fst]; [|split; [exact I|reflexivity]].
    split; [apply hash_q|]. cbn [fld opt]. unfold doc. now rewrite intl_fmt. }
  assert (K2 : item_ok (snd (contest_title_items gp sha c)) /\ fld (snd (contest_title_items gp sha c)) =
    match cd_title c with Some _ => opt (h_intl Q sha) (cd_subtitle c) | None => Absent end).
  { unfold contest_title_items. destruct (cd_title c) as [t|]; cbn [snd]; [|split; [exact I|reflexivity]].
    split; [apply hopt_ok; intros; apply hash_q|]. apply hopt_fld. intros; apply intl_fmt. }
  destruct K1 as [K1 K1'], K2 as [K2 K2'].
  go. cbn [map]. rewrite K1', K2'. rewrite (docs_fld _ (h_selection Q sha)).
  - reflexivity.
  - intros a Ha. apply selection_fmt. rewrite Forall_forall in H4. auto.
Qed.
Lemma contests_fmt l hs : Forall contest_u64 l -> mapM (contest_hash gp sha) l = Ok hs -> hs = map (h_contest Q sha) l.
Proof.
  intros F. revert hs. induction F as [|c l Hc _ IH]; intros hs E; cbn [mapM] in E.
  - apply Ok_inj in E. now subst.
  - destruct (contest_hash gp sha c) as [h| |] eqn:Eh; try discriminate. cbn [bind] in E.
    destruct (mapM _ l) as [hl| |]; try discriminate. cbn [bind] in E. apply Ok_inj in E. subst hs.
    cbn [map]. f_equal; [now apply contest_fmt|now apply IH].
Qed.
Lemma manifest_fmt fmt m h : Forall contest_u64 (mf_contests m) -> manifest_hash gp sha fmt m = Ok h ->
  h = h_manifest Q sha fmt m.
Proof.
  intros F E. unfold manifest_hash in E. destruct (mapM _ _) as [cs| |] eqn:Ec; try discriminate. cbn [bind] in E.
  assert (Rc : Forall q256 cs).
  { clear E F. revert cs Ec. induction (mf_contests m) as [|c l IH]; intros cs Ec; cbn [mapM] in Ec.
    - apply Ok_inj in Ec. subst. constructor.
    - destruct (contest_hash gp sha c) as [x| |] eqn:Ex; try discriminate. cbn [bind] in Ec.
      destruct (mapM _ l) as [xs| |]; try discriminate. cbn [bind] in Ec. apply Ok_inj in Ec. subst cs.
      constructor; [|now apply IH]. unfold contest_hash in Ex.
      destruct (cd_title c), (cd_subtitle c); try discriminate; apply Ok_inj in Ex; subst x; apply hash_q. }
  apply contests_fmt in Ec; [|exact F].
  assert (G : forall n c, item_ok n -> item_ok c -> hash (manifest_items gp sha fmt m n c cs) =
    H Q sha [Text (mf_scope m); Text (election_type_string (mf_type m)); date fmt (mf_start m); date fmt (mf_end m);
     fld n; fld c; docs (h_unit Q sha) (mf_units m); docs (h_party Q sha) (mf_parties m);
     docs (h_contest Q sha) (mf_contests m); docs (h_style Q sha) (mf_styles m)]).
  { intros n c On Oc. unfold manifest_items. rewrite fmt_eq; [|discriminate|].
    - cbn [map]. rewrite (docs_fld _ (h_unit Q sha)) by (intros; apply unit_fmt).
      rewrite (docs_fld _ (h_party Q sha)) by (intros; apply party_fmt).
      rewrite (docs_fld _ (h_style Q sha)) by (intros; apply style_fmt).
      replace (fld (HVec (map HHash cs))) with (docs (h_contest Q sha) (mf_contests m)); [reflexivity|].
      rewrite Ec. unfold docs. cbn [fld]. rewrite !map_map. reflexivity.
    - oks. apply nested_ok, Forall_map. eapply Forall_impl; [|exact Rc]. intros a Ha. exact Ha. }
  unfold h_manifest. destruct (mf_name m) as [t|].
  - destruct (mf_contact m) as [c|]; [|discriminate]. apply Ok_inj in E. subst h.
    rewrite G by apply hash_q. cbn [fld opt]. unfold doc. now rewrite intl_fmt, contact_fmt.
  - apply Ok_inj in E. subst h. now rewrite G by exact I.
Qed.

Lemma ct_fmt c : ct_4096 c -> ct_hash gp sha c = h_ciphertext Q sha c.
Proof. intros [H1 H2]. unfold ct_hash. go. reflexivity. Qed.
Lemma hashed_fmt c : p4096 (hc_pad c) -> hc_data c <> [] -> is_bytes (hc_data c) -> hc_mac c <> [] -> is_bytes (hc_mac c) ->
  hashed_ct_hash gp sha c = h_hashed Q sha c.
Proof. intros H1 H2 H3 H4 H5. unfold hashed_ct_hash. go; [reflexivity|split; assumption..]. Qed.
Lemma cselection_fmt id desc ct : q256 desc -> ct_4096 ct -> cselection_hash gp sha id desc ct = h_cselection Q sha id desc ct.
Proof. intros H1 H2. unfold cselection_hash. go. cbn [map fld]. now rewrite ct_fmt. Qed.
Lemma vec_fmt id desc (l : list Z) : q256 desc -> Forall q256 l ->
  hash (HStr id :: HElemQ desc :: map HElemQ l) = H Q sha (Text id :: ModQ desc :: map ModQ l).
Proof.
  intros H1 H2. rewrite fmt_eq; [|discriminate|].
  - cbn [map fld]. now rewrite map_map.
  - constructor; [exact I|]. constructor; [exact H1|]. apply Forall_map. eapply Forall_impl; [|exact H2]. trivial.
Qed.
Lemma ccontest_fmt id l desc h : q256 desc -> Forall (fun s => q256 (cs_hash s)) l ->
  ccontest_hash gp sha id l desc = Ok h -> l <> [] /\ h = h_ccontest Q sha id desc (map cs_hash l).
Proof.
  intros H1 H2 E. unfold ccontest_hash in E. destruct l as [|x l]; [discriminate|]. split; [discriminate|].
  apply Ok_inj in E. subst h. unfold h_ccontest.
  rewrite <- vec_fmt; [|exact H1|now apply Forall_map]. rewrite map_map. reflexivity.
Qed.
Lemma cballot_fmt id l manifest h : q256 manifest -> Forall (fun c => q256 (cc_hash c)) l ->
  cballot_hash gp sha id l manifest = Ok h -> l <> [] /\ h = h_cballot Q sha id manifest (map cc_hash l).
Proof.
  intros H1 H2 E. unfold cballot_hash in E. destruct l as [|x l]; [discriminate|]. split; [discriminate|].
  apply Ok_inj in E. subst h. unfold h_cballot.
  rewrite <- vec_fmt; [|exact H1|now apply Forall_map]. rewrite map_map. reflexivity.
Qed.
Lemma device_fmt d s l loc : u64 d -> u64 s -> u64 l -> device_hash gp sha d s l loc = h_device Q sha d s l loc.
Proof. intros H1 H2 H3. unfold device_hash. go. reflexivity. Qed.
Lemma code_fmt s t h : q256 s -> u64 t -> q256 h -> ballot_code gp sha s t h = h_code Q sha s t h.
Proof. intros H1 H2 H3. unfold ballot_code. go. reflexivity. Qed.
Lemma nonce_seed_fmt m id n : q256 m -> q256 n -> nonce_seed gp sha m id n = h_nonce_seed Q sha m id n.
Proof. intros H1 H2. unfold nonce_seed. go. reflexivity. Qed.
Lemma context_fmt g q pk c m : u64 g -> u64 q -> q256 c -> q256 m ->
  let cx := context_make gp sha g q pk c m in
  el_base cx = h_base Q sha (gpP gp) (gpG gp) g q m /\ el_ext cx = h_extended Q sha (el_base cx) c.
Proof.
  intros H1 H2 H3 H4. pose proof (vp_Qhi _ V). pose proof (vp_Qlo _ V). pose proof (vp_Phi _ V). pose proof (vp_Grng _ V).
  assert (p4096 (gpP gp)) by (unfold p4096; change (2 ^ 4096) with W4096; lia).
  assert (p4096 (gpG gp)) by (unfold p4096; change (2 ^ 4096) with W4096; lia).
  assert (q256 Q) by (unfold q256; change (2 ^ 256) with W256; lia).
  cbn zeta. unfold context_make. cbn [el_base el_ext]. split.
  - go. reflexivity.
  - go. reflexivity.
Qed.
Lemma dchallenge_fmt q m a0 b0 a1 b1 : q256 q -> ct_4096 m -> p4096 a0 -> p4096 b0 -> p4096 a1 -> p4096 b1 ->
  dchallenge gp sha q m a0 b0 a1 b1 = h_disjunctive Q sha q m a0 b0 a1 b1.
Proof. intros H1 [H2 H3] H4 H5 H6 H7. unfold dchallenge. go. reflexivity. Qed.
Lemma cchallenge_fmt q m a b : q256 q -> ct_4096 m -> p4096 a -> p4096 b ->
  cchallenge gp sha q m a b = h_constant Q sha q m a b.
Proof. intros H1 [H2 H3] H4 H5. unfold cchallenge. go. reflexivity. Qed.
Lemma nonce_fmt seed header i : q256 seed -> item_ok header -> u64 i ->
  fst (nonces_get gp sha (nonces_new gp sha seed header) i) = h_nonce Q sha seed (fld header) i.
Proof. intros H1 H2 H3. unfold nonces_get, nonces_new. cbn [fst nseed]. go. cbn [map fld]. unfold h_nonce. do 3 f_equal. go. reflexivity. Qed.
Lemma nonce2_fmt seed header i label : q256 seed -> item_ok header -> u64 i ->
  fst (nonces_get_hdr gp sha (nonces_new gp sha seed header) i label) = h_nonce2 Q sha seed (fld header) i label.
Proof. intros H1 H2 H3. unfold nonces_get_hdr, nonces_new. cbn [fst nseed]. go. cbn [map fld]. unfold h_nonce2. do 3 f_equal. go. reflexivity. Qed.
Lemma session_fmt a b : p4096 a -> p4096 b -> hash [HElemP a; HElemP b] = h_session Q sha a b.
Proof. intros H1 H2. go. reflexivity. Qed.
End F.
