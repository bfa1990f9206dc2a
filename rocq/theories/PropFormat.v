(** Properties C65 and C66: the format of hashed data, and what the hashes of
    encrypted ballots commit to. *)
From Coq Require Import String Permutation.
From Verif Require Import Base GroupModel GroupSpec GroupProofs CodecModel CodecProofs HashModel HashProofs Algebra
  ElgamalModel ElgamalSpec ElgamalProofs ChaumModel ProofSpec ProofSpecProofs HashedProofs SortModel SortProofs
  ManifestModel ManifestSpec ManifestCommit BallotModel JsonModel EncryptModel EncryptSpec EncryptProofs
  PropElgamal PropChaum PropManifest BallotProofs BallotProofs2 TestParams PropEncrypt PropBallot
  TallyProofs HashSpec HashSpecProofs FormatSpec FormatProofs NonceTree CommitSpec CommitProofs.
Open Scope string_scope.
Open Scope list_scope.
Open Scope Z_scope.
Ltac Zify.zify_post_hook ::= idtac.
Notation tp := test_params.

(** * C65 *)
(** Manifests. *)
Theorem C65_manifest gp sha fmt m h :
  valid_params gp -> Forall contest_u64 (mf_contests m) ->
  manifest_hash gp sha fmt m = Ok h -> h = h_manifest (gpQ gp) sha fmt m.
Proof. intros V F. apply manifest_fmt; assumption. Qed.
Theorem C65_manifest_parts gp sha :
  valid_params gp ->
  (forall x, annotated_hash gp sha x = h_annotated (gpQ gp) sha x) /\
  (forall x, language_hash gp sha x = h_language (gpQ gp) sha x) /\
  (forall x, intl_hash gp sha x = h_intl (gpQ gp) sha x) /\
  (forall x, contact_hash gp sha x = h_contact (gpQ gp) sha x) /\
  (forall x, unit_hash gp sha x = h_unit (gpQ gp) sha x) /\
  (forall x, style_hash gp sha x = h_style (gpQ gp) sha x) /\
  (forall x, party_hash gp sha x = h_party (gpQ gp) sha x) /\
  (forall x, candidate_hash gp sha x = h_candidate (gpQ gp) sha x) /\
  (forall x, 0 <= sd_seq x < 2 ^ 64 -> selection_hash gp sha x = h_selection (gpQ gp) sha x) /\
  (forall x h, contest_u64 x -> contest_hash gp sha x = Ok h -> h = h_contest (gpQ gp) sha x).
Proof.
  intros V.
  split; [intros; apply annotated_fmt; exact V|]. split; [intros; apply language_fmt; exact V|].
  split; [intros; apply intl_fmt; exact V|]. split; [intros; apply contact_fmt; exact V|].
  split; [intros; apply unit_fmt; exact V|]. split; [intros; apply style_fmt; exact V|].
  split; [intros; apply party_fmt; exact V|]. split; [intros; apply candidate_fmt; exact V|].
  split; [intros; apply selection_fmt; assumption|intros x h U E; now apply (contest_fmt gp V sha) in E].
Qed.
(** Ciphertexts, codes, contexts, nonces. *)
Theorem C65_ciphertext gp sha c :
  valid_params gp -> 0 <= ct_pad c < 2 ^ 4096 -> 0 <= ct_data c < 2 ^ 4096 ->
  ct_hash gp sha c = h_ciphertext (gpQ gp) sha c.
Proof. intros V H1 H2. apply ct_fmt; [exact V|split; assumption]. Qed.
Theorem C65_hashed_ciphertext gp sha c :
  valid_params gp -> 0 <= hc_pad c < 2 ^ 4096 -> hc_data c <> [] -> is_bytes (hc_data c) ->
  hc_mac c <> [] -> is_bytes (hc_mac c) -> hashed_ct_hash gp sha c = h_hashed (gpQ gp) sha c.
Proof. intros V. apply hashed_fmt, V. Qed.
Theorem C65_device gp sha device session launch location :
  valid_params gp -> 0 <= device < 2 ^ 64 -> 0 <= session < 2 ^ 64 -> 0 <= launch < 2 ^ 64 ->
  device_hash gp sha device session launch location = h_device (gpQ gp) sha device session launch location.
Proof. intros V. apply device_fmt, V. Qed.
Theorem C65_code gp sha seed timestamp h :
  valid_params gp -> 0 <= seed < 2 ^ 256 -> 0 <= timestamp < 2 ^ 64 -> 0 <= h < 2 ^ 256 ->
  ballot_code gp sha seed timestamp h = h_code (gpQ gp) sha seed timestamp h.
Proof. intros V. apply code_fmt, V. Qed.
Theorem C65_context gp sha guardians quorum pk commitment manifest :
  valid_params gp -> 0 <= guardians < 2 ^ 64 -> 0 <= quorum < 2 ^ 64 -> 0 <= commitment < 2 ^ 256 -> 0 <= manifest < 2 ^ 256 ->
  let cx := context_make gp sha guardians quorum pk commitment manifest in
  el_base cx = h_base (gpQ gp) sha (gpP gp) (gpG gp) guardians quorum manifest /\
  el_ext cx = h_extended (gpQ gp) sha (h_base (gpQ gp) sha (gpP gp) (gpG gp) guardians quorum manifest) commitment.
Proof.
  intros V H1 H2 H3 H4 cx. destruct (context_fmt gp V sha guardians quorum pk commitment manifest H1 H2 H3 H4) as [A B].
  split; [exact A|]. rewrite <- A. exact B.
Qed.
(** The i-th nonce of a sequence with a text or an element as header. *)
Theorem C65_nonces gp sha seed i label :
  valid_params gp -> 0 <= seed < 2 ^ 256 -> 0 <= i < 2 ^ 64 ->
  (forall s, fst (nonces_get gp sha (nonces_new gp sha seed (HStr s)) i) = h_nonce (gpQ gp) sha seed (Text s) i) /\
  (forall e, 0 <= e < 2 ^ 256 ->
     fst (nonces_get gp sha (nonces_new gp sha seed (HElemQ e)) i) = h_nonce (gpQ gp) sha seed (ModQ e) i) /\
  (forall s, fst (nonces_get_hdr gp sha (nonces_new gp sha seed (HStr s)) i label)
             = h_nonce2 (gpQ gp) sha seed (Text s) i label) /\
  fst (nonces_get gp sha (nonces_new0 seed) i) = H (gpQ gp) sha [ModQ seed; Number i].
Proof.
  intros V H1 H2.
  split; [intros s; apply (nonce_fmt gp V sha seed (HStr s) i H1 I H2)|].
  split; [intros e He; apply (nonce_fmt gp V sha seed (HElemQ e) i H1 He H2)|].
  split; [intros s; apply (nonce2_fmt gp V sha seed (HStr s) i label H1 I H2)|].
  apply hash_format; [exact V|discriminate|]. cbn. tauto.
Qed.
(** Proofs are accepted with respect to challenges of this form. *)
Lemma subgroup_4096 gp x : valid_params gp -> spec_subgroup gp x -> 0 <= x < 2 ^ 4096.
Proof.
  intros V [H _]. pose proof (vp_Phi _ V) as HP. change (2 ^ 4096) with W4096. clear - H HP. lia.
Qed.
Theorem C65_disjunctive gp sha p m K q :
  valid_params gp -> 0 <= q < 2 ^ 256 ->
  dproof_valid gp sha p m K q = true <->
  spec_daccepts gp K m p (h_disjunctive (gpQ gp) sha q m (dp_a0 p) (dp_b0 p) (dp_a1 p) (dp_b1 p)).
Proof.
  intros V Hq.
  assert (EQ : spec_subgroup gp (ct_pad m) -> spec_subgroup gp (ct_data m) -> spec_subgroup gp (dp_a0 p) ->
    spec_subgroup gp (dp_b0 p) -> spec_subgroup gp (dp_a1 p) -> spec_subgroup gp (dp_b1 p) ->
    dchallenge gp sha q m (dp_a0 p) (dp_b0 p) (dp_a1 p) (dp_b1 p)
    = h_disjunctive (gpQ gp) sha q m (dp_a0 p) (dp_b0 p) (dp_a1 p) (dp_b1 p)).
  { intros A1 A2 A3 A4 A5 A6.
    apply dchallenge_fmt; [exact V|exact Hq|split| | | |]; apply (subgroup_4096 gp _ V); assumption. }
  rewrite (C31_disjunctive_iff gp sha p m K q V). unfold spec_daccepts.
  split; intros X; pose proof X as (A1 & A2 & A3 & A4 & A5 & A6 & _); specialize (EQ A1 A2 A3 A4 A5 A6); unfold dchallenge in EQ.
  - rewrite <- EQ. exact X.
  - rewrite EQ. exact X.
Qed.
Theorem C65_constant gp sha p m K q :
  valid_params gp -> 0 <= cp_const p <= gpQ gp -> 0 <= q < 2 ^ 256 ->
  cproof_valid gp sha p m K q = Ok true <->
  spec_caccepts gp K m p (h_constant (gpQ gp) sha q m (cp_a p) (cp_b p)).
Proof.
  intros V HC Hq.
  assert (EQ : spec_subgroup gp (ct_pad m) -> spec_subgroup gp (ct_data m) -> spec_subgroup gp (cp_a p) ->
    spec_subgroup gp (cp_b p) ->
    cchallenge gp sha q m (cp_a p) (cp_b p) = h_constant (gpQ gp) sha q m (cp_a p) (cp_b p)).
  { intros A1 A2 A3 A4. apply cchallenge_fmt; [exact V|exact Hq|split| |]; apply (subgroup_4096 gp _ V); assumption. }
  rewrite (C31_constant_iff gp sha p m K q V HC). unfold spec_caccepts.
  split; intros X; pose proof X as (A1 & A2 & A3 & A4 & _); specialize (EQ A1 A2 A3 A4); unfold cchallenge in EQ.
  - rewrite <- EQ. exact X.
  - rewrite EQ. exact X.
Qed.

(** ** Encrypted data *)
Definition le32 (v : Z) : bytes := map (fun k => v / 256 ^ k mod 256) [0; 1; 2; 3].
(** The mac of a counter, the seed and the total length in bits. *)
Definition h_block (hmac : bytes -> bytes -> Z) (key : bytes) (i seed bits : Z) : bytes :=
  be_bytes 32 (hmac key (le32 i ++ be_bytes 32 seed ++ le32 bits) mod 2 ^ 256).
Lemma le4_le32 v : le4 v = le32 v.
Proof. unfold le32, le4. cbn [map]. change (256 ^ 0) with 1. now rewrite Z.div_1_r. Qed.
Lemma get_hmac_block hmac key i seed bits : 0 < bits ->
  get_hmac hmac key (to_bytes_q seed) bits i = h_block hmac key i seed bits.
Proof.
  intros H. unfold get_hmac. replace (0 <? bits) with true by (symmetry; apply Z.ltb_lt; exact H). cbn zeta.
  unfold h_block. rewrite !le4_le32. reflexivity.
Qed.
Lemma xor_bytes_nth a b k : (k < length a)%nat -> (k < length b)%nat ->
  nth k (xor_bytes a b) 0 = Z.lxor (nth k a 0) (nth k b 0).
Proof.
  revert b k. induction a as [|x a IH]; intros [|y b] k Ha Hb; cbn [length] in *; try lia.
  destruct k; [reflexivity|]. cbn [xor_bytes nth]. apply IH; lia.
Qed.
Lemma xor_blocks_nth hmac key seed total n : forall i data k, length data = (32 * n)%nat -> (k < 32 * n)%nat ->
  nth k (xor_blocks hmac key seed total n i data) 0 =
  Z.lxor (nth k data 0) (nth (k mod 32) (get_hmac hmac key seed total (i + 1 + Z.of_nat (k / 32))) 0).
Proof.
  induction n as [|n IH]; intros i data k HL Hk; [lia|]. cbn [xor_blocks].
  assert (L1 : length (firstn 32 data) = 32%nat) by (rewrite firstn_length; lia).
  assert (L2 : length (xor_bytes (firstn 32 data) (get_hmac hmac key seed total (i + 1))) = 32%nat)
    by (rewrite (HashedProofs.xor_bytes_length (fun _ => 0) hmac); rewrite ?HashedProofs.get_hmac_length; exact L1).
  assert (ND : nth k data 0 = nth k (firstn 32 data ++ skipn 32 data) 0) by now rewrite firstn_skipn.
  rewrite ND. destruct (Nat.lt_ge_cases k 32) as [C|C].
  - rewrite !app_nth1 by lia. rewrite xor_bytes_nth by (rewrite ?HashedProofs.get_hmac_length; lia).
    rewrite Nat.mod_small, Nat.div_small by exact C. now rewrite Z.add_0_r.
  - rewrite !app_nth2 by lia. rewrite L1, L2. rewrite IH by (rewrite ?skipn_length; lia).
    assert (D : (k = (k - 32) + 1 * 32)%nat) by lia.
    assert (E1 : ((k - 32) mod 32 = k mod 32)%nat) by (rewrite D at 2; now rewrite Nat.mod_add).
    assert (E2 : (k / 32 = (k - 32) / 32 + 1)%nat) by (rewrite D at 1; now rewrite Nat.div_add).
    rewrite E1, E2, Nat2Z.inj_add. do 3 f_equal. cbn. lia.
Qed.
(** Byte by byte, what encrypting [padded] under the nonce gives, with the session key
    [h_session]; the authentication code covers the pad and the encrypted data. *)
Theorem C65_hashed_elgamal gp sha hmac message nonce pk seed max trunc c padded :
  valid_params gp -> 0 <= nonce < 2 ^ 256 -> 0 <= pk < 2 ^ 4096 ->
  pad_message message max trunc = Ok padded -> (32 * 2 ^ 24 > Z.of_nat (length padded)) -> padded <> [] ->
  (length padded mod 32 = 0)%nat ->
  hashed_encrypt gp sha hmac None message nonce pk seed max trunc = Ok c ->
  let pad := (gpG gp ^ nonce) mod gpP gp in
  let key := be_bytes 32 (h_session (gpQ gp) sha pad ((pk ^ nonce) mod gpP gp)) in
  let bits := 8 * Z.of_nat (length padded) in
  hc_pad c = pad /\ length (hc_data c) = length padded /\
  (forall k, (k < length padded)%nat ->
     nth k (hc_data c) 0 = Z.lxor (nth k padded 0) (nth (k mod 32) (h_block hmac key (1 + Z.of_nat (k / 32)) seed bits) 0)) /\
  hc_mac c = be_bytes 32 (hmac (h_block hmac key 0 seed bits) (be_bytes 512 pad ++ hc_data c) mod 2 ^ 256).
Proof.
  intros V Hn Hk HP HL HN HM HE pad key bits.
  unfold hashed_encrypt in HE. rewrite HP in HE. cbn [bind] in HE. apply Ok_inj in HE.
  rewrite (g_pow_p_correct gp V nonce Hn), (pow_mod_p_correct gp V pk nonce Hn) in HE. fold pad in HE.
  assert (R : forall x, 0 <= x mod gpP gp < 2 ^ 4096).
  { intros x. pose proof (vp_Phi _ V) as H1. pose proof (vp_Grng _ V) as H2. change (2 ^ 4096) with W4096.
    pose proof (Z.mod_pos_bound x (gpP gp)). clear - H1 H2 H. lia. }
  rewrite (session_fmt gp V sha pad ((pk ^ nonce) mod gpP gp) (R _) (R _)) in HE.
  set (blocks := (length padded / 32)%nat) in *.
  assert (LB : length padded = (32 * blocks)%nat).
  { unfold blocks. pose proof (Nat.div_mod (length padded) 32 ltac:(lia)) as D. rewrite HM in D. clear - D. lia. }
  assert (TB : total_bits blocks = bits).
  { unfold total_bits, bits. rewrite LB, Nat2Z.inj_mul. rewrite Z.mod_small; [change (Z.of_nat 32) with 32; ring|].
    rewrite LB, Nat2Z.inj_mul in HL. change (Z.of_nat 32) with 32 in HL. change (2 ^ 24) with 16777216 in HL.
    change (2 ^ 32) with 4294967296. clear - HL. lia. }
  assert (BP : 0 < bits).
  { unfold bits. destruct padded; [congruence|]. cbn [length]. clear. lia. }
  rewrite TB in HE. change (to_bytes_q (h_session (gpQ gp) sha pad ((pk ^ nonce) mod gpP gp))) with key in HE.
  set (ct := xor_blocks hmac key (to_bytes_q seed) bits blocks 0 padded) in *.
  assert (LC : length ct = length padded) by (apply (HashedProofs.xor_blocks_length sha hmac); exact LB).
  subst c. cbn [hc_pad hc_data hc_mac]. split; [reflexivity|]. split; [exact LC|]. split.
  - intros k Hk'. unfold ct. rewrite xor_blocks_nth by (exact LB || (rewrite <- LB; exact Hk')). rewrite get_hmac_block by exact BP.
    now rewrite Z.add_0_l.
  - unfold hashed_mac. rewrite TB. change (to_bytes_q (h_session (gpQ gp) sha pad ((pk ^ nonce) mod gpP gp))) with key.
    rewrite get_hmac_block by exact BP. reflexivity.
Qed.

(** ** A whole ballot
    Every nonce, description hash, selection hash, contest hash, ballot hash and the
    code of a ballot encrypted without precomputed values, in terms of the formats
    above, the master nonce [n] and the manifest. *)
Definition selection_tree (gp : params) (sha : bytes -> Z) (K N : Z) (ph : bool) (d : selection) (x : cselection) : Prop :=
  let h := h_selection (gpQ gp) sha d in
  let n := h_nonce (gpQ gp) sha h (ModQ N) (sd_seq d) in
  cs_id x = sd_id d /\ cs_seq x = sd_seq d /\ cs_placeholder x = ph /\ cs_desc x = h /\ cs_nonce x = Some n /\
  (exists v, (v = 0 \/ v = 1) /\ cs_ct x = spec_enc gp K v n) /\
  cs_hash x = h_cselection (gpQ gp) sha (sd_id d) h (cs_ct x).
Definition contest_tree (gp : params) (sha : bytes -> Z) (K seed : Z) (d : contest_ph) (cc : ccontest) : Prop :=
  let h := h_contest (gpQ gp) sha (cw_base d) in
  let N := h_nonce (gpQ gp) sha h (ModQ seed) (cd_seq (cw_base d)) in
  cc_id cc = cd_id (cw_base d) /\ cc_seq cc = cd_seq (cw_base d) /\ cc_desc cc = h /\ cc_nonce cc = Some N /\
  (exists reals phs, cc_selections cc = reals ++ phs /\
    Forall2 (selection_tree gp sha K N false) (get_selections (cw_base d)) reals /\
    Forall2 (selection_tree gp sha K N true) (get_placeholders d) phs) /\
  (exists hc, cc_hashed cc = Some hc /\
    hc_pad hc = (gpG gp ^ h_nonce (gpQ gp) sha N (Text (s2b "constant-extended-data")) 0) mod gpP gp) /\
  cc_hash cc = h_ccontest (gpQ gp) sha (cd_id (cw_base d)) h (map cs_hash (cc_sorted cc)).
(** The numbers of an internal manifest fit their types. *)
Definition manifest_u64 (m : internal_manifest) : Prop :=
  Forall (fun d => contest_u64 (cw_base d) /\ Forall selection_u64 (cw_placeholders d)) (im_contests m).

Section Tree.
Context (gp : params) (V : valid_params gp) (sha : bytes -> Z) (hmac : bytes -> bytes -> Z)
        (dump : json -> outcome bytes).
Lemma nonce_of_fmt seed header i : q256 seed -> item_ok header -> u64 i ->
  nonce_of gp sha seed header i = h_nonce (gpQ gp) sha seed (fld header) i.
Proof. apply nonce_fmt; exact V. Qed.
Lemma spec_enc_4096 K v r : ct_4096 (spec_enc gp K v r).
Proof.
  pose proof (vp_Phi _ V) as H1. pose proof (vp_Grng _ V) as H2.
  split; unfold p4096, spec_enc; cbn [ct_pad ct_data]; change (2 ^ 4096) with W4096;
  match goal with |- context [?x mod gpP gp] => pose proof (Z.mod_pos_bound x (gpP gp)) as H end; clear - H1 H2 H; lia.
Qed.
Lemma selection_tree_of K ext verify ph v N d x : selection_u64 d -> q256 N ->
  tree_nonce gp sha N d x -> sel_result gp sha K ext verify ph v d x -> selection_tree gp sha K N ph d x.
Proof.
  intros HU HN HT R. unfold tree_nonce in HT.
  assert (HQ : q256 (selection_hash gp sha d)) by (apply hash_q; exact V).
  rewrite nonce_of_fmt in HT by (exact HQ || exact HN || exact HU). cbn [fld] in HT.
  pose proof (sr_desc _ _ _ _ _ _ _ _ _ R) as D. pose proof (sr_id _ _ _ _ _ _ _ _ _ R) as Hi.
  destruct (sr_holds _ _ _ _ _ _ _ _ _ R) as (r & R1 & _ & R2).
  pose proof (sr_hash _ _ _ _ _ _ _ _ _ R) as Hh. rewrite Hi, D in Hh.
  rewrite (cselection_fmt gp V sha _ _ _ HQ) in Hh by (rewrite R2; apply spec_enc_4096).
  rewrite (selection_fmt gp V sha d HU) in HT, D, Hh.
  unfold selection_tree. cbv zeta. split; [exact Hi|]. split; [exact (sr_seq _ _ _ _ _ _ _ _ _ R)|].
  split; [exact (sr_ph _ _ _ _ _ _ _ _ _ R)|]. split; [exact D|]. split; [exact HT|]. split; [|exact Hh].
  exists v. split; [exact (sr_bit _ _ _ _ _ _ _ _ _ R)|]. rewrite HT in R1.
  apply (f_equal (fun o => match o with Some x => x | None => 0 end)) in R1. rewrite R1. exact R2.
Qed.
Lemma selections_tree_of K ext verify ph val N ds : Forall selection_u64 ds -> q256 N ->
  forall xs, Forall2 (tree_nonce gp sha N) ds xs ->
  Forall2 (fun d x => sel_result gp sha K ext verify ph (val d) d x) ds xs ->
  Forall2 (selection_tree gp sha K N ph) ds xs.
Proof.
  intros HU HN. induction HU as [|d ds H _ IH]; intros xs F1 F2; inversion F1; subst; inversion F2; subst; constructor.
  - eapply selection_tree_of; eassumption.
  - apply IH; assumption.
Qed.
Lemma placeholders_tree_of K ext verify ph N ds : Forall selection_u64 ds -> q256 N ->
  forall xs vs, List.length vs = List.length xs -> Forall2 (tree_nonce gp sha N) ds xs ->
  Forall2 (fun d xv => sel_result gp sha K ext verify ph (snd xv) d (fst xv)) ds (combine xs vs) ->
  Forall2 (selection_tree gp sha K N ph) ds xs.
Proof.
  intros HU HN. induction HU as [|d ds H _ IH]; intros xs vs L F1 F2; inversion F1; subst; [constructor|].
  destruct vs as [|v vs]; [discriminate|]. cbn [combine] in F2. inversion F2; subst. constructor.
  - eapply selection_tree_of; eassumption.
  - eapply IH; [|eassumption|eassumption]. now injection L.
Qed.
Lemma sort_forall {A} (P : A -> Prop) key l : Forall P l -> Forall P (sort_by key l).
Proof. rewrite !Forall_forall. intros H x Hx. apply H. now apply sort_in in Hx. Qed.
Lemma Forall2_size {A B} (R : A -> B -> Prop) a b : Forall2 R a b -> List.length a = List.length b.
Proof. induction 1; cbn; congruence. Qed.
Lemma Forall2_split {A B} (R : A -> B -> Prop) a b x y : List.length a = List.length x -> Forall2 R (a ++ b) (x ++ y) ->
  Forall2 R a x /\ Forall2 R b y.
Proof.
  revert x. induction a as [|e a IH]; intros [|f x] L F; try discriminate; cbn [app] in F.
  - split; [constructor|exact F].
  - inversion F; subst. destruct (IH x) as [I1 I2]; [now injection L|assumption|]. split; [constructor|]; assumption.
Qed.
Lemma hash_of_selections id l desc h : q256 desc -> Forall (fun x => q256 (cs_hash x)) l ->
  ccontest_hash gp sha id l desc = Ok h -> h = h_ccontest (gpQ gp) sha id desc (map cs_hash l).
Proof. intros H1 H2 E. now apply (ccontest_fmt gp V sha) in E. Qed.
Lemma contest_tree_of cx seed verify b m d cc E c s1 s2 : manifest_u64 m -> In d (im_contests m) -> q256 seed -> env_empty E ->
  ballot_contest gp sha hmac dump cx seed verify b m d cc ->
  encrypt_contest gp sha hmac dump E c m d (el_pk cx) (el_ext cx) seed verify s1 = Ok (cc, s2) ->
  contest_tree gp sha (el_pk cx) seed d cc.
Proof.
  intros HM HI Hs EE BC HE.
  destruct BC as (dh & over & reals & phs & pvs & data & hc & t1 & CR).
  apply (encrypt_contest_nonces gp V sha hmac dump) in HE; [|exact EE]. destruct HE as (dh' & Hdh' & HE).
  cbv zeta in HE. destruct HE as (_ & HF & hc' & Hhc' & Hpad).
  unfold manifest_u64 in HM. rewrite Forall_forall in HM. destruct (HM d HI) as [HU HP].
  pose proof (cr_dh _ _ _ _ _ _ _ _ _ _ _ _ _ _ _ _ _ _ _ _ CR) as Hdh.
  rewrite Hdh in Hdh'. apply Ok_inj in Hdh'. subst dh'.
  pose proof (contest_fmt gp V sha (cw_base d) dh HU Hdh) as Fdh.
  assert (Qdh : q256 dh).
  { pose proof (contest_hash_ok gp sha (cw_base d)) as X.
    assert (T : title_ok (cw_base d)).
    { unfold title_ok. unfold contest_hash in Hdh. destruct (cd_title (cw_base d)), (cd_subtitle (cw_base d)); try discriminate; congruence. }
    apply X in T. rewrite T in Hdh. apply Ok_inj in Hdh. rewrite <- Hdh. apply hash_q; exact V. }
  assert (Hseq : u64 (cd_seq (cw_base d))) by apply HU.
  pose proof (cr_nonce _ _ _ _ _ _ _ _ _ _ _ _ _ _ _ _ _ _ _ _ CR) as HN.
  set (N := nonce_of gp sha dh (HElemQ seed) (cd_seq (cw_base d))) in *.
  assert (QN : q256 N) by (apply hash_q; exact V).
  assert (FN : N = h_nonce (gpQ gp) sha dh (ModQ seed) (cd_seq (cw_base d))).
  { unfold N. rewrite nonce_of_fmt by (exact Qdh || exact Hs || exact Hseq). reflexivity. }
  rewrite (cr_sels _ _ _ _ _ _ _ _ _ _ _ _ _ _ _ _ _ _ _ _ CR) in HF.
  pose proof (cr_reals _ _ _ _ _ _ _ _ _ _ _ _ _ _ _ _ _ _ _ _ CR) as FR.
  pose proof (cr_phs _ _ _ _ _ _ _ _ _ _ _ _ _ _ _ _ _ _ _ _ CR) as FP.
  destruct (Forall2_split _ _ _ _ _ (Forall2_size _ _ _ FR) HF) as [F1 F2].
  assert (T1 : Forall2 (selection_tree gp sha (el_pk cx) N false) (get_selections (cw_base d)) reals).
  { eapply selections_tree_of; [apply sort_forall, HU|exact QN|exact F1|exact FR]. }
  assert (T2 : Forall2 (selection_tree gp sha (el_pk cx) N true) (get_placeholders d) phs).
  { eapply placeholders_tree_of; [apply sort_forall, HP|exact QN| |exact F2|exact FP].
    exact (cr_len _ _ _ _ _ _ _ _ _ _ _ _ _ _ _ _ _ _ _ _ CR). }
  unfold contest_tree. cbv zeta. rewrite <- Fdh, <- FN.
  split; [exact (cr_id _ _ _ _ _ _ _ _ _ _ _ _ _ _ _ _ _ _ _ _ CR)|].
  split; [exact (cr_seq _ _ _ _ _ _ _ _ _ _ _ _ _ _ _ _ _ _ _ _ CR)|].
  split; [exact (cr_desc _ _ _ _ _ _ _ _ _ _ _ _ _ _ _ _ _ _ _ _ CR)|].
  split; [exact HN|]. split.
  { exists reals, phs. split; [exact (cr_sels _ _ _ _ _ _ _ _ _ _ _ _ _ _ _ _ _ _ _ _ CR)|]. split; assumption. }
  split.
  { exists hc'. split; [exact Hhc'|]. rewrite Hpad.
    rewrite nonce_of_fmt; [|exact QN|exact I|split; [discriminate|reflexivity]]. cbn [fld].
    apply g_pow_p_correct; [exact V|]. 
    assert (X : q256 (nonce_of gp sha N (HStr (s2b "constant-extended-data")) 0)) by (apply hash_q; exact V).
    rewrite nonce_of_fmt in X; [exact X|exact QN|exact I|split; [discriminate|reflexivity]]. }
  pose proof (cr_hash _ _ _ _ _ _ _ _ _ _ _ _ _ _ _ _ _ _ _ _ CR) as HH.
  apply hash_of_selections in HH; [exact HH|exact Qdh|]. apply sort_forall.
  rewrite (cr_sels _ _ _ _ _ _ _ _ _ _ _ _ _ _ _ _ _ _ _ _ CR). apply Forall_app. split.
  - clear - FR V. induction FR as [|e x es xs R _ IH]; constructor; [|exact IH].
    rewrite (sr_hash _ _ _ _ _ _ _ _ _ R). apply hash_q; exact V.
  - pose proof (cr_len _ _ _ _ _ _ _ _ _ _ _ _ _ _ _ _ _ _ _ _ CR) as LP. clear - FP LP V.
    revert pvs LP FP. generalize (get_placeholders d). induction phs as [|x phs IH]; intros ps pvs LP FP; [constructor|].
    destruct pvs as [|v pvs]; [discriminate|]. injection LP as LP. cbn [combine] in FP.
    inversion FP as [|? ? ? ? R F2]; subst. cbn [fst snd] in R. constructor; [|eapply IH; eassumption].
    rewrite (sr_hash _ _ _ _ _ _ _ _ _ R). apply hash_q; exact V.
Qed.
End Tree.

Theorem C65_ballot gp sha hmac dump E b m cx code_seed nonce ts verify st r st' :
  valid_params gp -> manifest_ready m -> manifest_u64 m -> votes_unsigned b -> spec_subgroup gp (el_pk cx) ->
  env_good gp (el_pk cx) E -> env_empty E ->
  0 <= im_hash m < 2 ^ 256 -> 0 <= code_seed < 2 ^ 256 ->
  encrypt_ballot gp sha hmac dump E b m cx code_seed nonce ts verify st = Ok (r, st') ->
  (forall n, nonce = Some n -> 0 <= n < 2 ^ 256) -> 0 <= e_rand E (n_rand st) < 2 ^ 256 -> 0 <= cb_timestamp r < 2 ^ 64 ->
  exists n ds, (nonce = Some n \/ nonce = None /\ n = e_rand E (n_rand st)) /\
    contests_for m (pb_style b) = Ok ds /\ cb_nonce r = Some n /\
    Forall2 (contest_tree gp sha (el_pk cx) (h_nonce_seed (gpQ gp) sha (im_hash m) (pb_id b) n)) ds (cb_contests r) /\
    cb_hash r = h_cballot (gpQ gp) sha (pb_id b) (im_hash m) (map cc_hash (cb_contests r)) /\
    cb_code r = h_code (gpQ gp) sha code_seed (cb_timestamp r) (cb_hash r).
Proof.
  intros V MR MU HV HK EG EE Hm Hc H Hn Hr Ht.
  pose proof H as H'. apply (encrypt_ballot_ok gp sha hmac dump) in H'.
  destruct H' as (n & On & ds & nb & Hds & Hnb & HF & _ & _ & _ & _ & _ & Hno & _ & Hh & Hcode & _).
  destruct (ballot_results gp V sha hmac dump _ _ _ _ _ _ _ _ _ _ _ MR HV HK EG H) as (n' & ds' & On' & Hds' & HF').
  rewrite Hds in Hds'. apply Ok_inj in Hds'. subst ds'.
  assert (n' = n).
  { destruct On as [-> | [-> ->]], On' as [O | [O ->]]; congruence. }
  subst n'. exists n, ds. split; [exact On|]. split; [exact Hds|]. split; [exact Hno|].
  assert (Qn : q256 n) by (destruct On as [O | [_ ->]]; [exact (Hn n O)|exact Hr]).
  assert (Qs : q256 (nonce_seed gp sha (im_hash m) (pb_id b) n)) by (apply hash_q; exact V).
  assert (T : Forall2 (contest_tree gp sha (el_pk cx) (nonce_seed gp sha (im_hash m) (pb_id b) n)) ds (cb_contests r)).
  { assert (HIN : forall d, In d ds -> In d (im_contests m)) by (intros d Hd; eapply contests_for_in; eassumption).
    clear - V MU Qs EE HF HF' HIN. revert HF'. 
    assert (HIN' : Forall (fun d => In d (im_contests m)) ds) by now apply Forall_forall.
    clear HIN. generalize ds at 1 as all. intros all HF'.
    induction HF as [|d cc ds cs (c & s1 & s2 & _ & He) _ IH]; [constructor|].
    inversion HF' as [|? ? ? ? [_ B1] B2]; subst. inversion HIN' as [|? ? HI1 HI2]; subst. constructor.
    - eapply contest_tree_of; eassumption.
    - apply IH; assumption. }
  rewrite (nonce_seed_fmt gp V sha _ _ _ Hm Qn) in T. split; [exact T|].
  assert (QC : Forall (fun c => q256 (cc_hash c)) (cb_contests r)).
  { clear - V HF'. induction HF' as [|d cc ds' cs [_ (dh & over & reals & phs & pvs & data & hc & t1 & CR)] _ IH]; constructor; [|exact IH].
    pose proof (cr_hash _ _ _ _ _ _ _ _ _ _ _ _ _ _ _ _ _ _ _ _ CR) as HH. unfold ccontest_hash in HH.
    destruct (cc_sorted cc); [discriminate|]. apply Ok_inj in HH. rewrite <- HH. apply hash_q; exact V. }
  pose proof (cballot_fmt gp V sha _ _ _ _ Hm QC Hh) as [_ HB]. split; [exact HB|].
  rewrite Hcode. apply code_fmt; [exact V|exact Hc|exact Ht|]. unfold cballot_hash in Hh.
  destruct (cb_contests r); [discriminate|]. apply Ok_inj in Hh. rewrite <- Hh. apply hash_q; exact V.
Qed.
Definition u64_b (n : Z) : bool := (0 <=? n) && (n <? 2 ^ 64).
Definition manifest_u64_b (m : internal_manifest) : bool :=
  forallb (fun d => u64_b (cd_seq (cw_base d)) && u64_b (cd_elected (cw_base d)) && u64_b (cd_allowed (cw_base d)) &&
    forallb (fun s => u64_b (sd_seq s)) (cd_selections (cw_base d)) && forallb (fun s => u64_b (sd_seq s)) (cw_placeholders d))
    (im_contests m).
Lemma u64_dec n : u64_b n = true -> u64 n.
Proof. unfold u64_b. rewrite andb_true_iff, Z.leb_le, Z.ltb_lt. exact (fun H => H). Qed.
Lemma manifest_u64_dec m : manifest_u64_b m = true -> manifest_u64 m.
Proof.
  unfold manifest_u64_b, manifest_u64. rewrite forallb_forall, Forall_forall. intros H d Hd. specialize (H d Hd).
  rewrite !andb_true_iff, !forallb_forall in H. destruct H as ((((H1 & H2) & H3) & H4) & H5).
  unfold contest_u64, selection_u64. repeat split; try (apply u64_dec; assumption);
    apply Forall_forall; intros s Hs; apply u64_dec; auto.
Qed.
Example C65_case : exists r st',
  encrypt_ballot tp csha chmac dump0 env0 part_ballot im0 cx0 5 (Some 99) 1600000001 false st0 = Ok (r, st') /\
  exists n ds, (Some 99 = Some n \/ Some 99 = None /\ n = e_rand env0 (n_rand st0)) /\
    contests_for im0 (pb_style part_ballot) = Ok ds /\ cb_nonce r = Some n /\
    Forall2 (contest_tree tp csha (el_pk cx0) (h_nonce_seed (gpQ tp) csha (im_hash im0) (pb_id part_ballot) n)) ds (cb_contests r) /\
    cb_hash r = h_cballot (gpQ tp) csha (pb_id part_ballot) (im_hash im0) (map cc_hash (cb_contests r)) /\
    cb_code r = h_code (gpQ tp) csha 5 (cb_timestamp r) (cb_hash r).
Proof.
  destruct C35_case as (r & st' & H & _). exists r, st'. split; [exact H|].
  eapply (C65_ballot tp csha chmac dump0 env0 part_ballot im0 cx0 5 (Some 99) 1600000001 false st0).
  - apply test_params_valid.
  - apply im0_ready.
  - apply manifest_u64_dec. vm_compute. reflexivity.
  - repeat constructor; vm_compute; congruence.
  - rewrite cx0_key. apply (spec_key_subgroup tp sk0 test_params_valid). vm_compute. discriminate.
  - apply env0_good.
  - apply env0_empty.
  - vm_compute. split; [discriminate|reflexivity].
  - split; [discriminate|reflexivity].
  - exact H.
  - intros n X. injection X as <-. split; [discriminate|reflexivity].
  - vm_compute. split; [discriminate|reflexivity].
  - apply (encrypt_ballot_ok tp csha chmac dump0) in H.
    destruct H as (_ & _ & _ & _ & _ & _ & _ & _ & _ & _ & _ & _ & _ & Ht & _). rewrite Ht by discriminate.
    split; [discriminate|reflexivity].
Qed.

(** * C66 *)
(** As long as the hash function does not collide on the strings hashed for the two
    ballots, equal ballot hashes mean the same ballot, manifest, contests, selections
    and ciphertexts, and equal codes mean moreover the same device history and time. *)
Theorem C66_hash_commits gp sha a b :
  valid_params gp -> no_collision gp sha (cballot_queries gp sha a) (cballot_queries gp sha b) ->
  clean_cballot a -> clean_cballot b -> stored_ballot gp sha a -> stored_ballot gp sha b ->
  (cb_hash a = cb_hash b <-> same_cballot a b).
Proof. intros V NC CA CB SA SB. apply (cballot_iff gp V sha _ _ NC a b (incl_refl _) (incl_refl _) CA CB SA SB). Qed.
Theorem C66_code_commits gp sha a b :
  valid_params gp -> no_collision gp sha (code_queries gp sha a) (code_queries gp sha b) ->
  clean_cballot a -> clean_cballot b -> stored_code gp sha a -> stored_code gp sha b ->
  (cb_code a = cb_code b <-> cb_seed a = cb_seed b /\ cb_timestamp a = cb_timestamp b /\ same_cballot a b).
Proof. intros V NC CA CB SA SB. apply (code_iff gp V sha _ _ NC a b (incl_refl _) (incl_refl _) CA CB SA SB). Qed.
(** Every encrypted ballot carries the hashes of its contents. *)
Definition ids_clean (m : internal_manifest) : Prop :=
  Forall (fun d => no_bar (cd_id (cw_base d)) /\ Forall (fun s => no_bar (sd_id s)) (cd_selections (cw_base d)) /\
    Forall (fun s => no_bar (sd_id s)) (cw_placeholders d)) (im_contests m).
Lemma sel_result_clean gp sha (V : valid_params gp) K ext verify ph v d x : sel_result gp sha K ext verify ph v d x ->
  stored_selection gp sha x /\ (no_bar (sd_id d) -> clean_cselection x).
Proof.
  intros R. split; [exact (sr_hash _ _ _ _ _ _ _ _ _ R)|]. intros NB. unfold clean_cselection.
  rewrite (sr_id _ _ _ _ _ _ _ _ _ R), (sr_desc _ _ _ _ _ _ _ _ _ R).
  split; [exact NB|]. split; [apply hash_q; exact V|].
  destruct (sr_holds _ _ _ _ _ _ _ _ _ R) as (r & _ & _ & ->). exact (spec_enc_4096 gp V K v r).
Qed.
Lemma results_clean gp sha (V : valid_params gp) K ext verify ph val ds xs :
  Forall2 (fun d x => sel_result gp sha K ext verify ph (val d) d x) ds xs ->
  Forall (stored_selection gp sha) xs /\ (Forall (fun s => no_bar (sd_id s)) ds -> Forall clean_cselection xs).
Proof.
  induction 1 as [|d x ds xs R _ [I1 I2]]; [split; [constructor|intros; constructor]|].
  destruct (sel_result_clean gp sha V _ _ _ _ _ _ _ R) as [R1 R2].
  split; [constructor; assumption|]. intros F. inversion F; subst. constructor; auto.
Qed.
Lemma placeholders_clean gp sha (V : valid_params gp) K ext verify ph ds : forall xs vs, List.length vs = List.length xs ->
  Forall2 (fun d xv => sel_result gp sha K ext verify ph (snd xv) d (fst xv)) ds (combine xs vs) ->
  Forall (stored_selection gp sha) xs /\ (Forall (fun s => no_bar (sd_id s)) ds -> Forall clean_cselection xs).
Proof.
  induction ds as [|d ds IH]; intros [|x xs] [|v vs] L F; try discriminate; cbn [combine] in F;
    try (split; [apply Forall_nil|intros; apply Forall_nil]); inversion F as [|? ? ? ? R F2]; subst.
  cbn [fst snd] in R. destruct (IH xs vs ltac:(now injection L) F2) as [I1 I2].
  destruct (sel_result_clean gp sha V _ _ _ _ _ _ _ R) as [R1 R2].
  split; [apply Forall_cons; assumption|]. intros N. inversion N; subst. apply Forall_cons; auto.
Qed.
Theorem C66_encrypted gp sha hmac dump E b m cx code_seed nonce ts verify st r st' :
  valid_params gp -> manifest_ready m -> votes_unsigned b -> spec_subgroup gp (el_pk cx) -> env_good gp (el_pk cx) E ->
  encrypt_ballot gp sha hmac dump E b m cx code_seed nonce ts verify st = Ok (r, st') ->
  stored_code gp sha r /\
  (ids_clean m -> no_bar (pb_id b) -> 0 <= im_hash m < 2 ^ 256 -> 0 <= code_seed < 2 ^ 256 -> 0 <= cb_timestamp r < 2 ^ 64 ->
   clean_cballot r).
Proof.
  intros V MR HV HK EG H.
  pose proof (ballot_results gp V sha hmac dump _ _ _ _ _ _ _ _ _ _ _ MR HV HK EG H) as (n' & ds' & _ & Hds' & HF').
  apply (encrypt_ballot_ok gp sha hmac dump) in H.
  destruct H as (n & _ & ds & nb & Hds & _ & _ & _ & Hid & _ & Hm & Hs & _ & _ & Hh & Hcode & _).
  rewrite Hds in Hds'. apply Ok_inj in Hds'. subst ds'.
  set (Good := fun cc => stored_contest gp sha cc /\ (ids_clean m -> clean_ccontest cc)).
  assert (G : Forall Good (cb_contests r)).
  { assert (HIN : Forall (fun d => In d (im_contests m)) ds)
      by (apply Forall_forall; intros d Hd; eapply contests_for_in; eassumption).
    clear - V HF' HIN.
    assert (X : forall all cs, Forall2 (fun d cc => In d all /\ ballot_contest gp sha hmac dump cx
      (nonce_seed gp sha (im_hash m) (pb_id b) n') verify b m d cc) ds cs -> Forall Good cs).
    { clear HF'. intros all. induction HIN as [|d ds HI _ IH]; intros cs HF; inversion HF as [|? cc ? cs' [_ BC] HF2]; subst; constructor.
      2: now apply IH.
      destruct BC as (dh & over & reals & phs & pvs & data & hc & t1 & CR).
      pose proof (cr_hash _ _ _ _ _ _ _ _ _ _ _ _ _ _ _ _ _ _ _ _ CR) as HH.
      pose proof (cr_sels _ _ _ _ _ _ _ _ _ _ _ _ _ _ _ _ _ _ _ _ CR) as HS.
      pose proof (cr_dh _ _ _ _ _ _ _ _ _ _ _ _ _ _ _ _ _ _ _ _ CR) as Hdh.
      destruct (results_clean gp sha V _ _ _ _ _ _ _ (cr_reals _ _ _ _ _ _ _ _ _ _ _ _ _ _ _ _ _ _ _ _ CR)) as [A1 A2].
      destruct (placeholders_clean gp sha V _ _ _ _ _ _ _ (cr_len _ _ _ _ _ _ _ _ _ _ _ _ _ _ _ _ _ _ _ _ CR)
                  (cr_phs _ _ _ _ _ _ _ _ _ _ _ _ _ _ _ _ _ _ _ _ CR)) as [B1 B2].
      split.
      - unfold stored_contest. rewrite (cr_id _ _ _ _ _ _ _ _ _ _ _ _ _ _ _ _ _ _ _ _ CR),
          (cr_desc _ _ _ _ _ _ _ _ _ _ _ _ _ _ _ _ _ _ _ _ CR).
        split; [exact HH|]. rewrite HS. apply Forall_app. split; assumption.
      - intros IC. unfold ids_clean in IC. rewrite Forall_forall in IC. destruct (IC d HI) as (C1 & C2 & C3).
        unfold clean_ccontest. rewrite (cr_id _ _ _ _ _ _ _ _ _ _ _ _ _ _ _ _ _ _ _ _ CR),
          (cr_desc _ _ _ _ _ _ _ _ _ _ _ _ _ _ _ _ _ _ _ _ CR), HS.
        split; [exact C1|]. split.
        + unfold contest_hash in Hdh. destruct (cd_title (cw_base d)), (cd_subtitle (cw_base d)); try discriminate;
            apply Ok_inj in Hdh; subst dh; apply hash_q; exact V.
        + apply Forall_app. split; [apply A2, sort_forall, C2|apply B2, sort_forall, C3]. }
    exact (X ds _ HF'). }
  split.
  - split; [split|].
    + rewrite Hid, Hm. exact Hh.
    + eapply Forall_impl; [|exact G]. intros cc [A _]. exact A.
    + rewrite Hs. exact Hcode.
  - intros IC NB Q1 Q2 Q3. unfold clean_cballot. rewrite Hid, Hm, Hs. split; [exact NB|]. split; [exact Q1|].
    split; [exact Q2|]. split; [exact Q3|]. eapply Forall_impl; [|exact G]. intros cc [_ A]. exact (A IC).
Qed.
(** What is not committed to: nothing that is only in the fields below enters the
    hash of a ballot, its code or the outcome of verifying it. *)
Definition replace_hashed (h : option hashed_ct) (style : bytes) (b : cballot) : cballot :=
  {| cb_id := cb_id b; cb_style := style; cb_manifest := cb_manifest b; cb_seed := cb_seed b;
     cb_contests := map (fun a => {| cc_id := cc_id a; cc_seq := cc_seq a; cc_desc := cc_desc a;
       cc_selections := cc_selections a; cc_nonce := cc_nonce a; cc_acc := cc_acc a; cc_hash := cc_hash a;
       cc_proof := cc_proof a; cc_hashed := h |}) (cb_contests b);
     cb_code := cb_code b; cb_timestamp := cb_timestamp b; cb_nonce := cb_nonce b; cb_hash := cb_hash b |}.
(** An encrypted and accepted ballot, and the same ballot with another style and other
    extended data, which decrypts to a text of someone else's choosing: same hash, same
    code, still consistent and still accepted. *)
Definition enc0 : outcome (cballot * EncryptModel.st) :=
  encrypt_ballot tp csha chmac dump0 env0 part_ballot im0 cx0 5 (Some 99) 1600000001 false st0.
Definition other_data : outcome hashed_ct :=
  hashed_encrypt tp csha chmac None (s2b "other") 4321 (el_pk cx0) (el_ext cx0) 510 true.
Theorem C66_extended_data_refuted :
  exists r st' hc, enc0 = Ok (r, st') /\ other_data = Ok hc /\
    let r' := replace_hashed (Some hc) (s2b "full") r in
    stored_code tp csha r /\ stored_code tp csha r' /\ cb_hash r' = cb_hash r /\ cb_code r' = cb_code r /\
    cballot_valid tp csha r (im_hash im0) (el_pk cx0) (el_ext cx0) = Ok true /\
    cballot_valid tp csha r' (im_hash im0) (el_pk cx0) (el_ext cx0) = Ok true /\
    map (fun c => match cc_hashed c with Some h => hashed_decrypt tp csha chmac h sk0 (el_ext cx0) true | None => UB end)
      (cb_contests r') = [Ok (s2b "other")] /\
    map (fun c => match cc_hashed c with Some h => hashed_decrypt tp csha chmac h sk0 (el_ext cx0) true | None => UB end)
      (cb_contests r) = [Ok []].
Proof.
  assert (E : exists r st', enc0 = Ok (r, st')) by (eexists; eexists; vm_compute; reflexivity).
  destruct E as (r & st' & E).
  assert (S : stored_code tp csha r).
  { apply (C66_encrypted tp csha chmac dump0 env0 part_ballot im0 cx0 5 (Some 99) 1600000001 false st0 r st').
    - apply test_params_valid.
    - apply im0_ready.
    - repeat constructor; vm_compute; congruence.
    - rewrite cx0_key. apply (spec_key_subgroup tp sk0 test_params_valid). vm_compute. discriminate.
    - apply env0_good.
    - exact E. }
  assert (S' : forall h s, stored_code tp csha (replace_hashed h s r)).
  { intros h s. destruct S as [[S1 S2] S3]. split; [split|].
    - unfold replace_hashed. cbn [cb_id cb_contests cb_manifest cb_hash]. rewrite <- S1.
      unfold cballot_hash. destruct (cb_contests r); [reflexivity|]. cbn [map]. rewrite map_map. reflexivity.
    - unfold replace_hashed. cbn [cb_contests]. apply Forall_map. eapply Forall_impl; [|exact S2].
      intros c [C1 C2]. split; [exact C1|exact C2].
    - exact S3. }
  eexists r, st', _. split; [exact E|]. split; [vm_compute; reflexivity|]. cbv zeta.
  split; [exact S|]. split; [apply S'|]. split; [reflexivity|]. split; [reflexivity|].
  vm_compute in E. apply Ok_inj in E. apply (f_equal fst) in E. cbn [fst] in E. subst r.
  split; [vm_compute; reflexivity|]. split; [vm_compute; reflexivity|]. split; vm_compute; reflexivity.
Qed.
(** Two small ballots that meet the conditions and differ in one ciphertext. *)
Definition toy_selection (pad : Z) : cselection :=
  let ct := {| ct_pad := pad; ct_data := 9 |} in
  {| cs_id := s2b "s"; cs_seq := 1; cs_desc := 3; cs_ct := ct; cs_placeholder := false; cs_nonce := None;
     cs_hash := cselection_hash tp toy_sha (s2b "s") 3 ct; cs_proof := None |}.
Definition or0 (o : outcome Z) : Z := match o with Ok h => h | _ => 0 end.
Definition toy_contest (pad : Z) : ccontest :=
  {| cc_id := s2b "c"; cc_seq := 1; cc_desc := 4; cc_selections := [toy_selection pad]; cc_nonce := None;
     cc_acc := {| ct_pad := 1; ct_data := 1 |}; cc_hash := or0 (ccontest_hash tp toy_sha (s2b "c") [toy_selection pad] 4);
     cc_proof := None; cc_hashed := None |}.
Definition toy_ballot (pad : Z) : cballot :=
  let h := or0 (cballot_hash tp toy_sha (s2b "b") [toy_contest pad] 5) in
  {| cb_id := s2b "b"; cb_style := s2b "x"; cb_manifest := 5; cb_seed := 6; cb_contests := [toy_contest pad];
     cb_code := ballot_code tp toy_sha 6 1700000000 h; cb_timestamp := 1700000000; cb_nonce := None; cb_hash := h |}.
Lemma toy_stored pad : stored_code tp toy_sha (toy_ballot pad).
Proof.
  split; [split; [reflexivity|]|reflexivity]. apply Forall_cons; [|apply Forall_nil]. split; [reflexivity|].
  apply Forall_cons; [reflexivity|apply Forall_nil].
Qed.
Lemma toy_clean pad : 0 <= pad < 2 ^ 4096 -> clean_cballot (toy_ballot pad).
Proof.
  intros H.
  assert (NB : forall b, existsb (Z.eqb delim) b = false -> no_bar b).
  { intros b E I. apply Bool.not_true_iff_false in E. apply E. apply existsb_exists. exists delim.
    split; [assumption|]. apply Z.eqb_refl. }
  assert (P : 2 ^ 4096 = W4096) by reflexivity.
  split; [apply NB; reflexivity|]. split; [split; [discriminate|reflexivity]|].
  split; [split; [discriminate|reflexivity]|]. split; [split; [discriminate|reflexivity]|].
  apply Forall_cons; [|apply Forall_nil]. split; [apply NB; reflexivity|]. split; [split; [discriminate|reflexivity]|].
  apply Forall_cons; [|apply Forall_nil]. split; [apply NB; reflexivity|]. split; [split; [discriminate|reflexivity]|].
  split; [exact H|]. split; [discriminate|reflexivity].
Qed.
Example C66_case : no_collision tp toy_sha (code_queries tp toy_sha (toy_ballot 7)) (code_queries tp toy_sha (toy_ballot 8)) /\
  clean_cballot (toy_ballot 7) /\ clean_cballot (toy_ballot 8) /\
  stored_code tp toy_sha (toy_ballot 7) /\ stored_code tp toy_sha (toy_ballot 8) /\
  cb_code (toy_ballot 7) <> cb_code (toy_ballot 8).
Proof.
  assert (N : no_collision tp toy_sha (code_queries tp toy_sha (toy_ballot 7)) (code_queries tp toy_sha (toy_ballot 8)))
    by (apply no_collision_dec; vm_compute; reflexivity).
  assert (C1 : clean_cballot (toy_ballot 7)) by (apply toy_clean; split; [discriminate|reflexivity]).
  assert (C2 : clean_cballot (toy_ballot 8)) by (apply toy_clean; split; [discriminate|reflexivity]).
  repeat (split; [first [exact N|exact C1|exact C2|apply toy_stored]|]).
  intros E. apply (C66_code_commits tp toy_sha _ _ test_params_valid N C1 C2 (toy_stored 7) (toy_stored 8)) in E.
  destruct E as (_ & _ & _ & _ & F). inversion F as [|? ? ? ? (_ & _ & F1) _]; subst.
  inversion F1 as [|? ? ? ? (_ & _ & X) _]. discriminate X.
Qed.

Print Assumptions C65_manifest.
Print Assumptions C65_manifest_parts.
Print Assumptions C65_ciphertext.
Print Assumptions C65_hashed_ciphertext.
Print Assumptions C65_device.
Print Assumptions C65_code.
Print Assumptions C65_context.
Print Assumptions C65_nonces.
Print Assumptions C65_disjunctive.
Print Assumptions C65_constant.
Print Assumptions C65_hashed_elgamal.
Print Assumptions C65_ballot.
Print Assumptions C66_hash_commits.
Print Assumptions C66_code_commits.
Print Assumptions C66_encrypted.
Print Assumptions C66_extended_data_refuted.
