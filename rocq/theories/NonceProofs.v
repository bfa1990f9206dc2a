(** Different places of published ballots show different powers. *)
From Coq Require Import String Permutation Psatz.
From Verif Require Import Base GroupModel GroupSpec GroupProofs CodecModel CodecProofs HashModel HashProofs Algebra
  ElgamalModel ElgamalSpec ElgamalProofs SoundProofs ChaumModel ChaumProofs TallyProofs HashedProofs
  SortModel SortProofs ManifestModel ManifestSpec ManifestProofs ManifestCommit BallotModel JsonModel EncryptModel
  EncryptSpec EncryptProofs BallotProofs BallotProofs2 NonceSpec.
Open Scope list_scope.
Open Scope Z_scope.
Ltac Zify.zify_post_hook ::= idtac.

Section N.
Context (gp : params) (PP : prime_params gp) (sha : bytes -> Z) (hmac : bytes -> bytes -> Z)
        (dump : json -> outcome bytes).
Notation V := (pp_valid gp PP).
Notation Q := (gpQ gp).
Notation msg := (hash_message gp sha).
Notation hash := (hash_elems gp sha).
Notation hs := (hash_string gp sha).

Lemma Forall2_pick_r {A B} (R : A -> B -> Prop) l l' y : Forall2 R l l' -> In y l' -> exists x, In x l /\ R x y.
Proof.
  induction 1 as [|a b l l' H _ IH]; intros HI; [destruct HI|].
  destruct HI as [<- | HI]; [exists a; split; [now left|exact H]|].
  destruct (IH HI) as (w & Hw & HR). exists w. split; [now right|exact HR].
Qed.
(** ** Powers *)
Lemma pad_inj a b : 0 <= a < Q -> 0 <= b < Q -> g_pow_p gp a = g_pow_p gp b -> a = b.
Proof.
  intros Ha Hb E. unfold g_pow_p in E. rewrite !(pow_ex gp PP) in E by (assumption || apply (sub_G gp V)).
  apply (ex_G_inj gp PP) in E. rewrite !Z.mod_small in E by assumption. exact E.
Qed.

(** ** What a run shows *)
Definition sel_pad (seed : Z) (d : selection) (x : cselection) : Prop :=
  cs_seq x = sd_seq d /\
  ct_pad (cs_ct x) = g_pow_p gp (nonce_of gp sha (selection_hash gp sha d) (HElemQ seed) (sd_seq d)).
Lemma encrypt_selection_pad E s d K ext seed ph verify st c st' : env_empty E ->
  encrypt_selection gp sha E s d K ext seed ph verify st = Ok (c, st') -> sel_pad seed d c.
Proof.
  intros [EE _]. unfold encrypt_selection.
  destruct (pselection_valid s (sd_id d)); cbn [negb]; [|discriminate].
  intros H. apply mbind_ok in H. destruct H as (tq & s1 & H1 & H).
  unfold ask_tq in H1. apply pair_ok in H1. destruct H1 as [Htq _]. rewrite EE in Htq. subst tq.
  apply mbind_ok in H. destruct H as (c0 & s2 & H2 & H).
  assert (HC : c = c0).
  { destruct verify; cbn [negb] in H.
    - destruct (cselection_valid gp sha c0 _ K ext); [|discriminate].
      apply ret_ok in H. apply H.
    - apply ret_ok in H. apply H. }
  subst c0. clear H.
  apply mbind_ok in H2. destruct H2 as (ct & s3 & HCT & H2).
  apply mbind_ok in H2. destruct H2 as (u & s4 & _ & H2).
  apply mbind_ok in H2. destruct H2 as (v & s5 & _ & H2).
  apply mbind_ok in H2. destruct H2 as (w & s6 & _ & H2).
  apply mbind_ok in H2. destruct H2 as (p & s7 & _ & H2).
  apply ret_ok in H2. destruct H2 as [-> _]. split; [reflexivity|]. cbn [cs_ct].
  apply lift_ok in HCT. destruct HCT as [HCT _]. unfold elgamal_encrypt in HCT.
  destruct (_ =? 0); [discriminate HCT|]. apply Ok_inj in HCT. subst ct. reflexivity.
Qed.
Lemma reals_pads E n over K ext seed verify : env_empty E -> forall ds count st cs count' st',
  mfold (encrypt_real gp sha E n over K ext seed verify) ds count st = Ok ((cs, count'), st') ->
  Forall2 (sel_pad seed) ds cs.
Proof.
  intros EE. induction ds as [|d ds IH]; intros count st cs count' st' H; apply mfold_ok in H.
  - destruct H as (-> & _). constructor.
  - destruct H as (y & c1 & s1 & ys & H1 & H2 & ->). constructor; [|eapply IH; exact H2].
    unfold encrypt_real in H1. destruct (find _ n); [|discriminate].
    apply mbind_ok in H1. destruct H1 as (c & s2 & H3 & H1). apply ret_ok in H1. destruct H1 as [E1 _].
    inversion E1. subst. eapply encrypt_selection_pad; [exact EE|exact H3].
Qed.
Lemma phs_pads E over el K ext seed verify : env_empty E -> forall ds count st cs count' st',
  mfold (encrypt_placeholder gp sha E over el K ext seed verify) ds count st = Ok ((cs, count'), st') ->
  Forall2 (sel_pad seed) ds cs.
Proof.
  intros EE. induction ds as [|d ds IH]; intros count st cs count' st' H; apply mfold_ok in H.
  - destruct H as (-> & _). constructor.
  - destruct H as (y & c1 & s1 & ys & H1 & H2 & ->). constructor; [|eapply IH; exact H2].
    unfold encrypt_placeholder in H1.
    apply mbind_ok in H1. destruct H1 as (c & s2 & H3 & H1). apply ret_ok in H1. destruct H1 as [E1 _].
    inversion E1. subst. eapply encrypt_selection_pad; [exact EE|exact H3].
Qed.
Definition next_seq (q : Z) : Z := (q + 1) mod 2 ^ 64.
Lemma encrypt_contest_pads E c m d K ext seed verify st r st' : env_empty E ->
  encrypt_contest gp sha hmac dump E c m d K ext seed verify st = Ok (r, st') ->
  exists dh, contest_hash gp sha (cw_base d) = Ok dh /\ cc_seq r = cd_seq (cw_base d) /\
    let cn := nonce_of gp sha dh (HElemQ seed) (cd_seq (cw_base d)) in
    let pn := nonce_of gp sha dh (HElemQ seed) (next_seq (cd_seq (cw_base d))) in
    Forall2 (sel_pad cn) (get_selections (cw_base d) ++ get_placeholders d) (cc_selections r) /\
    (exists hc, cc_hashed r = Some hc /\ hc_pad hc = g_pow_p gp (nonce_of gp sha cn (HStr data_label) 0)) /\
    (exists p, cc_proof r = Some p /\ cp_a p = g_pow_p gp (nonce_of gp sha pn (HStr proof_label) 0)).
Proof.
  intros EE. unfold encrypt_contest. set (b := cw_base d) in *. set (check := pcontest_valid _ _ _ _ _ _).
  clearbody check. intros H.
  assert (HM : check = SUCCESS \/ check = OVERVOTE) by (destruct check; auto; discriminate).
  match type of H with match check with SUCCESS | OVERVOTE => ?k | _ => _ end st = _ =>
    assert (H' : k st = Ok (r, st')) by (destruct HM as [-> | ->]; exact H) end.
  clear H. rename H' into H.
  apply mbind_ok in H. destruct H as (dh & s1 & H1 & H). apply lift_ok in H1. destruct H1 as [Hdh ->].
  exists dh. split; [exact Hdh|]. cbn zeta in H. unfold nonces_get in H. cbn iota zeta in H.
  set (cn := hash [HElemQ (nseed (nonces_new gp sha dh (HElemQ seed))); HU64 (cd_seq b)]) in *.
  assert (Hcn : cn = nonce_of gp sha dh (HElemQ seed) (cd_seq b)) by reflexivity.
  clearbody cn. set (pn := fst _) in H.
  assert (Hpn : pn = nonce_of gp sha dh (HElemQ seed) (next_seq (cd_seq b))) by reflexivity. clearbody pn.
  apply mbind_ok in H. destruct H as (data & s2 & _ & H).
  apply mbind_ok in H. destruct H as ((reals & count) & s3 & Hreal & H).
  apply mbind_ok in H. destruct H as ((phs & count') & s4 & Hph & H).
  apply mbind_ok in H. destruct H as (n1 & s5 & H1 & H). apply lift_ok in H1. destruct H1 as [Hn1 ->].
  assert (Rcn : 0 <= cn < Q) by (rewrite Hcn; apply nonce_of_range, V).
  rewrite (clone_q_id gp cn Rcn) in Hn1. apply Ok_inj in Hn1. subst n1.
  apply mbind_ok in H. destruct H as (t1 & s6 & H1 & H). unfold ask_tr in H1. apply pair_ok in H1. destruct H1 as [Ht1 _].
  rewrite (proj2 EE) in Ht1. subst t1.
  apply mbind_ok in H. destruct H as (hc & s7 & H1 & H). apply lift_ok in H1. destruct H1 as [Hhc ->].
  apply mbind_ok in H. destruct H as (n2 & s8 & H1 & H). apply lift_ok in H1. destruct H1 as [Hn2 ->].
  rewrite (clone_q_id gp cn Rcn) in Hn2. apply Ok_inj in Hn2. subst n2.
  apply mbind_ok in H. destruct H as (t2 & s9 & H1 & H). unfold ask_tr in H1. apply pair_ok in H1. destruct H1 as [Ht2 _].
  rewrite (proj2 EE) in Ht2. subst t2.
  apply mbind_ok in H. destruct H as (r0 & s10 & H1 & H). apply lift_ok in H1. destruct H1 as [Hmake ->].
  assert (r = r0).
  { destruct verify; cbn [negb] in H.
    - apply mbind_ok in H. destruct H as (ok & s11 & _ & H).
      destruct ok; [|discriminate]. apply ret_ok in H. apply H.
    - apply ret_ok in H. apply H. }
  subst r0. unfold ccontest_make in Hmake.
  apply bind_ok in Hmake. destruct Hmake as (h & _ & Hmake). apply bind_ok in Hmake. destruct Hmake as (acc & _ & Hmake).
  apply bind_ok in Hmake. destruct Hmake as (agg & _ & Hmake). apply bind_ok in Hmake. destruct Hmake as (p & HP & Hmake).
  apply Ok_inj in Hmake. subst r. cbn [cc_seq cc_selections cc_hashed cc_proof]. split; [reflexivity|].
  rewrite <- Hcn, <- Hpn. cbn zeta. split; [|split].
  - apply Forall2_app; [eapply reals_pads|eapply phs_pads]; eassumption.
  - exists hc. split; [reflexivity|]. unfold hashed_encrypt in Hhc.
    apply bind_ok in Hhc. destruct Hhc as (padded & _ & Hhc). apply Ok_inj in Hhc. subst hc. reflexivity.
  - exists p. split; [reflexivity|]. unfold cproof_make in HP.
    apply bind_ok in HP. destruct HP as (v & _ & HP). apply Ok_inj in HP. subst p. reflexivity.
Qed.
(** The place of a power and the exponent behind it. *)
Inductive behind (seed : Z) (d : contest_ph) : slot -> Z -> Prop :=
| BVote dh x : contest_hash gp sha (cw_base d) = Ok dh -> In x (get_selections (cw_base d) ++ get_placeholders d) ->
    behind seed d (AtVote (cd_seq (cw_base d)) (sd_seq x))
      (nonce_of gp sha (selection_hash gp sha x) (HElemQ (nonce_of gp sha dh (HElemQ seed) (cd_seq (cw_base d)))) (sd_seq x))
| BData dh : contest_hash gp sha (cw_base d) = Ok dh ->
    behind seed d (AtData (cd_seq (cw_base d)))
      (nonce_of gp sha (nonce_of gp sha dh (HElemQ seed) (cd_seq (cw_base d))) (HStr data_label) 0)
| BProof dh : contest_hash gp sha (cw_base d) = Ok dh ->
    behind seed d (AtProof (cd_seq (cw_base d)))
      (nonce_of gp sha (nonce_of gp sha dh (HElemQ seed) (next_seq (cd_seq (cw_base d)))) (HStr proof_label) 0).
Lemma contest_behind E c m d K ext seed verify st r st' l p : env_empty E ->
  encrypt_contest gp sha hmac dump E c m d K ext seed verify st = Ok (r, st') ->
  In (l, p) (contest_slots r) -> exists e, behind seed d l e /\ p = g_pow_p gp e.
Proof.
  intros EE H. destruct (encrypt_contest_pads _ _ _ _ _ _ _ _ _ _ _ EE H) as (dh & Hdh & HS & HF & (hc & Hhc & Hpad) & (pr & Hpr & Hcp)).
  unfold contest_slots. rewrite Hhc, Hpr, HS. rewrite !in_app_iff. intros [HI|[HI|HI]].
  - apply in_map_iff in HI. destruct HI as (x & HX & HI). injection HX as <- <-.
    destruct (Forall2_pick_r _ _ _ _ HF HI) as (y & Hy & Y1 & Y2). rewrite Y1.
    eexists. split; [apply BVote; [exact Hdh|exact Hy]|exact Y2].
  - destruct HI as [HI|[]]. injection HI as <- <-. eexists. split; [apply BData; exact Hdh|exact Hpad].
  - destruct HI as [HI|[]]. injection HI as <- <-. eexists. split; [apply BProof; exact Hdh|exact Hcp].
Qed.

(** ** Strings *)
Lemma hex_last s s' t t' : delim_free t -> delim_free t' ->
  s ++ delim :: t = s' ++ delim :: t' -> s = s' /\ t = t'.
Proof.
  intros H H' E. assert (D : forall u, delim_free u -> delim_free (rev u)).
  { intros u Hu HI. apply Hu. now apply in_rev in HI. }
  apply (f_equal (@rev Z)) in E. rewrite !rev_app_distr in E. cbn [rev] in E. rewrite <- !app_assoc in E. cbn [app] in E.
  apply split_delim in E; [|apply D; assumption..]. destruct E as [E1 E2].
  apply (f_equal (@rev Z)) in E1. apply (f_equal (@rev Z)) in E2. rewrite !rev_involutive in *. auto.
Qed.
Lemma seed_message a id n a' id' n' : 0 <= a < W256 -> 0 <= a' < W256 -> 0 <= n < W256 -> 0 <= n' < W256 ->
  msg [HElemQ a; HStr id; HElemQ n] = msg [HElemQ a'; HStr id'; HElemQ n'] ->
  a = a' /\ same_str id id' /\ n = n'.
Proof.
  intros Ha Ha' Hn Hn' E. unfold hash_message in E. apply (f_equal (@tl Z)) in E. cbn [tl flat_map] in E.
  rewrite !app_nil_r, <- !app_assoc in E. cbn [app] in E.
  apply split_delim in E; [|apply (hash_string_delim_free gp sha (HElemQ _)); exact I..].
  destruct E as [E1 E]. apply to_hex_q_inj in E1; [|assumption..].
  change (delim :: hs (HElemQ n) ++ [delim]) with ((delim :: hs (HElemQ n)) ++ [delim]) in E.
  change (delim :: hs (HElemQ n') ++ [delim]) with ((delim :: hs (HElemQ n')) ++ [delim]) in E.
  rewrite !app_assoc in E. apply app_inj_tail in E. destruct E as [E _].
  apply hex_last in E; [|apply (hash_string_delim_free gp sha (HElemQ _)); exact I..].
  destruct E as [E2 E3]. apply to_hex_q_inj in E3; [|assumption..].
  split; [exact E1|]. split; [|exact E3]. apply (str_iff gp sha). exact E2.
Qed.

Context (S S' : list bytes) (NC : no_collision gp sha S S').
Lemma hash_strings l l' : In (msg l) S -> In (msg l') S' -> l <> [] -> l' <> [] ->
  Forall item_clean l -> Forall item_clean l' -> hash l = hash l' -> map hs l = map hs l'.
Proof. intros I1 I2 N1 N2 C1 C2 E. apply hash_message_inj; try assumption. apply NC; assumption. Qed.
Lemma map_two (f : hitem -> bytes) a b a' b' : map f [a; b] = map f [a'; b'] -> f a = f a' /\ f b = f b'.
Proof. cbn [map]. generalize (f a) (f b) (f a') (f b'). intros x y x' y' E. injection E. auto. Qed.
Lemma two_q a b a' b' : In (msg [HElemQ a; HElemQ b]) S -> In (msg [HElemQ a'; HElemQ b']) S' ->
  0 <= b < W256 -> 0 <= b' < W256 -> hash [HElemQ a; HElemQ b] = hash [HElemQ a'; HElemQ b'] -> b = b'.
Proof.
  intros I1 I2 R R' E. apply hash_strings in E; [|assumption || discriminate || (repeat constructor)..].
  apply map_two in E. destruct E as [_ E]. apply to_hex_q_inj; assumption.
Qed.
Lemma q_u64 a i a' i' : In (msg [HElemQ a; HU64 i]) S -> In (msg [HElemQ a'; HU64 i']) S' ->
  0 <= a < W256 -> 0 <= a' < W256 -> u64 i -> u64 i' ->
  hash [HElemQ a; HU64 i] = hash [HElemQ a'; HU64 i'] -> a = a' /\ i = i'.
Proof.
  intros I1 I2 R R' U U' E. apply hash_strings in E;
    [|assumption || discriminate || (constructor; [exact I|constructor; [apply U || apply U'|constructor]])..].
  apply map_two in E. destruct E as [E1 E2]. split; [apply to_hex_q_inj; assumption|].
  apply (u64_iff gp sha); assumption.
Qed.
Definition label (l : bytes) := l = data_label \/ l = proof_label.
Lemma label_clean l : label l -> delim_free l.
Proof. intros [-> | ->]; nobar. Qed.
Lemma label_not_hex l v : label l -> hs (HStr l) <> to_hex_q v.
Proof.
  intros L E. assert (H : Forall is_hexchar (to_hex_q v)).
  { rewrite to_hex_q_eq. apply bytes_to_hex_chars, to_bytes_q_bytes. }
  rewrite <- E in H. rewrite Forall_forall in H.
  assert (HI : In 110 (hs (HStr l))) by (destruct L as [-> | ->]; vm_compute; tauto).
  apply H in HI. unfold is_hexchar in HI. clear - HI. lia.
Qed.
Lemma two_labels a l a' l' : In (msg [HElemQ a; HStr l]) S -> In (msg [HElemQ a'; HStr l']) S' ->
  0 <= a < W256 -> 0 <= a' < W256 -> label l -> label l' ->
  hash [HElemQ a; HStr l] = hash [HElemQ a'; HStr l'] -> a = a' /\ l = l'.
Proof.
  intros I1 I2 R R' U U' E. apply hash_strings in E;
    [|assumption || discriminate || (constructor; [exact I|constructor; [apply label_clean; assumption|constructor]])..].
  apply map_two in E. destruct E as [E1 E2]. split; [apply to_hex_q_inj; assumption|].
  clear - U U' E2. destruct U as [-> | ->], U' as [-> | ->]; try reflexivity; vm_compute in E2; discriminate E2.
Qed.
Lemma q_label a b a' l' : In (msg [HElemQ a; HElemQ b]) S -> In (msg [HElemQ a'; HStr l']) S' -> label l' ->
  hash [HElemQ a; HElemQ b] = hash [HElemQ a'; HStr l'] -> False.
Proof.
  intros I1 I2 U E. apply hash_strings in E;
    [|assumption || discriminate || (constructor; [exact I|constructor; [exact I || (apply label_clean; assumption)|constructor]])..].
  apply map_two in E. destruct E as [_ E]. symmetry in E. revert E. apply label_not_hex, U.
Qed.
Lemma label_q a l a' b' : In (msg [HElemQ a; HStr l]) S -> In (msg [HElemQ a'; HElemQ b']) S' -> label l ->
  hash [HElemQ a; HStr l] = hash [HElemQ a'; HElemQ b'] -> False.
Proof.
  intros I1 I2 U E. apply hash_strings in E;
    [|assumption || discriminate || (constructor; [exact I|constructor; [exact I || (apply label_clean; assumption)|constructor]])..].
  apply map_two in E. destruct E as [_ E]. revert E. apply label_not_hex, U.
Qed.

Definition seqs_u64 (d : contest_ph) : Prop :=
  u64 (cd_seq (cw_base d)) /\ forall x, In x (get_selections (cw_base d) ++ get_placeholders d) -> u64 (sd_seq x).
Lemma next_u64 q : u64 (next_seq q).
Proof. unfold u64, next_seq. change W64 with (2 ^ 64). apply Z.mod_pos_bound. reflexivity. Qed.
Lemma next_inj a b : u64 a -> u64 b -> next_seq a = next_seq b -> a = b.
Proof.
  unfold u64, next_seq. change W64 with (2 ^ 64). intros Ha Hb E.
  assert (D : forall c, 0 <= c < 2 ^ 64 -> c = ((c + 1) mod 2 ^ 64 - 1) mod 2 ^ 64).
  { intros c Hc. rewrite Zminus_mod_idemp_l. replace (c + 1 - 1) with c by lia. symmetry. apply Z.mod_small, Hc. }
  rewrite (D a Ha), (D b Hb), E. reflexivity.
Qed.
Lemma hash_r l : 0 <= hash l < W256.
Proof. apply (hash_range gp V sha (fun _ => [])). Qed.
Lemma nonce_hash seed h i : nonce_of gp sha seed h i = hash [HElemQ (hash [HElemQ seed; h]); HU64 i].
Proof. reflexivity. Qed.
Lemma nonce_range seed h i : 0 <= nonce_of gp sha seed h i < W256.
Proof. rewrite nonce_hash. apply hash_r. Qed.
Lemma base_inj dh dh' seed seed' i i' :
  In (msg [HElemQ dh; HElemQ seed]) S -> In (msg [HElemQ dh'; HElemQ seed']) S' ->
  In (msg [HElemQ (hash [HElemQ dh; HElemQ seed]); HU64 i]) S -> In (msg [HElemQ (hash [HElemQ dh'; HElemQ seed']); HU64 i']) S' ->
  0 <= seed < W256 -> 0 <= seed' < W256 -> u64 i -> u64 i' ->
  nonce_of gp sha dh (HElemQ seed) i = nonce_of gp sha dh' (HElemQ seed') i' -> seed = seed' /\ i = i'.
Proof.
  intros A1 A2 B1 B2 R R' U U' E. rewrite !nonce_hash in E.
  apply q_u64 in E; [|assumption || apply hash_r..]. destruct E as [E Ei].
  apply two_q in E; [|assumption..]. auto.
Qed.
Lemma in_vote_strings seed d dh x : contest_hash gp sha (cw_base d) = Ok dh ->
  In x (get_selections (cw_base d) ++ get_placeholders d) ->
  let cn := nonce_of gp sha dh (HElemQ seed) (cd_seq (cw_base d)) in
  let h := selection_hash gp sha x in
  In (msg [HElemQ h; HElemQ cn]) (contest_strings gp sha seed d) /\
  In (msg [HElemQ (hash [HElemQ h; HElemQ cn]); HU64 (sd_seq x)]) (contest_strings gp sha seed d).
Proof.
  intros Hdh HI cn h. unfold contest_strings. rewrite Hdh. split; apply in_or_app; right; apply in_flat_map; exists x.
  - split; [exact HI|left; reflexivity].
  - split; [exact HI|right; left; reflexivity].
Qed.
Lemma in_contest_strings seed d dh : contest_hash gp sha (cw_base d) = Ok dh ->
  let q := cd_seq (cw_base d) in
  let s := hash [HElemQ dh; HElemQ seed] in
  let cn := nonce_of gp sha dh (HElemQ seed) q in
  let pn := nonce_of gp sha dh (HElemQ seed) (next_seq q) in
  Forall (fun y => In y (contest_strings gp sha seed d))
   [msg [HElemQ dh; HElemQ seed]; msg [HElemQ s; HU64 q]; msg [HElemQ s; HU64 (next_seq q)];
    msg [HElemQ cn; HStr data_label]; msg [HElemQ pn; HStr proof_label];
    msg [HElemQ (hash [HElemQ cn; HStr data_label]); HU64 0];
    msg [HElemQ (hash [HElemQ pn; HStr proof_label]); HU64 0]].
Proof.
  intros Hdh q s cn pn. apply Forall_forall. intros y Hy. unfold contest_strings. rewrite Hdh.
  apply in_or_app. left. exact Hy.
Qed.
Ltac pick H := rewrite Forall_forall in H; apply H; cbn [In]; tauto.
Lemma behind_inj seed seed' d d' l l' e :
  incl (contest_strings gp sha seed d) S -> incl (contest_strings gp sha seed' d') S' ->
  0 <= seed < W256 -> 0 <= seed' < W256 -> seqs_u64 d -> seqs_u64 d' ->
  behind seed d l e -> behind seed' d' l' e -> l = l' /\ seed = seed'.
Proof.
  intros J J' R R' [U UX] [U' UX'] B B'.
  assert (U0 : u64 0) by (unfold u64; change W64 with (2 ^ 64); clear; lia).
  assert (T : forall q, u64 (next_seq q)) by apply next_u64.
  assert (L1 : label data_label) by (left; reflexivity). assert (L2 : label proof_label) by (right; reflexivity).
  assert (HE : exists e', behind seed' d' l' e' /\ e = e') by eauto. clear B'. destruct HE as (e' & B' & HE).
  assert (F : forall dh, contest_hash gp sha (cw_base d) = Ok dh -> _) by (intros dh H; exact (Forall_impl _ J (in_contest_strings seed d dh H))).
  assert (F' : forall dh, contest_hash gp sha (cw_base d') = Ok dh -> _) by (intros dh H; exact (Forall_impl _ J' (in_contest_strings seed' d' dh H))).
  assert (VX : forall dh x, contest_hash gp sha (cw_base d) = Ok dh -> In x (get_selections (cw_base d) ++ get_placeholders d) -> _)
    by (intros dh x H1 H2; exact (conj (J _ (proj1 (in_vote_strings seed d dh x H1 H2)))
          (conj (J _ (proj2 (in_vote_strings seed d dh x H1 H2))) (UX _ H2)))).
  assert (VX' : forall dh x, contest_hash gp sha (cw_base d') = Ok dh -> In x (get_selections (cw_base d') ++ get_placeholders d') -> _)
    by (intros dh x H1 H2; exact (conj (J' _ (proj1 (in_vote_strings seed' d' dh x H1 H2)))
          (conj (J' _ (proj2 (in_vote_strings seed' d' dh x H1 H2))) (UX' _ H2)))).
  destruct B as [dh x Hdh HX|dh Hdh|dh Hdh], B' as [dh' x' Hdh' HX'|dh' Hdh'|dh' Hdh']; rewrite ?(nonce_hash _ _ (sd_seq _)), ?(nonce_hash _ _ 0) in HE.
  all: specialize (F _ Hdh); specialize (F' _ Hdh'); cbn zeta in F, F'.
  all: try (destruct (VX _ _ Hdh HX) as (A1 & A2 & A3)); try (destruct (VX' _ _ Hdh' HX') as (B1 & B2 & B3)).
  all: apply q_u64 in HE; [|first [assumption | apply hash_r | pick F | pick F']..]; destruct HE as [HE HI].
  - apply two_q in HE; [|first [assumption|apply nonce_range]..].
    apply base_inj in HE; [|first [assumption | pick F | pick F']..]. destruct HE as [HE ->]. rewrite HI. auto.
  - exfalso. revert HE. apply q_label; first [assumption | pick F']. 
  - exfalso. revert HE. apply q_label; first [assumption | pick F']. 
  - exfalso. revert HE. apply label_q; first [assumption | pick F]. 
  - apply two_labels in HE; [|first [assumption | apply nonce_range | pick F | pick F']..]. destruct HE as [HE _].
    apply base_inj in HE; [|first [assumption | pick F | pick F']..]. destruct HE as [HE ->]. auto.
  - apply two_labels in HE; [|first [assumption | apply nonce_range | pick F | pick F']..]. destruct HE as [_ HE].
    vm_compute in HE. discriminate HE.
  - exfalso. revert HE. apply label_q; first [assumption | pick F]. 
  - apply two_labels in HE; [|first [assumption | apply nonce_range | pick F | pick F']..]. destruct HE as [_ HE].
    vm_compute in HE. discriminate HE.
  - apply two_labels in HE; [|first [assumption | apply nonce_range | pick F | pick F']..]. destruct HE as [HE _].
    apply base_inj in HE; [|first [assumption | apply T | pick F | pick F']..]. destruct HE as [HE Hq].
    apply next_inj in Hq; [|assumption..]. rewrite Hq. auto.
Qed.

(** ** Ballots *)
Lemma ballot_behind m b n ds r l p : encrypted gp sha hmac dump m b n ds r -> In (l, p) (ballot_slots r) ->
  exists d e, In d ds /\ behind (hash [HElemQ (im_hash m); HStr (pb_id b); HElemQ n]) d l e /\ p = g_pow_p gp e.
Proof.
  intros [(E & cx & cs & no & ts & ver & st & st' & EE & H) Hn Hds _ _] HI.
  apply encrypt_ballot_ok in H. destruct H as (n0 & _ & ds0 & nb & Hds0 & _ & HF & _ & _ & _ & _ & _ & Hn0 & _).
  assert (n0 = n) by congruence. subst n0. assert (ds0 = ds) by congruence. subst ds0.
  unfold ballot_slots in HI. apply in_flat_map in HI. destruct HI as (cc & Hcc & HI).
  destruct (Forall2_pick_r _ _ _ _ HF Hcc) as (d & Hd & c & s1 & s2 & _ & HC).
  destruct (contest_behind _ _ _ _ _ _ _ _ _ _ _ _ _ EE HC HI) as (e & He & Hp).
  exists d, e. auto.
Qed.
Lemma behind_range seed d l e : behind seed d l e -> 0 <= e < Q.
Proof. destruct 1; apply (nonce_of_range gp V). Qed.
Lemma ballots_apart m b n ds r m' b' n' ds' r' l l' p :
  encrypted gp sha hmac dump m b n ds r -> encrypted gp sha hmac dump m' b' n' ds' r' ->
  incl (ballot_strings gp sha m (pb_id b) n ds) S -> incl (ballot_strings gp sha m' (pb_id b') n' ds') S' ->
  In (l, p) (ballot_slots r) -> In (l', p) (ballot_slots r') ->
  l = l' /\ im_hash m = im_hash m' /\ same_str (pb_id b) (pb_id b') /\ n = n'.
Proof.
  intros H H' J J' HI HI'.
  destruct (ballot_behind _ _ _ _ _ _ _ H HI) as (d & e & Hd & He & Hp).
  destruct (ballot_behind _ _ _ _ _ _ _ H' HI') as (d' & e' & Hd' & He' & Hp').
  assert (e = e') by (apply pad_inj; [eapply behind_range; eassumption..|congruence]). subst e'.
  assert (W256 = 2 ^ 256) as HW by reflexivity.
  assert (F : forall dd, (0 <= cd_seq (cw_base dd) < 2 ^ 64 /\
    forall x, In x (get_selections (cw_base dd) ++ get_placeholders dd)%list -> 0 <= sd_seq x < 2 ^ 64) -> seqs_u64 dd).
  { intros dd HD. exact HD. }
  assert (J1 : incl (contest_strings gp sha (hash [HElemQ (im_hash m); HStr (pb_id b); HElemQ n]) d) S).
  { intros y Hy. apply J. right. apply in_flat_map. exists d. auto. }
  assert (J2 : incl (contest_strings gp sha (hash [HElemQ (im_hash m'); HStr (pb_id b'); HElemQ n']) d') S').
  { intros y Hy. apply J'. right. apply in_flat_map. exists d'. auto. }
  destruct (behind_inj _ _ d d' l l' e J1 J2 (hash_r _) (hash_r _) (F _ (en_seqs _ _ _ _ _ _ _ _ _ H d Hd)) (F _ (en_seqs _ _ _ _ _ _ _ _ _ H' d' Hd')) He He') as [-> HS].
  split; [reflexivity|].
  destruct (en_size _ _ _ _ _ _ _ _ _ H) as [S1 S2]. destruct (en_size _ _ _ _ _ _ _ _ _ H') as [S3 S4].
  apply seed_message; try (rewrite HW; assumption).
  apply NC; [apply J; left; reflexivity|apply J'; left; reflexivity|exact HS].
Qed.
End N.
Lemma F2_impl {A B} (R R' : A -> B -> Prop) l l' : (forall x y, R x y -> R' x y) -> Forall2 R l l' -> Forall2 R' l l'.
Proof. intros H. induction 1; constructor; auto. Qed.
Lemma NoDup_two {A} (l1 l2 : list A) : NoDup l1 /\ NoDup l2 /\ (forall x, In x l1 -> In x l2 -> False) -> NoDup (l1 ++ l2).
Proof.
  intros (N1 & N2 & D). induction N1 as [|x l Hx N IH]; [exact N2|]. cbn [app]. constructor.
  - rewrite in_app_iff. intros [HI|HI]; [exact (Hx HI)|]. apply (D x); [now left|exact HI].
  - apply IH. intros y Hy. apply D. now right.
Qed.
Section One.
Context (gp : params) (PP : prime_params gp) (sha : bytes -> Z) (hmac : bytes -> bytes -> Z)
        (dump : json -> outcome bytes).
(** The labels of one ballot are different when the sequence orders are. *)
Lemma ballot_labels m b n ds r : encrypted gp sha hmac dump m b n ds r -> seqs_distinct ds ->
  NoDup (map fst (ballot_slots r)).
Proof.
  intros [(E & cx & cs & no & ts & ver & st & st' & EE & H) Hn Hds _ _] [D1 D2].
  apply encrypt_ballot_ok in H. destruct H as (n0 & _ & ds0 & nb & Hds0 & _ & HF & _).
  assert (ds0 = ds) by congruence. subst ds0. clear Hds Hds0. unfold ballot_slots.
  assert (HF2 : Forall2 (fun d cc => cc_seq cc = cd_seq (cw_base d) /\
    map cs_seq (cc_selections cc) = map sd_seq (get_selections (cw_base d) ++ get_placeholders d) /\
    (exists h p, cc_hashed cc = Some h /\ cc_proof cc = Some p)) ds (cb_contests r)).
  { eapply F2_impl; [|exact HF]. intros d cc (c & s1 & s2 & _ & HC).
    destruct (encrypt_contest_pads gp PP sha hmac dump _ _ _ _ _ _ _ _ _ _ _ EE HC) as (dh & _ & HS & HP & (h & Hh & _) & (p & Hp & _)).
    split; [exact HS|]. split; [|eauto]. clear - HP. cbn zeta in HP.
    induction HP as [|x y l l' [X _] _ IH]; cbn [map]; congruence. }
  clear HF. revert D1 D2. induction HF2 as [|d cc ds0 ccs (HS & HM & h & p & Hh & Hp) HF IH]; intros D1 D2; [constructor|].
  cbn [flat_map map] in *. inversion D1 as [|? ? N1 D1']. subst. rewrite map_app.
  assert (LB : forall l, In l (map fst (contest_slots cc)) <->
    (exists x, In x (map cs_seq (cc_selections cc)) /\ l = AtVote (cc_seq cc) x) \/ l = AtData (cc_seq cc) \/ l = AtProof (cc_seq cc)).
  { intros l. unfold contest_slots. rewrite Hh, Hp, !map_app, map_map, !in_app_iff, in_map_iff. cbn [map fst In].
    setoid_rewrite in_map_iff. split.
    - intros [(x & <- & Hx)|[[<-|[]]|[<-|[]]]]; eauto 6.
    - intros [(x & (y & <- & Hy) & ->)|[-> | ->]]; eauto 6. }
  apply NoDup_two. split; [|split].
  - unfold contest_slots. rewrite Hh, Hp, !map_app, map_map. cbn [map fst app].
    assert (NV : NoDup (map (fun x => AtVote (cc_seq cc) (cs_seq x)) (cc_selections cc))).
    { rewrite <- (map_map cs_seq (AtVote (cc_seq cc))), HM. apply FinFun.Injective_map_NoDup.
      - intros x y E1. congruence.
      - apply D2. now left. }
    apply NoDup_two. split; [exact NV|]. split.
    + constructor; [intros [E1|[]]; discriminate E1|constructor; [intros []|constructor]].
    + intros l HL [<-|[<-|[]]]; apply in_map_iff in HL; destruct HL as (x & E1 & _); discriminate E1.
  - apply IH; [exact D1'|]. intros d' Hd'. apply D2. now right.
  - intros l HL HL'. apply N1. rewrite <- HS. apply LB in HL.
    clear - HL HL' HF. apply in_map_iff in HL'. destruct HL' as ((l0 & p0) & E0 & HL'). cbn [fst] in E0. subst l0.
    apply in_flat_map in HL'. destruct HL' as (cc' & Hcc' & HI).
    destruct (Forall2_pick_r _ _ _ _ HF Hcc') as (d' & Hd' & HS' & _). 
    assert (cc_seq cc = cc_seq cc') as ->.
    { unfold contest_slots in HI. rewrite !in_app_iff in HI. destruct HI as [HI|[HI|HI]].
      - apply in_map_iff in HI. destruct HI as (x & E1 & _). inversion E1. subst.
        destruct HL as [(y & _ & E2)|[E2|E2]]; congruence.
      - destruct (cc_hashed cc'); [|destruct HI]. destruct HI as [E1|[]]. inversion E1. subst.
        destruct HL as [(y & _ & E2)|[E2|E2]]; congruence.
      - destruct (cc_proof cc'); [|destruct HI]. destruct HI as [E1|[]]. inversion E1. subst.
        destruct HL as [(y & _ & E2)|[E2|E2]]; congruence. }
    rewrite HS'. now apply (in_map (fun d => cd_seq (cw_base d))).
Qed.

(** The powers of a contest, computed from its description. *)
Definition slots_of (seed : Z) (d : contest_ph) : list (slot * Z) :=
  let q := cd_seq (cw_base d) in
  let dh := match contest_hash gp sha (cw_base d) with Ok h => h | _ => 0 end in
  let cn := nonce_of gp sha dh (HElemQ seed) q in
  let pn := nonce_of gp sha dh (HElemQ seed) (next_seq q) in
  map (fun x => (AtVote q (sd_seq x), g_pow_p gp (nonce_of gp sha (selection_hash gp sha x) (HElemQ cn) (sd_seq x))))
    (get_selections (cw_base d) ++ get_placeholders d)
  ++ [(AtData q, g_pow_p gp (nonce_of gp sha cn (HStr data_label) 0));
      (AtProof q, g_pow_p gp (nonce_of gp sha pn (HStr proof_label) 0))].
Lemma ballot_slots_of m b n ds r : encrypted gp sha hmac dump m b n ds r ->
  ballot_slots r = flat_map (slots_of (nonce_seed gp sha (im_hash m) (pb_id b) n)) ds.
Proof.
  intros [(E & cx & cs & no & ts & ver & st & st' & EE & H) Hn Hds _ _].
  apply encrypt_ballot_ok in H. destruct H as (n0 & _ & ds0 & nb & Hds0 & _ & HF & _ & _ & _ & _ & _ & Hn0 & _).
  assert (n0 = n) by congruence. subst n0. assert (ds0 = ds) by congruence. subst ds0.
  unfold ballot_slots. clear Hds Hds0 Hn Hn0.
  induction HF as [|d cc ds0 ccs (c & s1 & s2 & _ & HC) _ IH]; [reflexivity|]. cbn [flat_map]. rewrite IH. f_equal.
  destruct (encrypt_contest_pads gp PP sha hmac dump _ _ _ _ _ _ _ _ _ _ _ EE HC) as (dh & Hdh & HS & HP & (h & Hh & Hhp) & (p & Hp & Hpp)).
  unfold contest_slots, slots_of. rewrite Hdh, Hh, Hp, HS, Hhp, Hpp. cbn zeta in HP. cbn [app]. f_equal.
  clear - HP. induction HP as [|x y l l' [X1 X2] _ IH]; [reflexivity|]. cbn [map]. rewrite X1, X2, IH. reflexivity.
Qed.
End One.
