(** Reading back what [SerializeModel] writes: plaintext and ciphertext ballots, devices,
    contexts. *)
From Coq Require Import String Permutation.
From Verif Require Import Base GroupModel GroupSpec GroupProofs CodecModel CodecProofs HashModel ElgamalModel
  ChaumModel SortModel SortProofs ManifestModel BallotModel JsonModel EncryptModel SerializeModel
  SerializeSpec.
Open Scope string_scope.
Open Scope list_scope.
Open Scope Z_scope.

(** ** Members *)
Lemma Ok_eq {A} (a b : A) : Ok a = Ok b -> a = b.
Proof. congruence. Qed.
Lemma bytes_eqb_iff a b : bytes_eqb a b = true <-> a = b.
Proof. unfold bytes_eqb. destruct (list_eq_dec Z.eq_dec a b); split; congruence. Qed.
Lemma s2b_inj a b : s2b a = s2b b -> a = b.
Proof.
  revert b. induction a as [|x a IH]; intros [|y b]; cbn; try congruence. intros E.
  injection E as E1 E2. f_equal; [|now apply IH].
  apply (f_equal Z.to_N) in E1. rewrite !N2Z.id in E1.
  rewrite <- (Ascii.ascii_N_embedding x), <- (Ascii.ascii_N_embedding y), E1. reflexivity.
Qed.
Lemma key_eqb a b : bytes_eqb (s2b a) (s2b b) = String.eqb a b.
Proof.
  destruct (String.eqb_spec a b) as [->|N].
  - apply bytes_eqb_iff. reflexivity.
  - destruct (bytes_eqb (s2b a) (s2b b)) eqn:E; [|reflexivity].
    apply bytes_eqb_iff, s2b_inj in E. congruence.
Qed.

(** The last value given for a key *)
Fixpoint jlast (l : list (bytes * json)) (k : bytes) : option json :=
  match l with
  | [] => None
  | (k', v) :: t => match jlast t k with Some w => Some w | None => if bytes_eqb k k' then Some v else None end
  end.
Lemma jfind_set l k v k' : jfind (members_set l k v) k' = if bytes_eqb k' k then Some v else jfind l k'.
Proof.
  induction l as [|[a w] t IH]; cbn [members_set jfind]; [reflexivity|].
  destruct (bytes_eqb k a) eqn:E1.
  - apply bytes_eqb_iff in E1. subst a. cbn [jfind]. destruct (bytes_eqb k' k); reflexivity.
  - destruct (bytes_ltb k a); cbn [jfind]; [reflexivity|]. rewrite IH.
    destruct (bytes_eqb k' a) eqn:E2; [|reflexivity]. apply bytes_eqb_iff in E2. subst a.
    destruct (bytes_eqb k' k) eqn:E3; [|reflexivity]. apply bytes_eqb_iff in E3. subst k'.
    assert (bytes_eqb k k = true) by now apply bytes_eqb_iff. congruence.
Qed.
Lemma jfind_fold l : forall m k,
  jfind (fold_left (fun m kv => members_set m (fst kv) (snd kv)) l m) k =
  match jlast l k with Some v => Some v | None => jfind m k end.
Proof.
  induction l as [|[a v] t IH]; intros m k; cbn [fold_left jlast fst snd]; [reflexivity|].
  rewrite IH, jfind_set. destruct (jlast t k); [reflexivity|]. destruct (bytes_eqb k a); reflexivity.
Qed.
Lemma jlast_app l1 l2 k : jlast (l1 ++ l2) k = match jlast l2 k with Some v => Some v | None => jlast l1 k end.
Proof.
  induction l1 as [|[a v] t IH]; cbn [app jlast]; [destruct (jlast l2 k); reflexivity|].
  rewrite IH. destruct (jlast l2 k); reflexivity.
Qed.
Lemma jlast_cons a v t b : jlast ((s2b a, v) :: t) (s2b b) =
  match jlast t (s2b b) with Some w => Some w | None => if String.eqb b a then Some v else None end.
Proof. cbn [jlast]. rewrite key_eqb. reflexivity. Qed.
Lemma jlast_opt_str a v b : jlast (opt_str a v) (s2b b) =
  if String.eqb b a then match v with [] => None | _ => Some (JStr v) end else None.
Proof. unfold opt_str. destruct v; [cbn; destruct (String.eqb b a); reflexivity|]. rewrite jlast_cons. reflexivity. Qed.
Lemma jidx_jobj l k : jidx (jobj l) k = Ok (match jlast l k with Some v => v | None => JNull end).
Proof. unfold jidx, jobj. rewrite jfind_fold. cbn [jfind]. destruct (jlast l k); reflexivity. Qed.
Lemma jcidx_jobj l k : jcidx (jobj l) k = match jlast l k with Some v => Ok v | None => UB end.
Proof. unfold jcidx, jobj. rewrite jfind_fold. cbn [jfind]. destruct (jlast l k); reflexivity. Qed.
Lemma jpresent_jobj l k : jpresent (jobj l) k = match jlast l k with Some JNull => None | r => r end.
Proof. unfold jpresent, jobj. rewrite jfind_fold. cbn [jfind]. destruct (jlast l k) as [[]|]; reflexivity. Qed.

Lemma bind_Ok {A B} (a : A) (f : A -> outcome B) : bind (Ok a) f = f a.
Proof. reflexivity. Qed.
(** Lookups of literal keys, step by step *)
Lemma jlast_here a v t : jlast t (s2b a) = None -> jlast ((s2b a, v) :: t) (s2b a) = Some v.
Proof. intros H. rewrite jlast_cons, H, String.eqb_refl. reflexivity. Qed.
Lemma jlast_skip a b v t r : String.eqb b a = false -> jlast t (s2b b) = r -> jlast ((s2b a, v) :: t) (s2b b) = r.
Proof. intros E H. rewrite jlast_cons, H, E. destruct r; reflexivity. Qed.
Lemma jlast_app1 l1 l2 k r : jlast l2 k = None -> jlast l1 k = r -> jlast (l1 ++ l2) k = r.
Proof. intros H1 H2. rewrite jlast_app, H1. exact H2. Qed.
Lemma jlast_app2 l1 l2 k v : jlast l2 k = Some v -> jlast (l1 ++ l2) k = Some v.
Proof. intros H. rewrite jlast_app, H. reflexivity. Qed.
Lemma jlast_opt_other a v b : String.eqb b a = false -> jlast (opt_str a v) (s2b b) = None.
Proof. intros H. rewrite jlast_opt_str, H. reflexivity. Qed.
Lemma gs_obj l k v : jlast l (s2b k) = Some (JStr v) -> gs (jobj l) k = Ok v.
Proof. intros H. unfold gs. rewrite jidx_jobj, H. reflexivity. Qed.
Lemma gn_obj l k v : jlast l (s2b k) = Some (JNum v) -> gn (jobj l) k = ju64 (JNum v).
Proof. intros H. unfold gn. rewrite jidx_jobj, H. reflexivity. Qed.
Lemma gb_obj l k v : jlast l (s2b k) = Some (JBool v) -> gb (jobj l) k = Ok v.
Proof. intros H. unfold gb. rewrite jidx_jobj, H. reflexivity. Qed.
Lemma cgs_obj l k v : jlast l (s2b k) = Some (JStr v) -> cgs (jobj l) k = Ok v.
Proof. intros H. unfold cgs. rewrite jcidx_jobj, H. reflexivity. Qed.
Lemma cgn_obj l k v : jlast l (s2b k) = Some (JNum v) -> cgn (jobj l) k = ju64 (JNum v).
Proof. intros H. unfold cgn. rewrite jcidx_jobj, H. reflexivity. Qed.
Lemma jidx_obj l k v : jlast l k = Some v -> jidx (jobj l) k = Ok v.
Proof. intros H. rewrite jidx_jobj, H. reflexivity. Qed.
Lemma jcidx_obj l k v : jlast l k = Some v -> jcidx (jobj l) k = Ok v.
Proof. intros H. rewrite jcidx_jobj, H. reflexivity. Qed.
Lemma jpresent_obj l k r : jlast l k = r -> jpresent (jobj l) k = match r with Some JNull => None | r => r end.
Proof. intros H. rewrite jpresent_jobj, H. destruct r as [[]|]; reflexivity. Qed.
Lemma opt_obj l k v : jlast l (s2b k) = (match v with [] => None | _ => Some (JStr v) end) ->
  get_opt_str (jobj l) k = Ok v.
Proof. intros H. unfold get_opt_str. rewrite jpresent_jobj, H. destruct v; reflexivity. Qed.
Lemma opt_obj_str l k v : jlast l (s2b k) = Some (JStr v) -> get_opt_str (jobj l) k = Ok v.
Proof. intros H. unfold get_opt_str. rewrite jpresent_jobj, H. reflexivity. Qed.
Lemma nonce_other wn n nm k : nonce_member wn n = Ok nm -> String.eqb k "nonce" = false ->
  jlast nm (s2b k) = None.
Proof.
  unfold nonce_member. intros E K. destruct wn.
  - destruct n; cbn [deref bind] in E; [|discriminate]. apply Ok_eq in E; subst. rewrite jlast_cons, K. reflexivity.
  - apply Ok_eq in E; subst. reflexivity.
Qed.

Ltac look :=
  lazymatch goal with
  | |- jlast [] _ = _ => reflexivity
  | |- jlast ((s2b ?a, _) :: _) (s2b ?a) = _ => apply jlast_here; look
  | |- jlast ((s2b _, _) :: _) (s2b _) = _ => apply jlast_skip; [reflexivity|look]
  | |- jlast (opt_str ?a _) (s2b ?a) = _ => rewrite jlast_opt_str, String.eqb_refl; reflexivity
  | |- jlast (opt_str _ _) (s2b _) = _ => apply jlast_opt_other; reflexivity
  | |- jlast (_ ++ _) _ = _ => first [apply jlast_app1; [now look|now look] | apply jlast_app2; now look]
  | X : forall s, existsb (String.eqb s) _ = true -> jlast ?e (s2b s) = None |- jlast ?e (s2b _) = _ =>
      apply X; reflexivity
  | H : nonce_member _ _ = Ok ?nm |- jlast ?nm (s2b _) = _ => apply (nonce_other _ _ _ _ H); reflexivity
  end.
Ltac acc1 :=
  match goal with
  | |- context [gs (jobj ?l) ?k] => erewrite (gs_obj l k) by look
  | |- context [gn (jobj ?l) ?k] => erewrite (gn_obj l k) by look
  | |- context [gb (jobj ?l) ?k] => erewrite (gb_obj l k) by look
  | |- context [cgs (jobj ?l) ?k] => erewrite (cgs_obj l k) by look
  | |- context [cgn (jobj ?l) ?k] => erewrite (cgn_obj l k) by look
  | |- context [jidx (jobj ?l) ?k] => erewrite (jidx_obj l k) by look
  | |- context [jcidx (jobj ?l) ?k] => erewrite (jcidx_obj l k) by look
  | |- context [get_opt_str (jobj ?l) ?k] => first [erewrite (opt_obj_str l k) by look | erewrite (opt_obj l k) by look]
  | |- context [jpresent (jobj ?l) ?k] => erewrite (jpresent_obj l k) by look
  end; repeat rewrite bind_Ok.
Ltac keys := repeat acc1.

Lemma jitems_pushed l : jitems (jpushed l) = l.
Proof. destruct l; reflexivity. Qed.

(** ** Loops *)
Lemma mapM_ext_ok {A B} (f : A -> outcome B) h l :
  (forall x, In x l -> f x = Ok (h x)) -> mapM f l = Ok (map h l).
Proof.
  induction l as [|x l IH]; intros H; [reflexivity|]. cbn [mapM map].
  rewrite (H x) by now left. cbn [bind]. rewrite IH; [reflexivity|]. intros y Hy. apply H. now right.
Qed.
Lemma mapM_map_ok {A B C} (f : A -> B) (g : B -> outcome C) h l :
  (forall x, In x l -> g (f x) = Ok (h x)) -> mapM g (map f l) = Ok (map h l).
Proof.
  induction l as [|x l IH]; intros H; [reflexivity|]. cbn [mapM map].
  rewrite (H x) by now left. cbn [bind]. rewrite IH; [reflexivity|]. intros y Hy. apply H. now right.
Qed.
(** Loops whose steps may all fail with the same error *)
Lemma mapM_guarded {A B C} (f : A -> outcome B) (g : B -> outcome C) (b : A -> bool) h e l js :
  mapM f l = Ok js ->
  (forall x j, In x l -> f x = Ok j -> g j = if b x then Ok (h x) else Throw e) ->
  mapM g js = if forallb b l then Ok (map h l) else Throw e.
Proof.
  revert js. induction l as [|x l IH]; intros js E H; cbn [mapM] in E.
  - apply Ok_eq in E; subst. reflexivity.
  - destruct (f x) as [j| |] eqn:Ex; cbn [bind] in E; [|discriminate..].
    destruct (mapM f l) as [ys| |] eqn:El; cbn [bind] in E; [|discriminate..].
    apply Ok_eq in E; subst. cbn [mapM forallb map]. rewrite (H x j) by (auto; now left).
    destruct (b x); cbn [bind andb]; [|reflexivity].
    rewrite (IH ys eq_refl) by (intros y k Hy; apply H; now right).
    destruct (forallb b l); reflexivity.
Qed.
Lemma bind_guard {A B} (b : bool) (x : A) e (f : A -> outcome B) :
  bind (if b then Ok x else Throw e) f = if b then f x else Throw e.
Proof. destruct b; reflexivity. Qed.

Lemma u64_mod n : u64 n = true -> n mod W64 = n.
Proof. unfold u64. intros H. apply Z.mod_small. change W64 with (2 ^ 64). lia. Qed.
Lemma ju64_num n : u64 n = true -> ju64 (JNum n) = Ok n.
Proof. intros H. cbn [ju64]. rewrite (u64_mod n H). reflexivity. Qed.

(** ** Plaintext ballots and devices *)
Lemma pselection_back s : u64 (ps_vote s) = true -> pselection_of_json (pselection_to_json s) = Ok s.
Proof.
  intros H. unfold pselection_of_json, pselection_to_json. keys. rewrite (ju64_num _ H). cbn [bind].
  destruct s; reflexivity.
Qed.
Lemma pcontest_back c : forallb (fun s => u64 (ps_vote s)) (pc_selections c) = true ->
  pcontest_of_json (pcontest_to_json c) = Ok c.
Proof.
  intros H. rewrite forallb_forall in H. unfold pcontest_of_json, pcontest_to_json. keys.
  rewrite jitems_pushed, (mapM_map_ok _ _ (fun s => s)) by (intros s Hs; apply pselection_back, H, Hs).
  cbn [bind]. rewrite map_id. destruct c; reflexivity.
Qed.
Lemma pballot_back b :
  forallb (fun c => forallb (fun s => u64 (ps_vote s)) (pc_selections c)) (pb_contests b) = true ->
  pballot_of_json (pballot_to_json b) = Ok b.
Proof.
  intros H. rewrite forallb_forall in H. unfold pballot_of_json, pballot_to_json. keys.
  rewrite jitems_pushed, (mapM_map_ok _ _ (fun s => s)) by (intros s Hs; apply pcontest_back, H, Hs).
  cbn [bind]. rewrite map_id. destruct b; reflexivity.
Qed.
Lemma device_back d : u64 (dv_device d) && u64 (dv_session d) && u64 (dv_launch d) = true ->
  device_of_json (device_to_json d) = Ok d.
Proof.
  rewrite !andb_true_iff. intros [[H1 H2] H3]. unfold device_of_json, device_to_json. keys.
  rewrite !ju64_num by assumption. rewrite !bind_Ok. destruct d; reflexivity.
Qed.

(** ** Compact ballots *)
Lemma compact_plain_back jdump c : forallb u64 (cpt_votes c) = true ->
  compact_plain_of_json jdump (compact_plain_to_json c) =
  do ws <- mapM jdump (map JStr (cpt_writeins c));
  match cpt_votes c with
  | [] => Throw JsonError
  | vs => Ok {| cpt_id := cpt_id c; cpt_style := cpt_style c; cpt_votes := vs; cpt_writeins := ws |}
  end.
Proof.
  intros H. rewrite forallb_forall in H. unfold compact_plain_of_json, compact_plain_to_json. keys.
  rewrite !jitems_pushed.
  assert (E : mapM ju64 (map JNum (cpt_votes c)) = Ok (cpt_votes c)).
  { rewrite (mapM_map_ok _ _ (fun n => n)) by (intros n Hn; apply ju64_num, H, Hn). now rewrite map_id. }
  rewrite E. cbn [bind]. destruct (mapM jdump (map JStr (cpt_writeins c))); cbn [bind]; [|reflexivity..].
  destruct (cpt_votes c) as [|v vs]; [reflexivity|]. cbn [map jpushed ju64_vector]. cbn [map] in E. rewrite E.
  reflexivity.
Qed.

(** ** Elements *)
Section Elements.
Context (gp : params).

Lemma W256_eq : 2 ^ 256 = W256. Proof. reflexivity. Qed.
Lemma W4096_eq : 2 ^ 4096 = W4096. Proof. reflexivity. Qed.
Lemma rq_back v : in_q v = true ->
  rq gp (to_hex_q v) = if legible_q gp v then Ok v else Throw OutOfRange.
Proof.
  unfold in_q, legible_q. rewrite W256_eq. intros H. apply andb_true_iff in H. destruct H as [H1 H2].
  apply Z.leb_le in H1. apply Z.ltb_lt in H2. unfold rq.
  destruct (Z.ltb_spec 0 v) as [P|P]; cbn [andb].
  - rewrite from_to_hex_q by (split; assumption). unfold make_q. cbn [Nat.ltb Nat.leb negb andb].
    destruct (Z.ltb_spec (gpQ gp) v), (Z.leb_spec v (gpQ gp)); try reflexivity; exfalso; lia.
  - assert (v = 0) as -> by (clear - H1 P; lia). reflexivity.
Qed.
Lemma rp_back v : in_p v = true ->
  rp gp (to_hex_p v) = if legible_p gp v then Ok v else Throw OutOfRange.
Proof.
  unfold in_p, legible_p. rewrite W4096_eq. intros H. apply andb_true_iff in H. destruct H as [H1 H2].
  apply Z.leb_le in H1. apply Z.ltb_lt in H2. unfold rp.
  destruct (Z.ltb_spec 0 v) as [P|P]; cbn [andb].
  - rewrite from_to_hex_p by (split; assumption). unfold make_p. cbn [Nat.ltb Nat.leb negb andb].
    destruct (Z.ltb_spec (gpP gp) v), (Z.leb_spec v (gpP gp)); try reflexivity; exfalso; lia.
  - assert (v = 0) as -> by (clear - H1 P; lia). unfold from_hex_p.
    replace (to_hex_p 0) with [48; 48]; [reflexivity|].
    rewrite to_hex_p_eq, bytes_to_hex_strip.
    destruct (strip0 (to_bytes_p 0)) as [|b t] eqn:E; [reflexivity|exfalso].
    assert (N := strip0_head _ _ _ E).
    assert (T : be_val (strip0 (to_bytes_p 0)) = 0).
    { rewrite strip0_val. apply to_bytes_p_val. split; [lia|]. exact H2. }
    rewrite E in T. assert (B := strip0_bytes _ (to_bytes_p_bytes 0)). rewrite E in B.
    inversion B as [|? ? B1 B2]; subst. rewrite be_val_cons in T.
    pose proof (be_val_range t B2) as R. unfold is_byte in B1.
    assert (0 < 256 ^ Z.of_nat (length t)) by (apply Z.pow_pos_nonneg; lia). clear - T R B1 N H. nia.
Qed.
Lemma trim_strip l : trim l = strip0 l.
Proof. induction l as [|b t IH]; [reflexivity|]. cbn. destruct (b =? 0); [exact IH|reflexivity]. Qed.
Lemma octets_bytes l : octets l = true -> is_bytes l.
Proof. unfold octets. rewrite forallb_forall. intros H. apply Forall_forall. intros b Hb. specialize (H b Hb). unfold is_byte. lia. Qed.
Lemma some_bit_strip l : some_bit l = match strip0 l with [] => false | _ => true end.
Proof.
  induction l as [|b t IH]; [reflexivity|]. cbn [some_bit existsb strip0]. destruct (b =? 0); [exact IH|reflexivity].
Qed.
(** The two steps of reading a byte string *)
Lemma octets_back l : octets l = true ->
  sanitize_hex_string (bytes_to_hex l) = (if some_bit l then Ok (bytes_to_hex l) else Throw OutOfRange)
  /\ (some_bit l = true -> hex_to_bytes (bytes_to_hex l) = Ok (trim l)).
Proof.
  intros H. apply octets_bytes in H. rewrite trim_strip. rewrite some_bit_strip. rewrite bytes_to_hex_strip.
  pose proof (strip0_bytes l H) as B. destruct (strip0 l) as [|b t] eqn:E.
  - split; [reflexivity|discriminate].
  - split; [apply sanitize_hex; [exact B|eapply strip0_head; exact E]|]. intros _. apply hex_to_bytes_hex. exact B.
Qed.

Ltac splitb H := repeat (rewrite andb_true_iff in H); repeat match type of H with _ /\ _ => let X := fresh in destruct H as [H X] end.
Ltac guards := repeat first [rewrite bind_guard | rewrite rq_back by assumption | rewrite rp_back by assumption].
(** One boolean after the other *)
Ltac run := repeat match goal with
  | |- (if ?b then _ else _) = _ => let E := fresh "G" in destruct b eqn:E; cbn [andb]; [|now rewrite ?andb_false_r]
  end; reflexivity.

Lemma ct_back c : stored_ct c = true ->
  ct_of_json gp (ct_to_json c) = if legible_ct gp c then Ok c else Throw OutOfRange.
Proof.
  intros H. unfold stored_ct in H. splitb H. unfold ct_of_json, ct_to_json, hexp, legible_ct. keys. guards.
  destruct (legible_p gp (ct_pad c)); cbn [andb]; [|reflexivity]. guards.
  destruct (legible_p gp (ct_data c)); cbn [andb]; [|reflexivity]. destruct c; reflexivity.
Qed.
Lemma dproof_back p : stored_dproof p = true ->
  dproof_of_json gp (dproof_to_json p) = if legible_dproof gp p then Ok p else Throw OutOfRange.
Proof.
  intros H. unfold stored_dproof in H. splitb H.
  unfold dproof_of_json, dproof_to_json, hexp, hexq, legible_dproof. keys.
  repeat (rewrite ?rq_back, ?rp_back by assumption; rewrite bind_guard;
    match goal with |- (if ?b then _ else _) = _ => destruct b; cbn [andb]; [|reflexivity] end).
  destruct p; reflexivity.
Qed.
Lemma cproof_back p : stored_cproof p = true ->
  cproof_of_json gp (cproof_to_json p) = if legible_cproof gp p then Ok p else Throw OutOfRange.
Proof.
  intros H. unfold stored_cproof in H. splitb H.
  unfold cproof_of_json, cproof_to_json, hexp, hexq, legible_cproof. keys.
  rewrite ju64_num by assumption. repeat rewrite bind_Ok.
  repeat (rewrite ?rq_back, ?rp_back by assumption; rewrite bind_guard;
    match goal with |- (if ?b then _ else _) = _ => destruct b; cbn [andb]; [|reflexivity] end).
  destruct p; reflexivity.
Qed.
Lemma hashed_back h : stored_hashed h = true ->
  hashed_of_json gp (hashed_to_json h) = if legible_hashed gp h then Ok (trim_hashed h) else Throw OutOfRange.
Proof.
  intros H. unfold stored_hashed in H. splitb H.
  destruct (octets_back (hc_data h)) as [D1 D2]; [assumption|].
  destruct (octets_back (hc_mac h)) as [M1 M2]; [assumption|].
  unfold hashed_of_json, hashed_to_json, hexp, legible_hashed. keys. rewrite D1, bind_guard.
  destruct (some_bit (hc_data h)); [|destruct (legible_p gp (hc_pad h)); reflexivity].
  rewrite M1, bind_guard.
  destruct (some_bit (hc_mac h)); [|destruct (legible_p gp (hc_pad h)); reflexivity].
  rewrite rp_back by assumption. rewrite bind_guard. destruct (legible_p gp (hc_pad h)); [|reflexivity].
  rewrite D2, M2 by reflexivity. reflexivity.
Qed.

(** ** Ciphertext ballots *)
Lemma hexq_text v : exists c t, to_hex_q v = c :: t.
Proof.
  rewrite to_hex_q_eq. destruct (bytes_to_hex (to_bytes_q v)) as [|c t] eqn:E; [|eauto].
  exfalso. exact (bytes_to_hex_nonempty _ E).
Qed.
(** The member "nonce" behind other members, read as a text and decoded *)
Lemma nonce_back wn n nm l : nonce_member wn n = Ok nm -> opt in_q n = true ->
  jlast l (s2b "nonce") = None ->
  exists t, read_nonce_text (jobj (l ++ nm)) = Ok t
  /\ nonce_of_text gp t = (if legible_nonce gp wn n then Ok (match nonce_read wn n with Some v => v | None => 0 end)
                           else Throw OutOfRange)
  /\ (exists v, nonce_read wn n = Some v).
Proof.
  unfold nonce_member. intros E H L. unfold read_nonce_text. rewrite jidx_jobj, jlast_app.
  destruct wn.
  - destruct n as [v|]; cbn [deref bind] in E; [|discriminate]. apply Ok_eq in E; subst.
    rewrite jlast_cons. cbn [jlast String.eqb Ascii.eqb Bool.eqb bind hexq jstring].
    exists (to_hex_q v). split; [reflexivity|]. split; [|eexists; reflexivity].
    destruct (hexq_text v) as [c [t Et]]. unfold nonce_of_text. rewrite Et, <- Et.
    cbn [opt] in H. rewrite (rq_back v H). reflexivity.
  - apply Ok_eq in E; subst. cbn [jlast]. rewrite L. cbn [bind].
    exists []. split; [reflexivity|]. split; [reflexivity|]. eexists; reflexivity.
Qed.
Definition sel_read (wn : bool) (s : cselection) : cselection :=
  {| cs_id := cs_id s; cs_seq := cs_seq s; cs_desc := cs_desc s; cs_ct := cs_ct s;
     cs_placeholder := cs_placeholder s; cs_nonce := nonce_read wn (cs_nonce s);
     cs_hash := cs_hash s; cs_proof := cs_proof s |}.
Lemma cselection_back wn s j : cselection_to_json wn s = Ok j -> stored_selection s = true ->
  cselection_of_json gp j = if legible_selection gp wn s then Ok (sel_read wn s) else Throw OutOfRange.
Proof.
  unfold cselection_to_json. intros E H. unfold stored_selection in H. splitb H.
  destruct (cs_proof s) as [p|] eqn:Ep; cbn [deref bind] in E; [|discriminate].
  destruct (nonce_member wn (cs_nonce s)) as [nm| |] eqn:En; cbn [bind] in E; [|discriminate..].
  apply Ok_eq in E; subst. cbn [opt] in *.
  edestruct nonce_back as [t [T1 [T2 [v T3]]]]; [exact En|assumption| |].
  2: { unfold cselection_of_json. rewrite T1. unfold hexq. keys. rewrite ju64_num by assumption. repeat rewrite bind_Ok.
       rewrite ct_back by assumption. rewrite bind_guard.
       unfold legible_selection. rewrite Ep. cbn [opt].
       destruct (legible_ct gp (cs_ct s)); [|now rewrite ?andb_false_r]; repeat rewrite bind_Ok.
       rewrite dproof_back by assumption. rewrite bind_guard.
       destruct (legible_dproof gp p); [|now rewrite ?andb_false_r]; repeat rewrite bind_Ok.
       rewrite T2, bind_guard. destruct (legible_nonce gp wn (cs_nonce s)); [|now rewrite ?andb_false_r]; repeat rewrite bind_Ok.
       rewrite rq_back by assumption. rewrite bind_guard.
       destruct (legible_q gp (cs_desc s)); [|reflexivity].
       rewrite rq_back by assumption. rewrite bind_guard.
       destruct (legible_q gp (cs_hash s)); [|reflexivity]. cbn [andb].
       unfold sel_read. rewrite T3, Ep. reflexivity. }
  look.
Qed.

Definition con_read (wn : bool) (c : ccontest) : ccontest :=
  {| cc_id := cc_id c; cc_seq := cc_seq c; cc_desc := cc_desc c;
     cc_selections := map (sel_read wn) (cc_sorted c);
     cc_nonce := nonce_read wn (cc_nonce c); cc_acc := cc_acc c; cc_hash := cc_hash c;
     cc_proof := cc_proof c; cc_hashed := option_map trim_hashed (cc_hashed c) |}.
Lemma forallb_perm {A} (f : A -> bool) l l' : Permutation l l' -> forallb f l = forallb f l'.
Proof.
  intros P. destruct (forallb f l) eqn:E; destruct (forallb f l') eqn:E'; try reflexivity; exfalso.
  - rewrite forallb_forall in E. enough (forallb f l' = true) by congruence. rewrite forallb_forall.
    intros x Hx. apply E. eapply Permutation_in; [symmetry; exact P|exact Hx].
  - rewrite forallb_forall in E'. enough (forallb f l = true) by congruence. rewrite forallb_forall.
    intros x Hx. apply E'. eapply Permutation_in; [exact P|exact Hx].
Qed.
Lemma ccontest_back wn c j : ccontest_to_json wn c = Ok j -> stored_contest c = true ->
  ccontest_of_json gp j = if legible_contest gp wn c then Ok (con_read wn c) else Throw OutOfRange.
Proof.
  unfold ccontest_to_json. intros E H. unfold stored_contest in H. splitb H.
  destruct (mapM (cselection_to_json wn) (cc_sorted c)) as [ss| |] eqn:Es; cbn [bind] in E; [|discriminate..].
  destruct (cc_proof c) as [p|] eqn:Ep; cbn [deref bind] in E; [|discriminate].
  destruct (cc_hashed c) as [e|] eqn:Ee; cbn [deref bind] in E; [|discriminate].
  destruct (nonce_member wn (cc_nonce c)) as [nm| |] eqn:En; cbn [bind] in E; [|discriminate..].
  apply Ok_eq in E; subst. cbn [opt] in *.
  assert (S : mapM (cselection_of_json gp) ss =
              if forallb (legible_selection gp wn) (cc_selections c) then Ok (map (sel_read wn) (cc_sorted c))
              else Throw OutOfRange).
  { rewrite (forallb_perm _ _ _ (sort_perm cs_seq (cc_selections c))). fold (cc_sorted c).
    eapply mapM_guarded; [exact Es|]. intros x k Hx Ex. apply cselection_back; [exact Ex|].
    match goal with H : forallb stored_selection _ = true |- _ => rewrite forallb_forall in H; apply H end.
    apply (sort_in cs_seq). exact Hx. }
  edestruct nonce_back as [t [T1 [T2 [v T3]]]]; [exact En|assumption| |].
  2: { unfold ccontest_of_json. rewrite T1. unfold hexq. keys. rewrite ju64_num by assumption. repeat rewrite bind_Ok.
       rewrite ct_back by assumption. rewrite bind_guard.
       unfold legible_contest. rewrite Ep, Ee. cbn [opt].
       destruct (legible_ct gp (cc_acc c)); [|now rewrite ?andb_false_r]; repeat rewrite bind_Ok.
       rewrite hashed_back by assumption. rewrite bind_guard.
       destruct (legible_hashed gp e); [|now rewrite ?andb_false_r]; repeat rewrite bind_Ok.
       rewrite cproof_back by assumption. rewrite bind_guard.
       destruct (legible_cproof gp p); [|now rewrite ?andb_false_r]; repeat rewrite bind_Ok.
       rewrite jitems_pushed, S, bind_guard.
       destruct (forallb (legible_selection gp wn) (cc_selections c)); [|now rewrite ?andb_false_r]; repeat rewrite bind_Ok.
       rewrite T2, bind_guard. destruct (legible_nonce gp wn (cc_nonce c)); [|now rewrite ?andb_false_r]; repeat rewrite bind_Ok.
       rewrite rq_back by assumption. rewrite bind_guard.
       destruct (legible_q gp (cc_desc c)); [|reflexivity].
       rewrite rq_back by assumption. rewrite bind_guard.
       destruct (legible_q gp (cc_hash c)); [|reflexivity]. cbn [andb].
       unfold con_read. rewrite T3, Ep, Ee. reflexivity. }
  look.
Qed.

Definition bal_read (wn : bool) (b : cballot) : cballot :=
  {| cb_id := cb_id b; cb_style := cb_style b; cb_manifest := cb_manifest b; cb_seed := cb_seed b;
     cb_contests := map (con_read wn) (cb_sorted b); cb_code := cb_code b;
     cb_timestamp := cb_timestamp b; cb_nonce := nonce_read wn (cb_nonce b); cb_hash := cb_hash b |}.
(** Reading a ballot out of an object that has further members *)
Lemma cballot_back_more wn b cs nm k v : mapM (ccontest_to_json wn) (cb_sorted b) = Ok cs ->
  nonce_member wn (cb_nonce b) = Ok nm -> stored_ballot b = true ->
  existsb (String.eqb k) ["object_id"; "style_id"; "manifest_hash"; "code_seed"; "contests"; "code";
                          "timestamp"; "crypto_hash"; "nonce"] = false ->
  forall extra, extra = [] \/ extra = [(s2b k, v)] ->
  cballot_of_json gp
    (jobj (([(s2b "object_id", JStr (cb_id b)); (s2b "style_id", JStr (cb_style b));
             (s2b "manifest_hash", hexq (cb_manifest b)); (s2b "code_seed", hexq (cb_seed b));
             (s2b "contests", jpushed cs); (s2b "code", hexq (cb_code b));
             (s2b "timestamp", JNum (cb_timestamp b)); (s2b "crypto_hash", hexq (cb_hash b))] ++ extra) ++ nm)) =
  if legible_ballot gp wn b then Ok (bal_read wn b) else Throw OutOfRange.
Proof.
  intros Es En H K extra HX. unfold stored_ballot in H. splitb H.
  cbn [existsb] in K. repeat (rewrite orb_false_iff in K).
  destruct K as [K1 [K2 [K3 [K4 [K5 [K6 [K7 [K8 [K9 _]]]]]]]]].
  assert (S : mapM (ccontest_of_json gp) cs =
              if forallb (legible_contest gp wn) (cb_contests b) then Ok (map (con_read wn) (cb_sorted b))
              else Throw OutOfRange).
  { rewrite (forallb_perm _ _ _ (sort_perm cc_seq (cb_contests b))). fold (cb_sorted b).
    eapply mapM_guarded; [exact Es|]. intros x j Hx Ex. apply ccontest_back; [exact Ex|].
    match goal with H : forallb stored_contest _ = true |- _ => rewrite forallb_forall in H; apply H end.
    apply (sort_in cc_seq). exact Hx. }
  assert (X : forall s, existsb (String.eqb s) ["object_id"; "style_id"; "manifest_hash"; "code_seed"; "contests"; "code";
                          "timestamp"; "crypto_hash"; "nonce"] = true -> jlast extra (s2b s) = None).
  { intros s Hs. destruct HX as [-> | ->]; [reflexivity|]. rewrite jlast_cons. cbn [jlast].
    destruct (String.eqb_spec s k) as [->|]; [|reflexivity]. exfalso. cbn [existsb] in Hs.
    rewrite K1, K2, K3, K4, K5, K6, K7, K8, K9 in Hs. discriminate Hs. }
  edestruct nonce_back as [t [T1 [T2 [w T3]]]]; [exact En|assumption| |].
  2: { unfold cballot_of_json. rewrite T1. unfold hexq. keys. rewrite ju64_num by assumption. repeat rewrite bind_Ok.
       rewrite jitems_pushed, S, bind_guard. unfold legible_ballot.
       destruct (forallb (legible_contest gp wn) (cb_contests b)); [|now rewrite ?andb_false_r]; repeat rewrite bind_Ok.
       rewrite T2, bind_guard. destruct (legible_nonce gp wn (cb_nonce b)); [|now rewrite ?andb_false_r]; repeat rewrite bind_Ok.
       rewrite rq_back by assumption. rewrite bind_guard. destruct (legible_q gp (cb_manifest b)); [|reflexivity].
       rewrite rq_back by assumption. rewrite bind_guard. destruct (legible_q gp (cb_seed b)); [|reflexivity].
       rewrite rq_back by assumption. rewrite bind_guard. destruct (legible_q gp (cb_code b)); [|reflexivity].
       rewrite rq_back by assumption. rewrite bind_guard. destruct (legible_q gp (cb_hash b)); [|reflexivity].
       cbn [andb]. unfold bal_read. rewrite T3. reflexivity. }
  look.
Qed.
Lemma cballot_back wn b j : cballot_to_json wn b = Ok j -> stored_ballot b = true ->
  cballot_of_json gp j = if legible_ballot gp wn b then Ok (bal_read wn b) else Throw OutOfRange.
Proof.
  unfold cballot_to_json. intros E H.
  destruct (mapM (ccontest_to_json wn) (cb_sorted b)) as [cs| |] eqn:Es; cbn [bind] in E; [|discriminate..].
  destruct (nonce_member wn (cb_nonce b)) as [nm| |] eqn:En; cbn [bind] in E; [|discriminate..].
  apply Ok_eq in E; subst.
  exact (cballot_back_more wn b cs nm "state" JNull Es En H eq_refl [] (or_introl eq_refl)).
Qed.

(** The specification's relations *)
Lemma Forall2_map_r {A B} (R : A -> B -> Prop) f l : (forall x, In x l -> R x (f x)) -> Forall2 R l (map f l).
Proof. induction l as [|x l IH]; intros H; cbn; constructor; [apply H; now left|apply IH; intros y Hy; apply H; now right]. Qed.
Lemma con_read_ok wn c : contest_read wn c (con_read wn c).
Proof.
  unfold contest_read, con_read. cbn. repeat (split; [reflexivity|]).
  exists (cc_sorted c). split; [apply sort_perm|]. split; [apply sort_sorted|].
  apply Forall2_map_r. intros s _. reflexivity.
Qed.
Lemma bal_read_ok wn b : ballot_read wn b (bal_read wn b).
Proof.
  unfold ballot_read, bal_read. cbn. repeat (split; [reflexivity|]).
  exists (cb_sorted b). split; [apply sort_perm|]. split; [apply sort_sorted|].
  apply Forall2_map_r. intros c _. apply con_read_ok.
Qed.
Lemma trim_id l : hd 1 l <> 0 -> trim l = l.
Proof. destruct l as [|b t]; [reflexivity|]. cbn. intros H. destruct (Z.eqb_spec b 0); congruence. Qed.
Lemma sel_read_id s : sel_read true s = s.
Proof. destruct s; reflexivity. Qed.
Lemma con_read_id c : tidy_contest c -> con_read true c = c.
Proof.
  intros [H1 H2]. unfold con_read, cc_sorted. rewrite (sort_by_sorted_id _ _ H1).
  rewrite (map_ext _ (fun s => s)) by apply sel_read_id. rewrite map_id.
  destruct c as [i q d l n a h p [e|]]; cbn in *; [|reflexivity]. destruct (H2 e eq_refl) as [D M].
  do 2 f_equal. unfold trim_hashed. rewrite (trim_id _ D), (trim_id _ M). destruct e; reflexivity.
Qed.
Lemma bal_read_id b : tidy_ballot b -> bal_read true b = b.
Proof.
  intros [H1 H2]. unfold bal_read, cb_sorted. rewrite (sort_by_sorted_id _ _ H1).
  rewrite (map_ext_in _ (fun c => c)); [rewrite map_id; destruct b; reflexivity|].
  intros c Hc. apply con_read_id. rewrite Forall_forall in H2. now apply H2.
Qed.

(** ** Writing *)
Lemma mapM_ok_iff {A B} (f : A -> outcome B) (b : A -> bool) l :
  (forall x, In x l -> if b x then exists y, f x = Ok y else f x = UB) ->
  if forallb b l then exists ys, mapM f l = Ok ys else mapM f l = UB.
Proof.
  induction l as [|x l IH]; intros H; cbn [forallb mapM]; [now exists []|].
  assert (Hx := H x (or_introl eq_refl)). destruct (b x); cbn [andb].
  - destruct Hx as [y ->]. cbn [bind].
    assert (R : if forallb b l then exists ys, mapM f l = Ok ys else mapM f l = UB)
      by (apply IH; intros z Hz; apply H; now right).
    destruct (forallb b l); [destruct R as [ys ->]; eexists; reflexivity|rewrite R; reflexivity].
  - rewrite Hx. reflexivity.
Qed.
Lemma nonce_member_ok wn n : if negb wn || has n then exists m, nonce_member wn n = Ok m else nonce_member wn n = UB.
Proof. destruct wn, n; cbn; eauto. Qed.
Lemma cselection_writes wn s :
  if complete_selection wn s then exists j, cselection_to_json wn s = Ok j else cselection_to_json wn s = UB.
Proof.
  unfold complete_selection, cselection_to_json. destruct (cs_proof s); cbn [has andb deref bind]; [|reflexivity].
  pose proof (nonce_member_ok wn (cs_nonce s)) as N. destruct (negb wn || has (cs_nonce s)).
  - destruct N as [m ->]. eexists; reflexivity.
  - rewrite N. reflexivity.
Qed.
Lemma ccontest_writes wn c :
  if complete_contest wn c then exists j, ccontest_to_json wn c = Ok j else ccontest_to_json wn c = UB.
Proof.
  unfold complete_contest, ccontest_to_json.
  rewrite (forallb_perm _ _ _ (sort_perm cs_seq (cc_selections c))). fold (cc_sorted c).
  pose proof (mapM_ok_iff (cselection_to_json wn) (complete_selection wn) (cc_sorted c)
                (fun s _ => cselection_writes wn s)) as S.
  destruct (forallb (complete_selection wn) (cc_sorted c)); cbn [andb]; [|rewrite S; reflexivity].
  destruct S as [ss ->]. cbn [bind]. destruct (cc_proof c); cbn [has andb deref bind]; [|reflexivity].
  destruct (cc_hashed c); cbn [has andb deref bind]; [|reflexivity].
  pose proof (nonce_member_ok wn (cc_nonce c)) as N. destruct (negb wn || has (cc_nonce c)).
  - destruct N as [m ->]. eexists; reflexivity.
  - rewrite N. reflexivity.
Qed.
Lemma cballot_writes wn b :
  if complete_ballot wn b then exists j, cballot_to_json wn b = Ok j else cballot_to_json wn b = UB.
Proof.
  unfold complete_ballot, cballot_to_json.
  rewrite (forallb_perm _ _ _ (sort_perm cc_seq (cb_contests b))). fold (cb_sorted b).
  pose proof (mapM_ok_iff (ccontest_to_json wn) (complete_contest wn) (cb_sorted b)
                (fun s _ => ccontest_writes wn s)) as S.
  destruct (forallb (complete_contest wn) (cb_sorted b)); cbn [andb]; [|rewrite S; reflexivity].
  destruct S as [ss ->]. cbn [bind].
  pose proof (nonce_member_ok wn (cb_nonce b)) as N. destruct (negb wn || has (cb_nonce b)).
  - destruct N as [m ->]. eexists; reflexivity.
  - rewrite N. reflexivity.
Qed.
End Elements.
