(** Reading back: contexts, submitted and compact ballots, manifests; documents without nonces. *)
From Coq Require Import String Permutation.
From Verif Require Import Base GroupModel GroupSpec GroupProofs CodecModel CodecProofs HashModel ElgamalModel
  ChaumModel SortModel SortProofs ManifestModel BallotModel JsonModel EncryptModel SerializeModel
  SerializeSpec SerializeProofs.
Open Scope string_scope.
Open Scope list_scope.
Open Scope Z_scope.

(** ** Objects with arbitrary keys *)
Lemma bytes_eqb_refl k : bytes_eqb k k = true.
Proof. now apply bytes_eqb_iff. Qed.
Lemma set_perm l k v : ~ In k (map fst l) -> Permutation (members_set l k v) ((k, v) :: l).
Proof.
  induction l as [|[a w] t IH]; intros N; [reflexivity|]. cbn [members_set].
  destruct (bytes_eqb k a) eqn:E; [apply bytes_eqb_iff in E; subst; exfalso; apply N; now left|].
  destruct (bytes_ltb k a); [reflexivity|].
  rewrite IH by (intros H; apply N; now right). apply perm_swap.
Qed.
Lemma set_keys l k v x : In x (map fst (members_set l k v)) -> x = k \/ In x (map fst l).
Proof.
  induction l as [|[a w] t IH]; cbn [members_set map fst In]; [intuition|].
  destruct (bytes_eqb k a) eqn:E; [apply bytes_eqb_iff in E; subst; cbn; intuition|].
  destruct (bytes_ltb k a); cbn; intuition.
Qed.
Lemma fold_perm l : forall m, NoDup (map fst l) -> (forall k, In k (map fst l) -> ~ In k (map fst m)) ->
  Permutation (fold_left (fun m kv => members_set m (fst kv) (snd kv)) l m) (m ++ l).
Proof.
  induction l as [|[k v] t IH]; intros m N D; [now rewrite app_nil_r|]. cbn [fold_left fst snd].
  inversion N as [|? ? N1 N2]; subst. cbn [map fst] in *.
  rewrite IH; [|exact N2|].
  - rewrite (set_perm m k v) by (apply D; now left). cbn [app]. apply Permutation_middle.
  - intros k' Hk' Hm. apply set_keys in Hm. destruct Hm as [-> | Hm]; [contradiction|].
    apply (D k'); [now right|exact Hm].
Qed.
Lemma jobj_perm l : NoDup (map fst l) -> exists m, jobj l = JObj m /\ Permutation l m.
Proof.
  intros N. eexists. split; [reflexivity|]. symmetry. apply (fold_perm l []); [exact N|]. intros k _ H. exact H.
Qed.

(** ** Documents without nonces *)
Lemma set_in l k v x : In x (members_set l k v) -> x = (k, v) \/ In x l.
Proof.
  induction l as [|[a w] t IH]; cbn [members_set In]; [intuition|].
  destruct (bytes_eqb k a); [cbn; intuition|]. destruct (bytes_ltb k a); cbn; intuition.
Qed.
Lemma fold_in l : forall m x, In x (fold_left (fun m kv => members_set m (fst kv) (snd kv)) l m) ->
  In x l \/ In x m.
Proof.
  induction l as [|[k v] t IH]; intros m x H; [now right|]. cbn [fold_left fst snd] in H.
  apply IH in H. destruct H as [H|H]; [left; now right|]. apply set_in in H.
  destruct H as [-> | H]; [left; now left|now right].
Qed.
Definition clean (k : bytes) (j : json) : Prop := ~ has_member k j.
Lemma clean_atom k j : match j with JArr _ | JObj _ => False | _ => True end -> clean k j.
Proof. intros H M. inversion M; subst; exact H. Qed.
Lemma clean_jobj k l : Forall (fun kv => fst kv <> k /\ clean k (snd kv)) l -> clean k (jobj l).
Proof.
  intros F M. rewrite Forall_forall in F. unfold jobj in M. inversion M as [l' v I|l' k' v I H|]; subst.
  - apply fold_in in I. destruct I as [I|[]]. destruct (F _ I) as [N _]. now apply N.
  - apply fold_in in I. destruct I as [I|[]]. destruct (F _ I) as [_ C]. now apply C.
Qed.
Lemma clean_pushed k l : Forall (clean k) l -> clean k (jpushed l).
Proof.
  intros F M. destruct l as [|x l]; [inversion M|]. cbn [jpushed] in M. inversion M as [| |l' v I H]; subst.
  rewrite Forall_forall in F. exact (F v I H).
Qed.
Lemma mapM_Forall {A B} (f : A -> outcome B) (P : B -> Prop) l ys :
  mapM f l = Ok ys -> (forall x y, In x l -> f x = Ok y -> P y) -> Forall P ys.
Proof.
  revert ys. induction l as [|x l IH]; intros ys E H; cbn [mapM] in E.
  - apply Ok_eq in E. subst. constructor.
  - destruct (f x) as [y| |] eqn:Ex; cbn [bind] in E; [|discriminate..].
    destruct (mapM f l) as [zs| |] eqn:El; cbn [bind] in E; [|discriminate..].
    apply Ok_eq in E. subst. constructor; [eapply H; [now left|exact Ex]|].
    apply IH; [reflexivity|]. intros x' y' I. apply H. now right.
Qed.
Definition named (k : string) (l : list (bytes * json)) : Prop :=
  Forall (fun kv => fst kv <> s2b k /\ clean (s2b k) (snd kv)) l.
Lemma named_cons k a v t : String.eqb a k = false -> clean (s2b k) v -> named k t -> named k ((s2b a, v) :: t).
Proof.
  intros E C N. apply Forall_cons; [|exact N]. split; [|exact C]. cbn [fst]. intros H. apply s2b_inj in H.
  subst. rewrite String.eqb_refl in E. discriminate.
Qed.
Lemma clean_named k l : named k l -> clean (s2b k) (jobj l).
Proof. apply clean_jobj. Qed.
Lemma clean_str k s : clean k (JStr s). Proof. now apply clean_atom. Qed.
Lemma clean_num k s : clean k (JNum s). Proof. now apply clean_atom. Qed.
Lemma clean_bool k s : clean k (JBool s). Proof. now apply clean_atom. Qed.
Lemma clean_hexq k s : clean k (hexq s). Proof. apply clean_str. Qed.
Lemma clean_hexp k s : clean k (hexp s). Proof. apply clean_str. Qed.
Ltac atoms :=
  lazymatch goal with
  | |- named _ [] => apply Forall_nil
  | |- named _ _ => apply named_cons;
     [reflexivity
     | lazymatch goal with
       | |- clean _ (hexp _) => apply clean_hexp
       | |- clean _ (hexq _) => apply clean_hexq
       | |- clean _ (JStr _) => apply clean_str
       | |- clean _ (JNum _) => apply clean_num
       end
     | atoms]
  end.
Lemma ct_no_nonce c : clean (s2b "nonce") (ct_to_json c).
Proof. apply clean_named. atoms. Qed.
Lemma dproof_no_nonce p : clean (s2b "nonce") (dproof_to_json p).
Proof. apply clean_named. atoms. Qed.
Lemma cproof_no_nonce p : clean (s2b "nonce") (cproof_to_json p).
Proof. apply clean_named. atoms. Qed.
Lemma hashed_no_nonce p : clean (s2b "nonce") (hashed_to_json p).
Proof. apply clean_named. atoms. Qed.
Ltac names :=
  lazymatch goal with
  | |- named _ [] => apply Forall_nil
  | |- named _ _ => apply named_cons;
     [reflexivity
     | lazymatch goal with
       | |- clean _ (hexp _) => apply clean_hexp
       | |- clean _ (hexq _) => apply clean_hexq
       | |- clean _ (JStr _) => apply clean_str
       | |- clean _ (JNum _) => apply clean_num
       | |- clean _ (JBool _) => apply clean_bool
       | |- clean _ (ct_to_json _) => apply ct_no_nonce
       | |- clean _ (dproof_to_json _) => apply dproof_no_nonce
       | |- clean _ (cproof_to_json _) => apply cproof_no_nonce
       | |- clean _ (hashed_to_json _) => apply hashed_no_nonce
       | |- _ => apply clean_pushed
       end
     | names]
  end.
Lemma cselection_no_nonce s j : cselection_to_json false s = Ok j -> clean (s2b "nonce") j.
Proof.
  unfold cselection_to_json. intros E. destruct (cs_proof s) as [p|]; cbn [deref bind nonce_member] in E; [|discriminate].
  apply Ok_eq in E. subst. rewrite app_nil_r. apply clean_named.
  names.
Qed.
Lemma ccontest_no_nonce c j : ccontest_to_json false c = Ok j -> clean (s2b "nonce") j.
Proof.
  unfold ccontest_to_json. intros E.
  destruct (mapM (cselection_to_json false) (cc_sorted c)) as [ss| |] eqn:Es; cbn [bind] in E; [|discriminate..].
  destruct (cc_proof c) as [p|]; cbn [deref bind] in E; [|discriminate].
  destruct (cc_hashed c) as [e|]; cbn [deref bind nonce_member] in E; [|discriminate].
  apply Ok_eq in E. subst. rewrite app_nil_r. apply clean_named.
  names. eapply mapM_Forall; [exact Es|]; intros x y _; apply cselection_no_nonce.
Qed.
Lemma cballot_no_nonce b j : cballot_to_json false b = Ok j -> clean (s2b "nonce") j.
Proof.
  unfold cballot_to_json. intros E.
  destruct (mapM (ccontest_to_json false) (cb_sorted b)) as [ss| |] eqn:Es; cbn [bind nonce_member] in E; [|discriminate..].
  apply Ok_eq in E. subst. rewrite app_nil_r. apply clean_named.
  names. eapply mapM_Forall; [exact Es|]; intros x y _; apply ccontest_no_nonce.
Qed.
Lemma jobj_snoc l k v : json_set (jobj l) k v = Ok (jobj (l ++ [(k, v)])).
Proof. unfold json_set, jobj. rewrite fold_left_app. reflexivity. Qed.
Lemma sballot_shape b j : sballot_to_json b = Ok j ->
  exists cs, mapM (ccontest_to_json false) (cb_sorted (sb_ballot b)) = Ok cs
  /\ j = jobj (([(s2b "object_id", JStr (cb_id (sb_ballot b))); (s2b "style_id", JStr (cb_style (sb_ballot b)));
             (s2b "manifest_hash", hexq (cb_manifest (sb_ballot b))); (s2b "code_seed", hexq (cb_seed (sb_ballot b)));
             (s2b "contests", jpushed cs); (s2b "code", hexq (cb_code (sb_ballot b)));
             (s2b "timestamp", JNum (cb_timestamp (sb_ballot b))); (s2b "crypto_hash", hexq (cb_hash (sb_ballot b)))]
             ++ [(s2b "state", JNum (state_num (sb_state b)))]) ++ []).
Proof.
  unfold sballot_to_json, cballot_to_json. intros E.
  destruct (mapM (ccontest_to_json false) (cb_sorted (sb_ballot b))) as [cs| |] eqn:Es; cbn [bind nonce_member] in E; [|discriminate..].
  rewrite app_nil_r in E. rewrite jobj_snoc in E. apply Ok_eq in E.
  exists cs. split; [reflexivity|]. rewrite app_nil_r. symmetry. exact E.
Qed.
Lemma sballot_no_nonce b j : sballot_to_json b = Ok j -> clean (s2b "nonce") j.
Proof.
  intros E. destruct (sballot_shape b j E) as [cs [Es ->]]. rewrite app_nil_r. apply clean_named.
  apply Forall_app. split; match goal with |- Forall _ ?l => change (named "nonce" l) end; names.
  eapply mapM_Forall; [exact Es|]; intros x y _; apply ccontest_no_nonce.
Qed.

(** The document is a function of the ballot without its nonces. *)
Lemma mapM_map {A B C} (f : A -> B) (g : B -> outcome C) l : mapM g (map f l) = mapM (fun x => g (f x)) l.
Proof. induction l as [|x l IH]; [reflexivity|]. cbn [map mapM]. rewrite IH. reflexivity. Qed.
Lemma mapM_ext {A B} (f g : A -> outcome B) l : (forall x, f x = g x) -> mapM f l = mapM g l.
Proof. intros H. induction l as [|x l IH]; [reflexivity|]. cbn [mapM]. rewrite H, IH. reflexivity. Qed.
Lemma ccontest_forget c : ccontest_to_json false (forget_contest c) = ccontest_to_json false c.
Proof.
  unfold ccontest_to_json, cc_sorted. cbn [cc_selections forget_contest].
  rewrite (sort_by_map forget_selection cs_seq cs_seq) by reflexivity. rewrite mapM_map.
  reflexivity.
Qed.
Lemma cballot_forget b : cballot_to_json false (forget_nonces b) = cballot_to_json false b.
Proof.
  unfold cballot_to_json, cb_sorted. cbn [cb_contests forget_nonces].
  rewrite (sort_by_map forget_contest cc_seq cc_seq) by reflexivity. rewrite mapM_map.
  rewrite (mapM_ext (fun x => ccontest_to_json false (forget_contest x)) (ccontest_to_json false)) by apply ccontest_forget.
  reflexivity.
Qed.

(** ** Submitted ballots *)
Lemma state_back s : state_of_num (state_num s) = Ok s.
Proof. destruct s; reflexivity. Qed.
Lemma state_u64 s : u64 (state_num s) = true.
Proof. destruct s; reflexivity. Qed.
Lemma mapM_copy {A} (f : A -> outcome A) l : (forall x, In x l -> f x = Ok x) -> mapM f l = Ok l.
Proof. intros H. rewrite (mapM_ext_ok f (fun x => x)) by exact H. now rewrite map_id. Qed.
Lemma copy_read b : complete_ballot false b = true -> cballot_copy (bal_read false b) = Ok (bal_read false b).
Proof.
  unfold complete_ballot. rewrite andb_true_iff. intros [H _]. rewrite forallb_forall in H.
  unfold cballot_copy. rewrite (mapM_copy ccontest_copy).
  - cbn [bind bal_read cb_nonce nonce_read]. reflexivity.
  - cbn [bal_read cb_contests]. intros c Hc. apply in_map_iff in Hc. destruct Hc as [c0 [<- Hc]].
    apply (proj1 (sort_in cc_seq _ _)) in Hc. specialize (H c0 Hc). unfold complete_contest in H.
    repeat (rewrite andb_true_iff in H). destruct H as [[[H1 H2] H3] _]. rewrite forallb_forall in H1.
    unfold ccontest_copy. rewrite (mapM_copy cselection_copy).
    + cbn [bind con_read cc_nonce nonce_read cc_proof cc_hashed option_map].
      destruct (cc_proof c0) as [p|] eqn:Ep; [|discriminate]. destruct (cc_hashed c0) as [e|] eqn:Ee; [|discriminate].
      cbn [option_map]. unfold con_read. rewrite Ep, Ee. reflexivity.
    + cbn [con_read cc_selections]. intros s Hs. apply in_map_iff in Hs. destruct Hs as [s0 [<- Hs]].
      apply (proj1 (sort_in cs_seq _ _)) in Hs. specialize (H1 s0 Hs). unfold complete_selection in H1.
      rewrite andb_true_iff in H1. destruct H1 as [H1 _]. unfold cselection_copy.
      cbn [sel_read cs_nonce nonce_read cs_proof]. destruct (cs_proof s0); [reflexivity|discriminate].
Qed.
Section Params.
Context (gp : params).
Lemma sballot_back b j : sballot_to_json b = Ok j -> stored_ballot (sb_ballot b) = true ->
  complete_ballot false (sb_ballot b) = true ->
  sballot_of_json gp j = if legible_ballot gp false (sb_ballot b)
                         then Ok {| sb_ballot := bal_read false (sb_ballot b); sb_state := sb_state b |}
                         else Throw OutOfRange.
Proof.
  intros E H C. destruct (sballot_shape b j E) as [cs [Es ->]].
  unfold sballot_of_json.
  rewrite (cballot_back_more gp false (sb_ballot b) cs [] "state" (JNum (state_num (sb_state b))) Es eq_refl H eq_refl _ (or_intror eq_refl)).
  rewrite bind_guard. destruct (legible_ballot gp false (sb_ballot b)); [|reflexivity].
  keys. rewrite (ju64_num _ (state_u64 _)), bind_Ok, state_back, bind_Ok. unfold submitted_from.
  rewrite (copy_read _ C). reflexivity.
Qed.
Lemma sballot_writes b :
  if complete_ballot false (sb_ballot b) then exists j, sballot_to_json b = Ok j else sballot_to_json b = UB.
Proof.
  pose proof (cballot_writes false (sb_ballot b)) as W. unfold sballot_to_json.
  destruct (complete_ballot false (sb_ballot b)).
  - destruct W as [j W]. rewrite W. cbn [bind]. unfold cballot_to_json in W.
    destruct (mapM (ccontest_to_json false) (cb_sorted (sb_ballot b))); cbn [bind nonce_member] in W; [|discriminate..].
    apply Ok_eq in W. subst. rewrite jobj_snoc. eexists; reflexivity.
  - rewrite W. reflexivity.
Qed.

(** ** Compact ciphertext ballots *)
Lemma compact_cipher_back jdump c :
  in_q (cct_seed c) && in_q (cct_code c) && in_q (cct_nonce c) && u64 (cct_timestamp c) = true ->
  compact_cipher_of_json gp jdump (compact_cipher_to_json c) =
  do p <- compact_plain_of_json jdump (compact_plain_to_json (cct_plain c));
  if legible_q gp (cct_seed c) && legible_q gp (cct_code c) && legible_q gp (cct_nonce c)
  then Ok {| cct_plain := p; cct_state := cct_state c; cct_seed := cct_seed c; cct_code := cct_code c;
             cct_timestamp := cct_timestamp c; cct_nonce := cct_nonce c |}
  else Throw OutOfRange.
Proof.
  rewrite !andb_true_iff. intros [[[H1 H2] H3] H4].
  unfold compact_cipher_of_json, compact_cipher_to_json, hexq. keys.
  rewrite (ju64_num _ H4), bind_Ok, (ju64_num _ (state_u64 _)), bind_Ok, state_back, !bind_Ok.
  destruct (compact_plain_of_json jdump (compact_plain_to_json (cct_plain c))); cbn [bind]; [|reflexivity..].
  rewrite (rq_back gp _ H1), bind_guard. destruct (legible_q gp (cct_seed c)); [|reflexivity].
  rewrite (rq_back gp _ H2), bind_guard. destruct (legible_q gp (cct_code c)); [|reflexivity].
  rewrite (rq_back gp _ H3), bind_guard. destruct (legible_q gp (cct_nonce c)); reflexivity.
Qed.

(** ** Contexts *)
Lemma pairs_back l : exists m, jpairs (jobj (map (fun kv : bytes * bytes => (fst kv, JStr (snd kv))) l)) = Ok m
  /\ (NoDup (map fst l) -> Permutation (map (fun kv : bytes * bytes => (fst kv, JStr (snd kv))) l) m).
Proof.
  eexists. split; [reflexivity|]. intros N.
  destruct (jobj_perm (map (fun kv : bytes * bytes => (fst kv, JStr (snd kv))) l)) as [m [E P]].
  - rewrite map_map. exact N.
  - unfold jobj in E. injection E as ->. exact P.
Qed.
Lemma strings_back l m : Permutation (map (fun kv : bytes * bytes => (fst kv, JStr (snd kv))) l) m ->
  exists l', Permutation l l'
  /\ mapM (fun kv : bytes * json => do s <- jstring (snd kv); Ok (fst kv, s)) m = Ok l'.
Proof.
  intros P. destruct (Permutation_map_inv _ _ (Permutation_sym P)) as [l' [-> P']].
  exists l'. split; [exact P'|]. rewrite (mapM_map_ok _ _ (fun kv => kv)); [now rewrite map_id|].
  intros [k v] _. reflexivity.
Qed.
Lemma context_back x : stored_context (fc_context x) (fc_max_ballots x) = true -> NoDup (map fst (fc_extended x)) ->
  exists l, Permutation (fc_extended x) l /\
  context_of_json gp (context_to_json x) =
  if legible_context gp (fc_context x)
  then Ok {| fc_context := fc_context x; fc_overvotes := fc_overvotes x; fc_max_ballots := fc_max_ballots x;
             fc_extended := l |}
  else Throw OutOfRange.
Proof.
  intros H N. unfold stored_context in H. repeat (rewrite andb_true_iff in H).
  destruct H as [[[[[[[H1 H2] H3] H4] H5] H6] H7] H8].
  destruct (pairs_back (fc_extended x)) as [m [M P]]. specialize (P N).
  destruct (strings_back _ _ P) as [l [P' L]]. exists l. split; [exact P'|].
  set (tail := match fc_extended x with
               | [] => []
               | l => [(s2b "extended_data", jobj (map (fun kv => (fst kv, JStr (snd kv))) l))]
               end).
  assert (D : match jpresent (context_to_json x) (s2b "extended_data") with
             | Some d => do l <- jpairs d;
                         mapM (fun kv => do s <- jstring (snd kv); Ok (fst kv, s)) l
             | None => Ok []
             end = Ok l).
  { unfold context_to_json. destruct (fc_extended x) as [|e t] eqn:Ex.
    - apply Permutation_nil in P'. subst l. rewrite app_nil_r. erewrite jpresent_obj by look. reflexivity.
    - erewrite jpresent_obj by look. cbv iota beta. unfold jobj at 1. fold (jobj (map (fun kv : bytes * bytes => (fst kv, JStr (snd kv))) (e :: t))).
      rewrite M. cbn [bind]. exact L. }
  assert (X : forall s, existsb (String.eqb s) ["crypto_base_hash"; "crypto_extended_base_hash"; "commitment_hash";
    "manifest_hash"; "elgamal_public_key"; "number_of_guardians"; "quorum"; "configuration"] = true -> jlast tail (s2b s) = None).
  { intros s Hs. subst tail. destruct (fc_extended x); [reflexivity|]. rewrite jlast_cons. cbn [jlast].
    destruct (String.eqb_spec s "extended_data") as [->|]; [discriminate Hs|reflexivity]. }
  unfold context_of_json. rewrite D. clear D. unfold context_to_json. fold tail. clearbody tail. unfold hexq, hexp. keys.
  rewrite (ju64_num _ H6), bind_Ok, (ju64_num _ H7), bind_Ok. cbv iota beta.
  unfold jobj at 1. fold (jobj [(s2b "allow_overvotes", JBool (fc_overvotes x)); (s2b "max_votes", JNum (fc_max_ballots x))]).
  keys. rewrite (ju64_num _ H8), !bind_Ok. unfold legible_context.
  rewrite (rq_back gp _ H3), bind_guard. destruct (legible_q gp (el_commitment (fc_context x))); [|reflexivity].
  rewrite (rq_back gp _ H4), bind_guard. destruct (legible_q gp (el_manifest (fc_context x))); [|reflexivity].
  rewrite (rq_back gp _ H1), bind_guard. destruct (legible_q gp (el_base (fc_context x))); [|reflexivity].
  rewrite (rq_back gp _ H2), bind_guard. destruct (legible_q gp (el_ext (fc_context x))); [|reflexivity].
  rewrite (rp_back gp _ H5), bind_guard. destruct (legible_p gp (el_pk (fc_context x))); [|reflexivity].
  rewrite bind_Ok. destruct (fc_context x); reflexivity.
Qed.
End Params.
