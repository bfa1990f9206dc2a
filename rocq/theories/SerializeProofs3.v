(** Reading back manifests and internal manifests. *)
From Coq Require Import String Permutation.
From Verif Require Import Base GroupModel GroupSpec GroupProofs CodecModel HashModel SortModel SortProofs
  ManifestModel BallotModel JsonModel EncryptModel SerializeModel SerializeSpec SerializeProofs SerializeProofs2.
Open Scope string_scope.
Open Scope list_scope.
Open Scope Z_scope.

Lemma election_type_back t : election_type_of (election_type_string t) = t.
Proof. destruct t; vm_compute; reflexivity. Qed.
Lemma reporting_unit_back t : reporting_unit_of (reporting_unit_string t) = t.
Proof. destruct t; vm_compute; reflexivity. Qed.
Lemma vote_variation_back t : vote_variation_of (vote_variation_string t) = t.
Proof. destruct t; vm_compute; reflexivity. Qed.

Lemma getl_obj {A} (f : A -> json) (g : json -> outcome A) l k xs :
  jlast l (s2b k) = Some (JArr (map f xs)) -> (forall x, g (f x) = Ok x) -> get_list g (jobj l) k = Ok xs.
Proof.
  intros H G. unfold get_list. rewrite jpresent_jobj, H. cbn [jitems].
  rewrite (mapM_map_ok f g (fun x => x)) by (intros x _; apply G). now rewrite map_id.
Qed.
Lemma getl_none {A} (g : json -> outcome A) l k : jlast l (s2b k) = None -> get_list g (jobj l) k = Ok [].
Proof. intros H. unfold get_list. rewrite jpresent_jobj, H. reflexivity. Qed.
Lemma opt_none l k : jlast l (s2b k) = None -> get_opt_str (jobj l) k = Ok [].
Proof. intros H. unfold get_opt_str. rewrite jpresent_jobj, H. reflexivity. Qed.

Lemma jidx_obj' l k r : jlast l k = r -> jidx (jobj l) k = Ok (match r with Some v => v | None => JNull end).
Proof. intros H. rewrite jidx_jobj, H. reflexivity. Qed.

Lemma annotated_back a : annotated_of_json (annotated_to_json a) = Ok a.
Proof. unfold annotated_of_json, annotated_to_json. keys. destruct a; reflexivity. Qed.
Lemma language_back a : language_of_json (language_to_json a) = Ok a.
Proof. unfold language_of_json, language_to_json. keys. destruct a; reflexivity. Qed.
Lemma mapM_back {A} (f : A -> json) (g : json -> outcome A) xs :
  (forall x, g (f x) = Ok x) -> mapM g (map f xs) = Ok xs.
Proof. intros G. rewrite (mapM_map_ok f g (fun x => x)) by (intros x _; apply G). now rewrite map_id. Qed.
Lemma intl_back t : intl_of_json (intl_to_json t) = Ok t.
Proof.
  unfold intl_of_json, intl_to_json. erewrite jpresent_obj by look. cbv iota. cbn [jitems].
  apply mapM_back, language_back.
Qed.

Lemma contact_back c : contact_of_json (contact_to_json c) = Ok c.
Proof.
  destruct c as [n a e p]. unfold contact_of_json, contact_to_json. cbn [cx_name cx_address cx_email cx_phone].
  assert (J : forall x, jstring (JStr x) = Ok x) by reflexivity.
  destruct n as [|n0 n1], a as [|a0 a1], e as [|e0 e1], p as [|p0 p1]; unfold opt_str; cbn [app jobj0];
    try reflexivity;
    (first [erewrite (getl_obj JStr jstring _ "address_line") by first [look | exact J]
           | rewrite (getl_none jstring _ "address_line") by look]);
    (first [erewrite (getl_obj annotated_to_json annotated_of_json _ "email") by first [look | exact annotated_back]
           | rewrite (getl_none annotated_of_json _ "email") by look]);
    (first [erewrite (getl_obj annotated_to_json annotated_of_json _ "phone") by first [look | exact annotated_back]
           | rewrite (getl_none annotated_of_json _ "phone") by look]);
    (first [erewrite (opt_obj_str _ "name") by look | rewrite (opt_none _ "name") by look]);
    reflexivity.
Qed.
Lemma contact_null c : contact_to_json c = JNull <-> no_contact c = true.
Proof.
  destruct c as [[|] [|] [|] [|]]; unfold contact_to_json, no_contact, opt_str; cbn;
    (split; [intros H; first [discriminate H | reflexivity] | intros H; first [discriminate H | reflexivity]]).
Qed.
Definition unit_back_value (u : gp_unit) : gp_unit :=
  {| gu_id := gu_id u; gu_name := gu_name u; gu_type := gu_type u;
     gu_contact := match gu_contact u with
                   | Some c => if no_contact c then None else Some c
                   | None => None
                   end |}.
Lemma unit_back u : unit_of_json (unit_to_json u) = Ok (unit_back_value u).
Proof.
  unfold unit_of_json, unit_to_json, unit_back_value. destruct (gu_contact u) as [c|].
  - keys. rewrite reporting_unit_back.
    destruct (no_contact c) eqn:E.
    + apply contact_null in E. rewrite E. reflexivity.
    + destruct (contact_to_json c) eqn:Ec; try (rewrite <- Ec, contact_back; reflexivity).
      apply contact_null in Ec. congruence.
  - keys. rewrite reporting_unit_back. reflexivity.
Qed.

Lemma opt_any l k v : jlast l (s2b k) = (match v with [] => None | _ => Some (JStr v) end) ->
  get_opt_str (jobj l) k = Ok v.
Proof. intros H. unfold get_opt_str. rewrite jpresent_jobj, H. destruct v; reflexivity. Qed.
Lemma name_back l n : jlast l (s2b "name") = option_map intl_to_json n ->
  get_name (jobj l) = Ok (match n with Some t => t | None => [] end).
Proof.
  intros H. unfold get_name. rewrite jpresent_jobj, H. destruct n as [t|]; [|reflexivity].
  cbn [option_map]. change (intl_of_json (intl_to_json t) = Ok t). apply intl_back.
Qed.
(** Members in lists that depend on options *)
Ltac lookm := repeat first [rewrite jlast_app | rewrite jlast_cons | rewrite jlast_opt_str];
  cbn [jlast String.eqb Ascii.eqb Bool.eqb option_map]; try reflexivity.
Lemma party_back p : party_of_json (party_to_json p) =
  Ok {| pa_id := pa_id p; pa_name := name_read (pa_name p); pa_abbrev := pa_abbrev p;
        pa_color := pa_color p; pa_logo := pa_logo p |}.
Proof.
  unfold party_of_json, party_to_json.
  destruct p as [i n a c l]; cbn [pa_id pa_name pa_abbrev pa_color pa_logo].
  rewrite (opt_any _ _ a) by (destruct a, n; lookm). rewrite bind_Ok.
  rewrite (opt_any _ _ c) by (destruct c, n; lookm). rewrite bind_Ok.
  rewrite (opt_any _ _ l) by (destruct l, n; lookm). rewrite bind_Ok.
  rewrite (name_back _ n) by (destruct n, a, c, l; lookm). rewrite bind_Ok.
  rewrite (cgs_obj _ _ i) by (destruct n, a, c, l; lookm). reflexivity.
Qed.
Lemma writein_back l (w : bool) : jlast l (s2b "is_write_in") = (if w then Some (JBool true) else None) ->
  match jpresent (jobj l) (s2b "is_write_in") with Some b => jbool b | None => Ok false end = Ok w.
Proof. intros L. rewrite jpresent_jobj, L. destruct w; reflexivity. Qed.
Lemma candidate_back c : candidate_of_json (candidate_to_json c) =
  Ok {| ca_id := ca_id c; ca_name := name_read (ca_name c); ca_party := ca_party c;
        ca_image := ca_image c; ca_writein := ca_writein c |}.
Proof.
  unfold candidate_of_json, candidate_to_json.
  destruct c as [i n a m w]; cbn [ca_id ca_name ca_party ca_image ca_writein].
  rewrite (cgs_obj _ _ i) by (destruct n, a, m, w; lookm). rewrite bind_Ok.
  rewrite (name_back _ n) by (destruct n, a, m, w; lookm). rewrite bind_Ok.
  rewrite (writein_back _ w) by (destruct n, a, m, w; lookm). rewrite bind_Ok.
  rewrite (opt_any _ _ a) by (destruct n, a, m, w; lookm). rewrite bind_Ok.
  rewrite (opt_any _ _ m) by (destruct n, a, m, w; lookm). rewrite bind_Ok.
  destruct w; reflexivity.
Qed.
Lemma style_back s : style_of_json (style_to_json s) = Ok s.
Proof.
  unfold style_of_json, style_to_json. destruct s as [i u p m]; cbn [bs_id bs_units bs_parties bs_image].
  assert (J : forall x, jstring (JStr x) = Ok x) by reflexivity.
  rewrite (jcidx_obj _ _ (jpushed (map JStr u))) by (destruct p, m; lookm). rewrite bind_Ok, jitems_pushed.
  rewrite (mapM_back JStr jstring u J), bind_Ok.
  destruct p as [|p0 p].
  - rewrite (getl_none jstring _ "party_ids") by (destruct m; lookm). rewrite bind_Ok.
    rewrite (opt_any _ _ m) by (destruct m; lookm). rewrite bind_Ok.
    rewrite (cgs_obj _ _ i) by (destruct m; lookm). reflexivity.
  - rewrite (getl_obj JStr jstring _ "party_ids" (p0 :: p)) by first [exact J | destruct m; lookm]. rewrite bind_Ok.
    rewrite (opt_any _ _ m) by (destruct m; lookm). rewrite bind_Ok.
    rewrite (cgs_obj _ _ i) by (destruct m; lookm). reflexivity.
Qed.
Lemma selection_back s : u64 (sd_seq s) = true -> selection_of_json (selection_to_json s) = Ok s.
Proof.
  intros H. unfold selection_of_json, selection_to_json. keys. rewrite (ju64_num _ H), bind_Ok. destruct s; reflexivity.
Qed.
Lemma selections_back l : forallb (fun s => u64 (sd_seq s)) l = true ->
  selections_of_json (selections_to_json (sort_by sd_seq l)) = Ok (sort_by sd_seq l).
Proof.
  intros H. rewrite forallb_forall in H. unfold selections_of_json, selections_to_json. rewrite jitems_pushed.
  rewrite (mapM_map_ok _ _ (fun s => s)); [now rewrite map_id|]. intros s Hs. apply selection_back, H, (sort_in sd_seq), Hs.
Qed.
Definition contest_back_value (c : contest) : contest :=
  {| cd_id := cd_id c; cd_district := cd_district c; cd_seq := cd_seq c; cd_variation := cd_variation c;
     cd_elected := cd_elected c;
     cd_allowed := if cd_allowed c =? 0 then default_allowed (cd_variation c) (cd_elected c) else cd_allowed c;
     cd_name := cd_name c; cd_title := cd_title c; cd_subtitle := cd_subtitle c;
     cd_selections := get_selections c; cd_primary := [] |}.
Lemma opt_intl_back l k n : jlast l (s2b k) = option_map intl_to_json n -> get_opt_intl (jobj l) k = Ok n.
Proof.
  intros H. unfold get_opt_intl. rewrite jpresent_jobj, H. destruct n as [t|]; [|reflexivity]. cbn [option_map].
  change ((do x <- intl_of_json (intl_to_json t); Ok (Some x)) = Ok (Some t)). rewrite intl_back. reflexivity.
Qed.
Lemma allowed_back l a v e : u64 a = true ->
  jlast l (s2b "votes_allowed") = (if 0 <? a then Some (JNum a) else None) ->
  match jpresent (jobj l) (s2b "votes_allowed") with
  | Some x => ju64 x
  | None => Ok (match v with VV_n_of_m | VV_one_of_m => e | _ => 0 end)
  end = Ok (if a =? 0 then default_allowed v e else a).
Proof.
  intros H L. rewrite jpresent_jobj, L. unfold u64 in H. destruct (Z.ltb_spec 0 a), (Z.eqb_spec a 0); try (exfalso; lia).
  - apply ju64_num. unfold u64. exact H.
  - destruct v; reflexivity.
Qed.
Lemma contest_back c : contest_u64 c = true -> contest_of_json (contest_to_json c) = Ok (contest_back_value c).
Proof.
  unfold contest_u64. rewrite !andb_true_iff. intros [[[H1 H2] H3] H4].
  unfold contest_of_json, contest_to_json, contest_back_value, get_selections.
  destruct c as [i d q v e a n t u l p];
    cbn [cd_id cd_district cd_seq cd_variation cd_elected cd_allowed cd_name cd_title cd_subtitle cd_selections] in *.
  rewrite (cgs_obj _ _ i) by (destruct (0 <? a), t, u; lookm). rewrite bind_Ok.
  rewrite (cgs_obj _ _ d) by (destruct (0 <? a), t, u; lookm). rewrite bind_Ok.
  rewrite (cgn_obj _ _ q) by (destruct (0 <? a), t, u; lookm). rewrite (ju64_num _ H1), bind_Ok.
  rewrite (cgs_obj _ _ (vote_variation_string v)) by (destruct (0 <? a), t, u; lookm). rewrite bind_Ok.
  cbv zeta. rewrite (cgn_obj _ _ e) by (destruct (0 <? a), t, u; lookm). rewrite (ju64_num _ H2), bind_Ok.
  rewrite vote_variation_back.
  rewrite (allowed_back _ a v e H3) by (destruct (0 <? a), t, u; lookm).
  rewrite bind_Ok.
  rewrite (cgs_obj _ _ n) by (destruct (0 <? a), t, u; lookm). rewrite bind_Ok.
  rewrite (opt_intl_back _ _ t) by (destruct (0 <? a), t, u; lookm). rewrite bind_Ok.
  rewrite (opt_intl_back _ _ u) by (destruct (0 <? a), t, u; lookm). rewrite bind_Ok.
  rewrite (jcidx_obj _ _ (selections_to_json (sort_by sd_seq l))) by (destruct (0 <? a), t, u; lookm).
  rewrite bind_Ok, (selections_back l H4). reflexivity.
Qed.
Lemma relisted_same l : relisted sd_seq selection_same l (sort_by sd_seq l).
Proof.
  exists (sort_by sd_seq l). split; [apply sort_perm|]. split; [apply sort_sorted|].
  rewrite <- (map_id (sort_by sd_seq l)) at 2. apply Forall2_map_r. intros s _. reflexivity.
Qed.
Lemma contest_back_described c : contest_described c (contest_back_value c).
Proof.
  unfold contest_described, contest_back_value. cbn. repeat (split; [reflexivity|]). apply relisted_same.
Qed.

Section Dates.
Context (fmt : Z -> bytes) (scan : bytes -> Z).
Definition manifest_back_value (m : manifest) : manifest :=
  {| mf_scope := mf_scope m; mf_type := mf_type m;
     mf_start := Z.quot (mf_start m) 1000000000 * 1000000000;
     mf_end := Z.quot (mf_end m) 1000000000 * 1000000000;
     mf_units := map unit_back_value (mf_units m);
     mf_parties := map (fun p => {| pa_id := pa_id p; pa_name := name_read (pa_name p); pa_abbrev := pa_abbrev p;
                                    pa_color := pa_color p; pa_logo := pa_logo p |}) (mf_parties m);
     mf_candidates := map (fun c => {| ca_id := ca_id c; ca_name := name_read (ca_name c); ca_party := ca_party c;
                                       ca_image := ca_image c; ca_writein := ca_writein c |}) (mf_candidates m);
     mf_contests := map contest_back_value (get_contests m); mf_styles := mf_styles m;
     mf_name := mf_name m;
     mf_contact := match mf_name m with
                   | None => None
                   | Some _ => Some (match mf_contact m with Some c => c | None => empty_contact end)
                   end |}.
Lemma iso_scan_back s t : ticks t = true -> scan s = Z.quot t 1000000000 ->
  iso_scan scan s = Ok (Z.quot t 1000000000 * 1000000000).
Proof.
  unfold ticks, iso_scan. intros H ->. rewrite andb_true_iff in H.
  replace ((- 2 ^ 63 <=? Z.quot t 1000000000 * 1000000000) && (Z.quot t 1000000000 * 1000000000 <? 2 ^ 63)) with true;
    [reflexivity|].
  symmetry. rewrite andb_true_iff. Z.to_euclidean_division_equations. lia.
Qed.
Ltac opts n c := destruct n, c; lookm.
Lemma manifest_back m : manifest_in_range m = true ->
  scan (fmt (Z.quot (mf_start m) 1000000000)) = Z.quot (mf_start m) 1000000000 ->
  scan (fmt (Z.quot (mf_end m) 1000000000)) = Z.quot (mf_end m) 1000000000 ->
  manifest_of_json scan (manifest_to_json fmt m) = Ok (manifest_back_value m).
Proof.
  intros H S1 S2. unfold manifest_in_range in H. rewrite !andb_true_iff, forallb_forall in H.
  destruct H as ((H & T1) & T2). apply (iso_scan_back _ _ T1) in S1. apply (iso_scan_back _ _ T2) in S2.
  unfold manifest_of_json, manifest_to_json, manifest_back_value, iso.
  destruct m as [i t s e us ps cs ds bs n k];
    cbn [mf_scope mf_type mf_start mf_end mf_units mf_parties mf_candidates mf_contests mf_styles mf_name mf_contact get_contests] in *.
  unfold get_contests. cbn [mf_contests].
  rewrite (gs_obj _ _ i) by opts n k. rewrite bind_Ok.
  rewrite (gs_obj _ _ (election_type_string t)) by opts n k. rewrite bind_Ok.
  rewrite (gs_obj _ _ (fmt (Z.quot s 1000000000))) by opts n k. rewrite bind_Ok.
  rewrite (gs_obj _ _ (fmt (Z.quot e 1000000000))) by opts n k. rewrite bind_Ok.
  rewrite (jidx_obj _ (s2b "geopolitical_units") (JArr (map unit_to_json us))) by opts n k. rewrite bind_Ok.
  rewrite (jidx_obj _ (s2b "parties") (JArr (map party_to_json ps))) by opts n k.
  rewrite (jidx_obj _ (s2b "candidates") (JArr (map candidate_to_json cs))) by opts n k.
  rewrite (jidx_obj _ (s2b "contests") (JArr (map contest_to_json (sort_by cd_seq ds)))) by opts n k.
  rewrite (jidx_obj _ (s2b "ballot_styles") (JArr (map style_to_json bs))) by opts n k.
  rewrite (jpresent_obj _ (s2b "name") (option_map intl_to_json n)) by opts n k.
  rewrite (jidx_obj' _ (s2b "contact_information") (option_map contact_to_json k)) by opts n k.
  cbn [jitems].
  rewrite (mapM_map_ok unit_to_json unit_of_json unit_back_value) by (intros; apply unit_back). rewrite !bind_Ok. cbn [jitems].
  rewrite (mapM_map_ok party_to_json party_of_json _) by (intros; apply party_back). rewrite !bind_Ok. cbn [jitems].
  rewrite (mapM_map_ok candidate_to_json candidate_of_json _) by (intros; apply candidate_back). rewrite !bind_Ok. cbn [jitems].
  rewrite (mapM_map_ok contest_to_json contest_of_json contest_back_value).
  2: { intros c Hc. apply contest_back, H, (sort_in cd_seq), Hc. }
  rewrite !bind_Ok. cbn [jitems].
  rewrite (mapM_back style_to_json style_of_json bs style_back), bind_Ok.
  rewrite S1, S2, election_type_back.
  destruct n as [n|]; cbn [option_map].
  - change (match intl_to_json n with JNull => None | _ => Some (intl_to_json n) end) with (Some (intl_to_json n)).
    cbv iota. rewrite intl_back, !bind_Ok. destruct k as [k|]; cbn [option_map].
    + rewrite contact_back. reflexivity.
    + reflexivity.
  - reflexivity.
Qed.
End Dates.

Lemma manifest_back_read m : manifest_read m (manifest_back_value m).
Proof.
  unfold manifest_read, manifest_back_value.
  cbn [mf_scope mf_type mf_start mf_end mf_units mf_parties mf_candidates mf_contests mf_styles mf_name mf_contact].
  repeat (split; [reflexivity|]).
  split; [apply Forall2_map_r; intros; reflexivity|].
  split; [apply Forall2_map_r; intros; reflexivity|].
  split; [apply Forall2_map_r; intros; reflexivity|].
  repeat (split; [reflexivity|]).
  exists (get_contests m). split; [apply sort_perm|]. split; [apply sort_sorted|].
  apply Forall2_map_r. intros c _. apply contest_back_described.
Qed.

(** ** Hashes of what was read *)
Section Hash.
Context (gp : params) (sha : bytes -> Z) (fmt : Z -> bytes).
Lemma contest_back_hash c : settled_contest c -> contest_hash gp sha (contest_back_value c) = contest_hash gp sha c.
Proof.
  intros [S A]. unfold contest_hash, contest_items, contest_back_value, get_selections.
  cbn [cd_id cd_district cd_seq cd_variation cd_elected cd_allowed cd_name cd_title cd_subtitle cd_selections].
  rewrite (sort_by_sorted_id sd_seq _ S).
  assert (E : (if cd_allowed c =? 0 then default_allowed (cd_variation c) (cd_elected c) else cd_allowed c) = cd_allowed c).
  { destruct (Z.eqb_spec (cd_allowed c) 0) as [E|E]; [|reflexivity]. rewrite E. unfold default_allowed.
    destruct (A E) as [-> | [N1 N2]]; destruct (cd_variation c); congruence. }
  rewrite E. reflexivity.
Qed.
Lemma iso_again t : iso fmt (Z.quot t 1000000000 * 1000000000) = iso fmt t.
Proof. unfold iso. rewrite Z.quot_mul by lia. reflexivity. Qed.
Lemma manifest_back_hash m : settled m -> manifest_hash gp sha fmt (manifest_back_value m) = manifest_hash gp sha fmt m.
Proof.
  intros [S [SC [SU [SP SN]]]]. unfold manifest_hash.
  assert (EC : mapM (contest_hash gp sha) (mf_contests (manifest_back_value m)) = mapM (contest_hash gp sha) (mf_contests m)).
  { cbn [manifest_back_value mf_contests]. unfold get_contests. rewrite (sort_by_sorted_id cd_seq _ S), mapM_map.
    clear - SC. induction SC as [|c l H F IH]; [reflexivity|]. cbn [mapM].
    rewrite (contest_back_hash c H), IH. reflexivity. }
  rewrite EC. destruct (mapM (contest_hash gp sha) (mf_contests m)) as [cs| |]; cbn [bind]; [|reflexivity..].
  assert (EI : forall n c, manifest_items gp sha fmt (manifest_back_value m) n c cs = manifest_items gp sha fmt m n c cs).
  { intros n c. unfold manifest_items. cbn [manifest_back_value mf_scope mf_type mf_start mf_end mf_units mf_parties mf_styles].
    rewrite !iso_again, !map_map.
    rewrite (map_ext_in _ (fun u => HHash (unit_hash gp sha u)) (mf_units m)).
    2: { intros u Hu. rewrite Forall_forall in SU. specialize (SU u Hu). f_equal. unfold unit_hash, unit_back_value. cbn [gu_id gu_name gu_type gu_contact].
         destruct (gu_contact u) as [k|]; [|reflexivity]. rewrite (SU k eq_refl). reflexivity. }
    rewrite (map_ext_in _ (fun p => HHash (party_hash gp sha p)) (mf_parties m)).
    2: { intros p Hp. rewrite Forall_forall in SP. specialize (SP p Hp). f_equal. unfold party_hash. cbn [pa_id pa_name pa_abbrev pa_color pa_logo].
         destruct (pa_name p) as [k|]; cbn [name_read]; [reflexivity|]. exfalso. now apply SP. }
    reflexivity. }
  change (mf_name (manifest_back_value m)) with (mf_name m).
  change (mf_contact (manifest_back_value m)) with
    (match mf_name m with
     | None => None
     | Some _ => Some (match mf_contact m with Some c => c | None => empty_contact end)
     end).
  destruct (mf_name m) as [n|]; [|rewrite EI; reflexivity].
  destruct (mf_contact m) as [k|]; [rewrite EI; reflexivity|]. exfalso. apply SN; [discriminate|reflexivity].
Qed.
End Hash.

(** ** Internal manifests *)
Lemma wrapped_throws t : intl_of_json (wrapped_intl t) = Throw JsonError.
Proof.
  unfold intl_of_json, wrapped_intl. erewrite jpresent_obj by look. reflexivity.
Qed.
Definition contest_ph_back_value (c : contest_ph) : contest_ph :=
  let b := cw_base c in
  {| cw_base := {| cd_id := cd_id b; cd_district := cd_district b; cd_seq := cd_seq b; cd_variation := cd_variation b;
                   cd_elected := cd_elected b; cd_allowed := default_allowed (cd_variation b) (cd_elected b);
                   cd_name := cd_name b; cd_title := None; cd_subtitle := None;
                   cd_selections := get_selections b; cd_primary := [] |};
     cw_placeholders := get_placeholders c |}.
Lemma contest_ph_back c : contest_ph_u64 c = true ->
  contest_ph_of_json (contest_ph_to_json c) =
  if negb (has (cd_title (cw_base c))) then Ok (contest_ph_back_value c) else Throw JsonError.
Proof.
  unfold contest_ph_u64, contest_u64. rewrite !andb_true_iff. intros [[[[H1 H2] H3] H4] H5].
  unfold contest_ph_of_json, contest_ph_to_json, contest_ph_back_value, get_selections, get_placeholders.
  destruct c as [[i d q v e a n t u l p] ph];
    cbn [cd_id cd_district cd_seq cd_variation cd_elected cd_allowed cd_name cd_title cd_subtitle cd_selections cw_base cw_placeholders] in *.
  rewrite (gs_obj _ _ i) by (destruct t, u; lookm). rewrite bind_Ok.
  rewrite (gs_obj _ _ d) by (destruct t, u; lookm). rewrite bind_Ok.
  rewrite (gn_obj _ _ q) by (destruct t, u; lookm). rewrite (ju64_num _ H1), bind_Ok.
  rewrite (gs_obj _ _ (vote_variation_string v)) by (destruct t, u; lookm). rewrite bind_Ok.
  rewrite (gn_obj _ _ e) by (destruct t, u; lookm). rewrite (ju64_num _ H2), bind_Ok.
  rewrite (gs_obj _ _ n) by (destruct t, u; lookm). rewrite bind_Ok.
  rewrite (jidx_obj _ _ (selections_to_json (sort_by sd_seq l))) by (destruct t, u; lookm).
  rewrite bind_Ok, (selections_back l H4), bind_Ok.
  rewrite (jidx_obj _ _ (selections_to_json (sort_by sd_seq ph))) by (destruct t, u; lookm).
  rewrite bind_Ok, (selections_back ph H5), bind_Ok. cbv zeta. rewrite vote_variation_back.
  rewrite jpresent_jobj. destruct t as [t|]; cbn [has negb].
  - replace (jlast _ (s2b "ballot_title")) with (Some (wrapped_intl t)) by (symmetry; destruct u; lookm).
    change (match wrapped_intl t with JNull => None | _ => Some (wrapped_intl t) end) with (Some (wrapped_intl t)).
    unfold wrapped_intl at 1. unfold jobj at 1. cbv iota beta.
    rewrite (gn_obj _ _ a) by (destruct u; lookm). rewrite (ju64_num _ H3), bind_Ok.
    match goal with |- context [intl_of_json ?x] => change x with (wrapped_intl t) end.
    rewrite wrapped_throws. reflexivity.
  - replace (jlast _ (s2b "ballot_title")) with (@None json) by (symmetry; destruct u; lookm). reflexivity.
Qed.
Definition internal_back_value (m : internal_manifest) : internal_manifest :=
  {| im_units := map unit_back_value (im_units m);
     im_candidates := map (fun c => {| ca_id := ca_id c; ca_name := name_read (ca_name c); ca_party := ca_party c;
                                       ca_image := ca_image c; ca_writein := ca_writein c |}) (im_candidates m);
     im_contests := map contest_ph_back_value (im_get_contests m); im_styles := im_styles m; im_hash := im_hash m |}.
Lemma internal_back gp m : internal_in_range m = true ->
  internal_of_json gp (internal_to_json m) =
  if untitled m then if legible_q gp (im_hash m) then Ok (internal_back_value m) else Throw OutOfRange
  else Throw JsonError.
Proof.
  unfold internal_in_range. rewrite andb_true_iff. intros [H1 H2]. rewrite forallb_forall in H2.
  unfold internal_of_json, internal_to_json, hexq. keys. cbn [jitems].
  rewrite (mapM_map_ok unit_to_json unit_of_json unit_back_value) by (intros; apply unit_back). rewrite !bind_Ok. cbn [jitems].
  rewrite (mapM_map_ok candidate_to_json candidate_of_json _) by (intros; apply candidate_back). rewrite !bind_Ok.
  rewrite jitems_pushed.
  assert (C : mapM contest_ph_of_json (map contest_ph_to_json (im_get_contests m)) =
              if untitled m then Ok (map contest_ph_back_value (im_get_contests m)) else Throw JsonError).
  { unfold untitled. rewrite (forallb_perm _ _ _ (sort_perm cw_seq (im_contests m))). fold (im_get_contests m).
    apply (mapM_guarded (fun c => Ok (contest_ph_to_json c)) contest_ph_of_json).
    - rewrite (mapM_ext_ok _ contest_ph_to_json) by reflexivity. reflexivity.
    - intros c j Hc E. apply Ok_eq in E. subst j. apply contest_ph_back, H2, (sort_in cw_seq), Hc. }
  rewrite C, bind_guard. destruct (untitled m); [|reflexivity].
  rewrite !bind_Ok. cbn [jitems]. rewrite (mapM_back style_to_json style_of_json _ style_back), !bind_Ok.
  rewrite (rq_back gp _ H1), bind_guard. reflexivity.
Qed.
Lemma internal_back_read m : internal_read m (internal_back_value m).
Proof.
  unfold internal_read, internal_back_value.
  cbn [im_hash im_units im_candidates im_styles im_contests].
  repeat (split; [reflexivity|]).
  split; [apply Forall2_map_r; intros; reflexivity|].
  split; [apply Forall2_map_r; intros; reflexivity|].
  split; [reflexivity|].
  exists (im_get_contests m). split; [apply sort_perm|]. split; [apply sort_sorted|].
  apply Forall2_map_r. intros c _. unfold contest_ph_read, contest_ph_back_value. cbn.
  repeat (split; [reflexivity|]). split; apply relisted_same.
Qed.
