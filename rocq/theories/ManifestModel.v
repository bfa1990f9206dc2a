(** src/electionguard/manifest.cpp *)
From Coq Require Import String.
From Verif Require Import Base GroupModel CodecModel HashModel SortModel.
Open Scope string_scope.
Open Scope list_scope.
Open Scope Z_scope.

(** ** Enumerations (manifest.hpp; the name tables of manifest.cpp:36-47, 71-101, 125-138).
    A value outside the enumeration (map.find returns end()) is not representable. *)
Inductive election_type :=
| ET_unknown | ET_general | ET_partisanPrimaryClosed | ET_partisanPrimaryOpen
| ET_primary | ET_runoff | ET_special | ET_other.
Definition election_type_string (t : election_type) : bytes :=
  match t with
  | ET_unknown => s2b "unknown" | ET_general => s2b "general"
  | ET_partisanPrimaryClosed => s2b "partisanPrimaryClosed"
  | ET_partisanPrimaryOpen => s2b "partisanPrimaryOpen"
  | ET_primary => s2b "primary" | ET_runoff => s2b "runoff"
  | ET_special => s2b "special" | ET_other => s2b "other"
  end.

Inductive reporting_unit_type :=
| RU_unknown | RU_ballotBatch | RU_ballotStyleArea | RU_borough | RU_city | RU_cityCouncil
| RU_combinedPrecinct | RU_congressional | RU_country | RU_county | RU_countyCouncil | RU_dropBox
| RU_judicial | RU_municipality | RU_polling_place | RU_precinct | RU_school | RU_special
| RU_splitPrecinct | RU_state | RU_stateHouse | RU_stateSenate | RU_township | RU_utility
| RU_village | RU_voteCenter | RU_ward | RU_water | RU_other.
Definition reporting_unit_string (t : reporting_unit_type) : bytes :=
  match t with
  | RU_unknown => s2b "unknown" | RU_ballotBatch => s2b "ballotBatch"
  | RU_ballotStyleArea => s2b "ballotStyleArea" | RU_borough => s2b "borough"
  | RU_city => s2b "city" | RU_cityCouncil => s2b "cityCouncil"
  | RU_combinedPrecinct => s2b "combinedPrecinct" | RU_congressional => s2b "congressional"
  | RU_country => s2b "country" | RU_county => s2b "county"
  | RU_countyCouncil => s2b "countyCouncil" | RU_dropBox => s2b "dropBox"
  | RU_judicial => s2b "judicial" | RU_municipality => s2b "municipality"
  | RU_polling_place => s2b "polling_place" | RU_precinct => s2b "precinct"
  | RU_school => s2b "school" | RU_special => s2b "special"
  | RU_splitPrecinct => s2b "splitPrecinct" | RU_state => s2b "state"
  | RU_stateHouse => s2b "stateHouse" | RU_stateSenate => s2b "stateSenate"
  | RU_township => s2b "township" | RU_utility => s2b "utility"
  | RU_village => s2b "village" | RU_voteCenter => s2b "voteCenter"
  | RU_ward => s2b "ward" | RU_water => s2b "water" | RU_other => s2b "other"
  end.

Inductive vote_variation :=
| VV_unknown | VV_one_of_m | VV_borda | VV_cumulative | VV_majority | VV_n_of_m
| VV_plurality | VV_proportional | VV_range | VV_rcv | VV_super_majority | VV_other.
Definition vote_variation_string (t : vote_variation) : bytes :=
  match t with
  | VV_unknown => s2b "unknown" | VV_one_of_m => s2b "one_of_m" | VV_borda => s2b "borda"
  | VV_cumulative => s2b "cumulative" | VV_majority => s2b "majority"
  | VV_n_of_m => s2b "n_of_m" | VV_plurality => s2b "plurality"
  | VV_proportional => s2b "proportional" | VV_range => s2b "range" | VV_rcv => s2b "rcv"
  | VV_super_majority => s2b "super_majority" | VV_other => s2b "other"
  end.

(** ** Records (the Impl structures); a pointer that may be null is an option. *)
(** manifest.cpp:163-186 *)
Record annotated_string := { an_annotation : bytes; an_value : bytes }.
(** 228-250 *)
Record language := { la_value : bytes; la_language : bytes }.
(** 292-322: InternationalizedText *)
Definition intl_text := list language.
(** 372-441 *)
Record contact_info := {
  cx_name : bytes; cx_address : list bytes;
  cx_email : list annotated_string; cx_phone : list annotated_string }.
(** 511-558 *)
Record gp_unit := {
  gu_id : bytes; gu_name : bytes; gu_type : reporting_unit_type; gu_contact : option contact_info }.
(** 607-651 *)
Record ballot_style := {
  bs_id : bytes; bs_units : list bytes; bs_parties : list bytes; bs_image : bytes }.
(** 697-753 *)
Record party := {
  pa_id : bytes; pa_name : option intl_text; pa_abbrev : bytes; pa_color : bytes; pa_logo : bytes }.
(** 804-877 *)
Record candidate := {
  ca_id : bytes; ca_name : option intl_text; ca_party : bytes; ca_image : bytes;
  ca_writein : bool }.
(** 937-962 *)
Record selection := { sd_id : bytes; sd_candidate : bytes; sd_seq : Z }.
(** 1008-1131 *)
Record contest := {
  cd_id : bytes; cd_district : bytes; cd_seq : Z; cd_variation : vote_variation;
  cd_elected : Z; cd_allowed : Z; cd_name : bytes;
  cd_title : option intl_text; cd_subtitle : option intl_text;
  cd_selections : list selection; cd_primary : list bytes }.
(** 1296-1315 ContestDescriptionWithPlaceholders: base and placeholders *)
Record contest_ph := { cw_base : contest; cw_placeholders : list selection }.
(** 1452-1498; dates are system_clock ticks (nanoseconds). *)
Record manifest := {
  mf_scope : bytes; mf_type : election_type; mf_start : Z; mf_end : Z;
  mf_units : list gp_unit; mf_parties : list party; mf_candidates : list candidate;
  mf_contests : list contest; mf_styles : list ballot_style;
  mf_name : option intl_text; mf_contact : option contact_info }.
(** 1830-1848 *)
Record internal_manifest := {
  im_units : list gp_unit; im_candidates : list candidate;
  im_contests : list contest_ph; im_styles : list ballot_style; im_hash : Z }.

(** 1012-1034: constructor without votesAllowed. *)
Definition default_allowed (v : vote_variation) (elected : Z) : Z :=
  match v with VV_n_of_m | VV_one_of_m => elected | _ => 0 end.

(** 1088-1105 ContestDescription::Impl::clone, used by the copy constructor
    (1136-1139): the primary party ids are dropped; without a title votesAllowed
    and the subtitle are dropped too; with a title the subtitle pointer is
    dereferenced unchecked. *)
Definition contest_clone (c : contest) : outcome contest :=
  match cd_title c with
  | Some t =>
      match cd_subtitle c with
      | Some s =>
          Ok {| cd_id := cd_id c; cd_district := cd_district c; cd_seq := cd_seq c;
                cd_variation := cd_variation c; cd_elected := cd_elected c;
                cd_allowed := cd_allowed c; cd_name := cd_name c;
                cd_title := Some t; cd_subtitle := Some s;
                cd_selections := cd_selections c; cd_primary := [] |}
      | None => UB
      end
  | None =>
      Ok {| cd_id := cd_id c; cd_district := cd_district c; cd_seq := cd_seq c;
            cd_variation := cd_variation c; cd_elected := cd_elected c;
            cd_allowed := default_allowed (cd_variation c) (cd_elected c); cd_name := cd_name c;
            cd_title := None; cd_subtitle := None;
            cd_selections := cd_selections c; cd_primary := [] |}
  end.

(** 731-740 Party::Impl::clone: without a name the clone gets an empty one. *)
Definition party_clone (p : party) : party :=
  match pa_name p with
  | Some _ => p
  | None => {| pa_id := pa_id p; pa_name := Some []; pa_abbrev := pa_abbrev p;
               pa_color := pa_color p; pa_logo := pa_logo p |}
  end.

(** ** Hashes *)
Section ManifestHash.
Context (gp : params) (sha : bytes -> Z).
(** gmtime_r and put_time of a time_t in the format %FT%TZ (convert.cpp:23-45). *)
Context (fmt : Z -> bytes).
Notation hash := (hash_elems gp sha).

(** convert.cpp:26-45 timePointToIsoString: to_time_t drops the sub-second part. *)
Definition iso (t : Z) : bytes := fmt (Z.quot t 1000000000).

(** 179-184 *)
Definition annotated_hash (a : annotated_string) : Z := hash [HStr (an_annotation a); HStr (an_value a)].
(** 244-249 *)
Definition language_hash (l : language) : Z := hash [HStr (la_value l); HStr (la_language l)].
(** 309-320: hash_elems of one vector item *)
Definition intl_hash (t : intl_text) : Z := hash [HVec (map (fun l => HHash (language_hash l)) t)].
(** 422-439 *)
Definition contact_hash (c : contact_info) : Z :=
  hash [HStr (cx_name c); HVec (map HStr (cx_address c));
        HVec (map (fun a => HHash (annotated_hash a)) (cx_email c));
        HVec (map (fun a => HHash (annotated_hash a)) (cx_phone c))].
(** A possibly null CryptoHashable pointer. *)
Definition hopt {A} (h : A -> Z) (o : option A) : hitem :=
  match o with Some a => HHash (h a) | None => HNull end.
(** 545-557 *)
Definition unit_hash (u : gp_unit) : Z :=
  hash [HStr (gu_id u); HStr (gu_name u); HStr (reporting_unit_string (gu_type u));
        hopt contact_hash (gu_contact u)].
(** 645-650 *)
Definition style_hash (s : ballot_style) : Z :=
  hash [HStr (bs_id s); HVec (map HStr (bs_units s)); HVec (map HStr (bs_parties s));
        HStr (bs_image s)].
(** 742-752 *)
Definition party_hash (p : party) : Z :=
  hash [HStr (pa_id p); hopt intl_hash (pa_name p); HStr (pa_abbrev p); HStr (pa_color p);
        HStr (pa_logo p)].
(** 867-876 *)
Definition candidate_hash (c : candidate) : Z :=
  hash [HStr (ca_id c); hopt intl_hash (ca_name c); HStr (ca_party c); HStr (ca_image c)].
(** 956-961 *)
Definition selection_hash (s : selection) : Z :=
  hash [HStr (sd_id s); HU64 (sd_seq s); HStr (sd_candidate s)].
(** 1107-1130: selections in stored order; a title without subtitle is
    dereferenced. *)
Definition contest_items (c : contest) (t s : hitem) : list hitem :=
  [HStr (cd_id c); HU64 (cd_seq c); HStr (cd_district c);
   HStr (vote_variation_string (cd_variation c)); t; s; HStr (cd_name c);
   HU64 (cd_elected c); HU64 (cd_allowed c);
   HVec (map (fun x => HHash (selection_hash x)) (cd_selections c))].
Definition contest_hash (c : contest) : outcome Z :=
  match cd_title c with
  | Some t =>
      match cd_subtitle c with
      | Some s => Ok (hash (contest_items c (HHash (intl_hash t)) (HHash (intl_hash s))))
      | None => UB
      end
  | None => Ok (hash (contest_items c HNull HNull))
  end.
(** 1500-1547: candidates are not hashed; contests in stored order; a name
    without contact information is dereferenced. *)
Definition manifest_items (m : manifest) (n c : hitem) (contests : list Z) : list hitem :=
  [HStr (mf_scope m); HStr (election_type_string (mf_type m)); HStr (iso (mf_start m));
   HStr (iso (mf_end m)); n; c;
   HVec (map (fun u => HHash (unit_hash u)) (mf_units m));
   HVec (map (fun p => HHash (party_hash p)) (mf_parties m));
   HVec (map HHash contests);
   HVec (map (fun s => HHash (style_hash s)) (mf_styles m))].
Definition manifest_hash (m : manifest) : outcome Z :=
  do cs <- mapM contest_hash (mf_contests m);
  match mf_name m with
  | None => Ok (hash (manifest_items m HNull HNull cs))
  | Some n =>
      match mf_contact m with
      | None => UB
      | Some c => Ok (hash (manifest_items m (HHash (intl_hash n)) (HHash (contact_hash c)) cs))
      end
  end.
End ManifestHash.

(** ** Getters *)
(** 1220-1235 *)
Definition get_selections (c : contest) : list selection := sort_by sd_seq (cd_selections c).
(** 1396-1412 *)
Definition get_placeholders (c : contest_ph) : list selection := sort_by sd_seq (cw_placeholders c).
(** 1621-1637 *)
Definition get_contests (m : manifest) : list contest := sort_by cd_seq (mf_contests m).
(** 1897-1912 *)
Definition cw_seq (c : contest_ph) : Z := cd_seq (cw_base c).
Definition im_get_contests (m : internal_manifest) : list contest_ph := sort_by cw_seq (im_contests m).
(** 1416-1424 *)
Definition is_placeholder (c : contest_ph) (s : selection) : bool :=
  existsb (fun p => bytes_eqb (sd_id s) (sd_id p)) (cw_placeholders c).
(** 1426-1441 *)
Definition selection_for (c : contest_ph) (id : bytes) : outcome selection :=
  match find (fun s => bytes_eqb id (sd_id s)) (get_selections (cw_base c)) with
  | Some s => Ok s
  | None =>
      match find (fun s => bytes_eqb id (sd_id s)) (get_placeholders c) with
      | Some s => Ok s
      | None => Throw OutOfRange
      end
  end.

(** ** Validation *)
(** std::set: insertion of an element already present changes nothing. *)
Definition set_insert {A} (eqb : A -> A -> bool) (s : list A) (x : A) : list A :=
  if existsb (eqb x) s then s else x :: s.
Definition set_mem {A} (eqb : A -> A -> bool) (s : list A) (x : A) : bool := existsb (eqb x) s.
(** "if (!id.empty()) set.insert(id)" *)
Definition set_insert_id (s : list bytes) (x : bytes) : list bytes :=
  match x with [] => s | _ => set_insert bytes_eqb s x end.
Definition id_set (l : list bytes) : list bytes := fold_left set_insert_id l [].
Definition seq_set (l : list Z) : list Z := fold_left (set_insert Z.eqb) l [].
Definition size_eq {A B} (s : list A) (l : list B) : bool := (length s =? length l)%nat.

(** 1241-1289 ContestDescription::isValid *)
Definition contest_valid (c : contest) : bool :=
  let ss := get_selections c in
  (cd_elected c <=? Z.of_nat (length (cd_selections c)))
  && ((cd_allowed c =? 0) || (cd_elected c <=? cd_allowed c))
  && size_eq (id_set (map sd_candidate ss)) (cd_selections c)
  && size_eq (id_set (map sd_id ss)) (cd_selections c)
  && size_eq (seq_set (map sd_seq ss)) (cd_selections c).

(** 1678-1693: the loop over ballot styles, which stops at a style without units. *)
Fixpoint styles_loop (units : list bytes) (l : list ballot_style) (ids : list bytes) (ok : bool)
  : list bytes * bool :=
  match l with
  | [] => (ids, ok)
  | s :: t =>
      let ids := set_insert_id ids (bs_id s) in
      match bs_units s with
      | [] => (ids, false)
      | us => styles_loop units t ids
                (fold_left (fun b u => b && set_mem bytes_eqb units u) us ok)
      end
  end.

(** 1656-1791 Manifest::isValid *)
Definition manifest_valid (m : manifest) : bool :=
  let units := id_set (map gu_id (mf_units m)) in
  let units_ok := size_eq units (mf_units m) in
  let '(style_ids, styles_units_ok) := styles_loop units (mf_styles m) [] true in
  let styles_ok := size_eq style_ids (mf_styles m) && styles_units_ok in
  let parties := id_set (map pa_id (mf_parties m)) in
  let parties_ok := size_eq parties (mf_parties m) in
  let candidates := id_set (map ca_id (mf_candidates m)) in
  let cand_party_ok :=
    forallb (fun c => match ca_party c with [] => true | p => set_mem bytes_eqb parties p end)
            (mf_candidates m) in
  let candidates_ok := size_eq candidates (mf_candidates m) && cand_party_ok in
  let cs := get_contests m in
  let contests_ok :=
    size_eq (id_set (map cd_id cs)) (mf_contests m)
    && size_eq (seq_set (map cd_seq cs)) (mf_contests m)
    && forallb contest_valid cs
    && forallb (fun c => match cd_district c with [] => false
                         | d => set_mem bytes_eqb units d end) cs in
  units_ok && styles_ok && parties_ok && candidates_ok && contests_ok.

(** ** Internal manifest *)
(** 2057-2063 generatePlaceholderSelectionFrom *)
Definition placeholder_for (c : contest) (seq : Z) : selection :=
  let id := cd_id c ++ s2b "-" ++ to_string_u64 seq in
  {| sd_id := id ++ s2b "-placeholder"; sd_candidate := id ++ s2b "-candidate"; sd_seq := seq |}.

(** 2001-2007: the running maximum is a uint32_t. *)
Definition max_seq_step (mx : Z) (s : selection) : Z :=
  if mx <? sd_seq s then sd_seq s mod 2 ^ 32 else mx.
Definition max_seq (c : contest) : Z := fold_left max_seq_step (get_selections c) 0.
(** 2009: uint32_t increment *)
Definition first_placeholder_seq (c : contest) : Z := (max_seq c + 1) mod 2 ^ 32.

(** 2011-2015: numberElected placeholders; the sum is a uint64_t.  The reserve
    of 2000 can throw for huge numbers of seats, which is not modelled. *)
Definition placeholders_of (c : contest) : list selection :=
  map (fun i => placeholder_for c ((first_placeholder_seq c + Z.of_nat i) mod W64))
      (seq 0 (Z.to_nat (cd_elected c))).

(** 1992-2021 generateContestsWithPlaceholders: the copy is made by the
    constructor at 1330-1335, i.e. by ContestDescription's copy constructor. *)
Definition with_placeholders (c : contest) : outcome contest_ph :=
  do b <- contest_clone c;
  Ok {| cw_base := b; cw_placeholders := placeholders_of c |}.

(** 1863-1868 InternalManifest(const Manifest &): units, candidates and styles
    are copied field by field (2023-2055). *)
Definition internal_manifest_of (gp : params) (sha : bytes -> Z) (fmt : Z -> bytes) (m : manifest)
  : outcome internal_manifest :=
  do cs <- mapM with_placeholders (get_contests m);
  do h <- manifest_hash gp sha fmt m;
  Ok {| im_units := mf_units m; im_candidates := mf_candidates m; im_contests := cs;
        im_styles := mf_styles m; im_hash := h |}.

(** 1925-1933 getBallotStyle: first match or null *)
Definition get_style (m : internal_manifest) (id : bytes) : option ballot_style :=
  find (fun s => bytes_eqb (bs_id s) id) (im_styles m).

(** 1935-1962 getContestsFor: one entry per matching unit of the style *)
Definition contests_for (m : internal_manifest) (id : bytes) : outcome (list contest_ph) :=
  match get_style m id with
  | None => Throw RuntimeError
  | Some s =>
      match bs_units s with
      | [] => Throw RuntimeError
      | us =>
          Ok (sort_by cw_seq
                (flat_map (fun c => flat_map (fun u => if bytes_eqb (cd_district (cw_base c)) u
                                                       then [c] else []) us)
                          (im_contests m)))
      end
  end.
