(** What a user expects of serialised objects, stated without the functions of
    [SerializeModel]: only the record types and JSON values are used. *)
From Coq Require Import String Permutation.
From Verif Require Import Base GroupModel ElgamalModel ChaumModel SortProofs ManifestModel BallotModel
  JsonModel EncryptModel.
Open Scope Z_scope.

(** ** Documents *)
(** A document has a member with the given name, at any depth *)
Inductive has_member (k : bytes) : json -> Prop :=
| hm_here l v : In (k, v) l -> has_member k (JObj l)
| hm_obj l k' v : In (k', v) l -> has_member k v -> has_member k (JObj l)
| hm_arr l v : In v l -> has_member k v -> has_member k (JArr l).

(** An encoding that reads back what it wrote (dump/parse, to_bson/from_bson,
    to_msgpack/from_msgpack) *)
Definition faithful (dump : json -> outcome bytes) (parse : bytes -> outcome json) : Prop :=
  forall j s, dump j = Ok s -> parse s = Ok j.

(** ** Nonces *)
Definition forget_selection (s : cselection) : cselection :=
  {| cs_id := cs_id s; cs_seq := cs_seq s; cs_desc := cs_desc s; cs_ct := cs_ct s;
     cs_placeholder := cs_placeholder s; cs_nonce := None; cs_hash := cs_hash s; cs_proof := cs_proof s |}.
Definition forget_contest (c : ccontest) : ccontest :=
  {| cc_id := cc_id c; cc_seq := cc_seq c; cc_desc := cc_desc c;
     cc_selections := map forget_selection (cc_selections c); cc_nonce := None; cc_acc := cc_acc c;
     cc_hash := cc_hash c; cc_proof := cc_proof c; cc_hashed := cc_hashed c |}.
(** The ballot without its nonces: what an observer may know *)
Definition forget_nonces (b : cballot) : cballot :=
  {| cb_id := cb_id b; cb_style := cb_style b; cb_manifest := cb_manifest b; cb_seed := cb_seed b;
     cb_contests := map forget_contest (cb_contests b); cb_code := cb_code b;
     cb_timestamp := cb_timestamp b; cb_nonce := None; cb_hash := cb_hash b |}.
(** Every nonce of a ballot *)
Definition all_nonces (b : cballot) : list (option Z) :=
  cb_nonce b :: flat_map (fun c => cc_nonce c :: map cs_nonce (cc_selections c)) (cb_contests b).

(** ** Machine ranges *)
Definition u64 (n : Z) : bool := (0 <=? n) && (n <? 2 ^ 64).
Definition in_q (v : Z) : bool := (0 <=? v) && (v <? 2 ^ 256).
Definition in_p (v : Z) : bool := (0 <=? v) && (v <? 2 ^ 4096).
Definition octets (l : bytes) : bool := forallb (fun b => (0 <=? b) && (b <? 256)) l.
Definition opt {A} (f : A -> bool) (o : option A) : bool := match o with Some a => f a | None => true end.
Definition has {A} (o : option A) : bool := match o with Some _ => true | None => false end.

Definition stored_ct (c : ciphertext) : bool := in_p (ct_pad c) && in_p (ct_data c).
Definition stored_dproof (p : dproof) : bool :=
  in_p (dp_a0 p) && in_p (dp_b0 p) && in_p (dp_a1 p) && in_p (dp_b1 p)
  && in_q (dp_c0 p) && in_q (dp_c1 p) && in_q (dp_c p) && in_q (dp_v0 p) && in_q (dp_v1 p).
Definition stored_cproof (p : cproof) : bool :=
  in_p (cp_a p) && in_p (cp_b p) && in_q (cp_c p) && in_q (cp_v p) && u64 (cp_const p).
Definition stored_hashed (h : hashed_ct) : bool :=
  in_p (hc_pad h) && octets (hc_data h) && octets (hc_mac h).
Definition stored_selection (s : cselection) : bool :=
  u64 (cs_seq s) && in_q (cs_desc s) && stored_ct (cs_ct s) && opt in_q (cs_nonce s) && in_q (cs_hash s)
  && opt stored_dproof (cs_proof s).
Definition stored_contest (c : ccontest) : bool :=
  u64 (cc_seq c) && in_q (cc_desc c) && forallb stored_selection (cc_selections c)
  && opt in_q (cc_nonce c) && stored_ct (cc_acc c) && in_q (cc_hash c) && opt stored_cproof (cc_proof c)
  && opt stored_hashed (cc_hashed c).
(** The fields fit the machine types that hold them: every object in memory does. *)
Definition stored_ballot (b : cballot) : bool :=
  in_q (cb_manifest b) && in_q (cb_seed b) && forallb stored_contest (cb_contests b)
  && in_q (cb_code b) && u64 (cb_timestamp b) && opt in_q (cb_nonce b) && in_q (cb_hash b).

(** ** Pointers *)
Definition complete_selection (wn : bool) (s : cselection) : bool :=
  has (cs_proof s) && (negb wn || has (cs_nonce s)).
Definition complete_contest (wn : bool) (c : ccontest) : bool :=
  forallb (complete_selection wn) (cc_selections c) && has (cc_proof c) && has (cc_hashed c)
  && (negb wn || has (cc_nonce c)).
(** No pointer that has to be written is null. *)
Definition complete_ballot (wn : bool) (b : cballot) : bool :=
  forallb (complete_contest wn) (cb_contests b) && (negb wn || has (cb_nonce b)).

(** ** Values that can be read back *)
Section Readable.
Context (gp : params).
Definition legible_q (v : Z) : bool := (0 <? v) && (v <=? gpQ gp).
Definition legible_p (v : Z) : bool := (0 <? v) && (v <=? gpP gp).
Definition some_bit (l : bytes) : bool := existsb (fun b => negb (b =? 0)) l.
Definition legible_ct (c : ciphertext) : bool := legible_p (ct_pad c) && legible_p (ct_data c).
Definition legible_dproof (p : dproof) : bool :=
  legible_p (dp_a0 p) && legible_p (dp_b0 p) && legible_p (dp_a1 p) && legible_p (dp_b1 p)
  && legible_q (dp_c0 p) && legible_q (dp_c1 p) && legible_q (dp_c p) && legible_q (dp_v0 p)
  && legible_q (dp_v1 p).
Definition legible_cproof (p : cproof) : bool :=
  legible_p (cp_a p) && legible_p (cp_b p) && legible_q (cp_c p) && legible_q (cp_v p).
Definition legible_hashed (h : hashed_ct) : bool :=
  legible_p (hc_pad h) && some_bit (hc_data h) && some_bit (hc_mac h).
Definition legible_nonce (wn : bool) (n : option Z) : bool := negb wn || opt legible_q n.
Definition legible_selection (wn : bool) (s : cselection) : bool :=
  legible_q (cs_desc s) && legible_ct (cs_ct s) && legible_nonce wn (cs_nonce s) && legible_q (cs_hash s)
  && opt legible_dproof (cs_proof s).
Definition legible_contest (wn : bool) (c : ccontest) : bool :=
  legible_q (cc_desc c) && forallb (legible_selection wn) (cc_selections c)
  && legible_nonce wn (cc_nonce c) && legible_ct (cc_acc c) && legible_q (cc_hash c)
  && opt legible_cproof (cc_proof c) && opt legible_hashed (cc_hashed c).
Definition legible_ballot (wn : bool) (b : cballot) : bool :=
  legible_q (cb_manifest b) && legible_q (cb_seed b) && forallb (legible_contest wn) (cb_contests b)
  && legible_q (cb_code b) && legible_nonce wn (cb_nonce b) && legible_q (cb_hash b).
End Readable.

(** ** What is read back *)
(** The same number without its leading zero bytes *)
Fixpoint trim (l : bytes) : bytes :=
  match l with
  | [] => []
  | b :: t => if b =? 0 then trim t else l
  end.
Definition trim_hashed (h : hashed_ct) : hashed_ct :=
  {| hc_pad := hc_pad h; hc_data := trim (hc_data h); hc_mac := trim (hc_mac h) |}.
Definition nonce_read (wn : bool) (n : option Z) : option Z := if wn then n else Some 0.
(** A list written in ascending order of [key], each element read back as [R] allows *)
Definition relisted {A} (key : A -> Z) (R : A -> A -> Prop) (l l' : list A) : Prop :=
  exists m, Permutation l m /\ ascending key m /\ Forall2 R m l'.
Definition selection_read (wn : bool) (s s' : cselection) : Prop :=
  s' = {| cs_id := cs_id s; cs_seq := cs_seq s; cs_desc := cs_desc s; cs_ct := cs_ct s;
          cs_placeholder := cs_placeholder s; cs_nonce := nonce_read wn (cs_nonce s);
          cs_hash := cs_hash s; cs_proof := cs_proof s |}.
Definition contest_read (wn : bool) (c c' : ccontest) : Prop :=
  cc_id c' = cc_id c /\ cc_seq c' = cc_seq c /\ cc_desc c' = cc_desc c
  /\ cc_nonce c' = nonce_read wn (cc_nonce c) /\ cc_acc c' = cc_acc c /\ cc_hash c' = cc_hash c
  /\ cc_proof c' = cc_proof c /\ cc_hashed c' = option_map trim_hashed (cc_hashed c)
  /\ relisted cs_seq (selection_read wn) (cc_selections c) (cc_selections c').
Definition ballot_read (wn : bool) (b b' : cballot) : Prop :=
  cb_id b' = cb_id b /\ cb_style b' = cb_style b /\ cb_manifest b' = cb_manifest b
  /\ cb_seed b' = cb_seed b /\ cb_code b' = cb_code b /\ cb_timestamp b' = cb_timestamp b
  /\ cb_nonce b' = nonce_read wn (cb_nonce b) /\ cb_hash b' = cb_hash b
  /\ relisted cc_seq (contest_read wn) (cb_contests b) (cb_contests b').
(** Nothing to reorder and no leading zero byte in the extended data *)
Definition tidy_contest (c : ccontest) : Prop :=
  ascending cs_seq (cc_selections c)
  /\ forall h, cc_hashed c = Some h -> hd 1 (hc_data h) <> 0 /\ hd 1 (hc_mac h) <> 0.
Definition tidy_ballot (b : cballot) : Prop :=
  ascending cc_seq (cb_contests b) /\ Forall tidy_contest (cb_contests b).

(** ** Manifests *)
Section Manifest.
Definition selection_same (s s' : selection) : Prop := s' = s.
(** The number of allowed votes is restored, except that 0 becomes the number of seats for
    one-of-m and n-of-m contests; primary party ids are lost. *)
Definition contest_described (c c' : contest) : Prop :=
  cd_id c' = cd_id c /\ cd_district c' = cd_district c /\ cd_seq c' = cd_seq c
  /\ cd_variation c' = cd_variation c /\ cd_elected c' = cd_elected c
  /\ cd_allowed c' = (if cd_allowed c =? 0
                      then match cd_variation c with VV_n_of_m | VV_one_of_m => cd_elected c | _ => 0 end
                      else cd_allowed c)
  /\ cd_name c' = cd_name c /\ cd_title c' = cd_title c /\ cd_subtitle c' = cd_subtitle c
  /\ cd_primary c' = []
  /\ relisted sd_seq selection_same (cd_selections c) (cd_selections c').
Definition no_contact (c : contact_info) : bool :=
  match cx_name c, cx_address c, cx_email c, cx_phone c with [], [], [], [] => true | _, _, _, _ => false end.
(** A contact without any entry is lost. *)
Definition unit_read (u u' : gp_unit) : Prop :=
  u' = {| gu_id := gu_id u; gu_name := gu_name u; gu_type := gu_type u;
          gu_contact := match gu_contact u with
                        | Some c => if no_contact c then None else Some c
                        | None => None
                        end |}.
(** A missing name becomes an empty one. *)
Definition name_read (n : option intl_text) : option intl_text :=
  Some (match n with Some t => t | None => [] end).
Definition party_read (p p' : party) : Prop :=
  p' = {| pa_id := pa_id p; pa_name := name_read (pa_name p); pa_abbrev := pa_abbrev p;
          pa_color := pa_color p; pa_logo := pa_logo p |}.
Definition candidate_read (c c' : candidate) : Prop :=
  c' = {| ca_id := ca_id c; ca_name := name_read (ca_name c); ca_party := ca_party c;
          ca_image := ca_image c; ca_writein := ca_writein c |}.
Definition empty_contact : contact_info :=
  {| cx_name := []; cx_address := []; cx_email := []; cx_phone := [] |}.
(** Fractions of seconds are lost, and the contact information if the manifest has no name. *)
Definition manifest_read (m m' : manifest) : Prop :=
  mf_scope m' = mf_scope m /\ mf_type m' = mf_type m
  /\ mf_start m' = Z.quot (mf_start m) 1000000000 * 1000000000
  /\ mf_end m' = Z.quot (mf_end m) 1000000000 * 1000000000
  /\ Forall2 unit_read (mf_units m) (mf_units m') /\ Forall2 party_read (mf_parties m) (mf_parties m')
  /\ Forall2 candidate_read (mf_candidates m) (mf_candidates m') /\ mf_styles m' = mf_styles m
  /\ mf_name m' = mf_name m
  /\ mf_contact m' = match mf_name m with
                     | None => None
                     | Some _ => Some (match mf_contact m with Some c => c | None => empty_contact end)
                     end
  /\ relisted cd_seq contest_described (mf_contests m) (mf_contests m').
Definition contest_u64 (c : contest) : bool :=
  u64 (cd_seq c) && u64 (cd_elected c) && u64 (cd_allowed c)
  && forallb (fun s => u64 (sd_seq s)) (cd_selections c).
Definition ticks (t : Z) : bool := (- 2 ^ 63 <=? t) && (t <? 2 ^ 63).
Definition manifest_in_range (m : manifest) : bool :=
  forallb contest_u64 (mf_contests m) && ticks (mf_start m) && ticks (mf_end m).

(** Manifests that survive with their hash: everything is listed in order and the optional
    parts are given. *)
Definition settled_contest (c : contest) : Prop :=
  ascending sd_seq (cd_selections c)
  /\ (cd_allowed c = 0 -> cd_elected c = 0 \/ (cd_variation c <> VV_n_of_m /\ cd_variation c <> VV_one_of_m)).
Definition settled (m : manifest) : Prop :=
  ascending cd_seq (mf_contests m) /\ Forall settled_contest (mf_contests m)
  /\ Forall (fun u => forall c, gu_contact u = Some c -> no_contact c = false) (mf_units m)
  /\ Forall (fun p => pa_name p <> None) (mf_parties m)
  /\ (mf_name m <> None -> mf_contact m <> None).
End Manifest.

(** ** Internal manifests *)
(** Contests of an internal manifest that the reader accepts: those without a title.  Their
    number of allowed votes is computed again. *)
Definition contest_ph_read (c c' : contest_ph) : Prop :=
  let b := cw_base c in let b' := cw_base c' in
  cd_id b' = cd_id b /\ cd_district b' = cd_district b /\ cd_seq b' = cd_seq b
  /\ cd_variation b' = cd_variation b /\ cd_elected b' = cd_elected b
  /\ cd_allowed b' = match cd_variation b with VV_n_of_m | VV_one_of_m => cd_elected b | _ => 0 end
  /\ cd_name b' = cd_name b /\ cd_title b' = None /\ cd_subtitle b' = None /\ cd_primary b' = []
  /\ relisted sd_seq selection_same (cd_selections b) (cd_selections b')
  /\ relisted sd_seq selection_same (cw_placeholders c) (cw_placeholders c').
Definition internal_read (m m' : internal_manifest) : Prop :=
  im_hash m' = im_hash m /\ Forall2 unit_read (im_units m) (im_units m')
  /\ Forall2 candidate_read (im_candidates m) (im_candidates m') /\ im_styles m' = im_styles m
  /\ relisted cw_seq contest_ph_read (im_contests m) (im_contests m').
Definition contest_ph_u64 (c : contest_ph) : bool :=
  contest_u64 (cw_base c) && forallb (fun s => u64 (sd_seq s)) (cw_placeholders c).
Definition internal_in_range (m : internal_manifest) : bool :=
  in_q (im_hash m) && forallb contest_ph_u64 (im_contests m).
Definition untitled (m : internal_manifest) : bool :=
  forallb (fun c => negb (has (cd_title (cw_base c)))) (im_contests m).

(** ** Contexts *)
Definition stored_context (c : context) (max : Z) : bool :=
  in_q (el_base c) && in_q (el_ext c) && in_q (el_commitment c) && in_q (el_manifest c) && in_p (el_pk c)
  && u64 (el_guardians c) && u64 (el_quorum c) && u64 max.
Definition legible_context (gp : params) (c : context) : bool :=
  legible_q gp (el_commitment c) && legible_q gp (el_manifest c) && legible_q gp (el_base c)
  && legible_q gp (el_ext c) && legible_p gp (el_pk c).
