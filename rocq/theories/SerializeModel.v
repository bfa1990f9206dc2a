(** src/electionguard/serialize.hpp: objects to JSON values and back.  The texts and binary
    encodings themselves (dump, parse, to_bson, ... of nlohmann::json) are parameters. *)
From Coq Require Import String.
From Verif Require Import Base GroupModel CodecModel HashModel ElgamalModel ChaumModel SortModel
  ManifestModel BallotModel JsonModel EncryptModel.
Open Scope string_scope.
Open Scope list_scope.
Open Scope Z_scope.

(** ** nlohmann::json accesses *)
(** A member of an object, if there is one *)
Fixpoint jfind (l : list (bytes * json)) (k : bytes) : option json :=
  match l with
  | [] => None
  | (k', v) :: t => if bytes_eqb k k' then Some v else jfind t k
  end.
(** operator[] of a non-const value: a missing member is inserted as null, null becomes an
    object.  The insertions have no effect on later reads and are left out. *)
Definition jidx (j : json) (k : bytes) : outcome json :=
  match j with
  | JNull => Ok JNull
  | JObj l => Ok (match jfind l k with Some v => v | None => JNull end)
  | _ => Throw JsonError
  end.
(** operator[] of a const value: a missing member is undefined behaviour, a value that is not
    an object throws. *)
Definition jcidx (j : json) (k : bytes) : outcome json :=
  match j with
  | JObj l => match jfind l k with Some v => Ok v | None => UB end
  | _ => Throw JsonError
  end.
(** j.contains(k) && !j[k].is_null(), with the member *)
Definition jpresent (j : json) (k : bytes) : option json :=
  match j with
  | JObj l => match jfind l k with Some JNull => None | r => r end
  | _ => None
  end.
(** get<string>, get<bool>, get<uint64_t>; numbers are integers here (floating point values
    are not representable); a boolean counts as a number, a negative number wraps. *)
Definition jstring (j : json) : outcome bytes :=
  match j with JStr s => Ok s | _ => Throw JsonError end.
Definition jbool (j : json) : outcome bool :=
  match j with JBool b => Ok b | _ => Throw JsonError end.
Definition ju64 (j : json) : outcome Z :=
  match j with JNum n => Ok (n mod W64) | JBool b => Ok (Z.b2z b) | _ => Throw JsonError end.
(** for (auto &i : j): nothing for null, the elements of an array, the values of an object,
    any other value itself *)
Definition jitems (j : json) : list json :=
  match j with
  | JNull => []
  | JArr l => l
  | JObj l => map snd l
  | _ => [j]
  end.
(** json x; followed by push_back of every element: null if there was none. *)
Definition jpushed (l : list json) : json := match l with [] => JNull | _ => JArr l end.
(** An object made from an initializer list or by a series of x[k] = v with distinct keys. *)
Definition jobj (l : list (bytes * json)) : json :=
  JObj (fold_left (fun m kv => members_set m (fst kv) (snd kv)) l []).
(** json x = {}; followed by such a series: null if there was none. *)
Definition jobj0 (l : list (bytes * json)) : json := match l with [] => JNull | _ => jobj l end.

(** Shorthands: j["k"].get<string>() of non-const and const values *)
Definition gs (j : json) (k : string) : outcome bytes := do v <- jidx j (s2b k); jstring v.
Definition gn (j : json) (k : string) : outcome Z := do v <- jidx j (s2b k); ju64 v.
Definition gb (j : json) (k : string) : outcome bool := do v <- jidx j (s2b k); jbool v.
Definition cgs (j : json) (k : string) : outcome bytes := do v <- jcidx j (s2b k); jstring v.
Definition cgn (j : json) (k : string) : outcome Z := do v <- jcidx j (s2b k); ju64 v.
(** A member that is written only if the string is not empty *)
Definition opt_str (k : string) (v : bytes) : list (bytes * json) :=
  match v with [] => [] | _ => [(s2b k, JStr v)] end.
(** j.contains(k) && !j[k].is_null() ? j[k].get<string>() : "" *)
Definition get_opt_str (j : json) (k : string) : outcome bytes :=
  match jpresent j (s2b k) with Some v => jstring v | None => Ok [] end.
(** *pointer *)
Definition deref {A} (o : option A) : outcome A := match o with Some a => Ok a | None => UB end.

(** ** Plaintext ballots *)
(** serialize.hpp:850-853 *)
Definition pselection_to_json (s : pselection) : json :=
  jobj [(s2b "object_id", JStr (ps_id s)); (s2b "vote", JNum (ps_vote s));
        (s2b "is_placeholder_selection", JBool (ps_placeholder s));
        (s2b "write_in", JStr (ps_writein s))].
(** 847-859 *)
Definition pcontest_to_json (c : pcontest) : json :=
  jobj [(s2b "object_id", JStr (pc_id c));
        (s2b "ballot_selections", jpushed (map pselection_to_json (pc_selections c)))].
(** 843-866 *)
Definition pballot_to_json (b : pballot) : json :=
  jobj [(s2b "object_id", JStr (pb_id b)); (s2b "style_id", JStr (pb_style b));
        (s2b "contests", jpushed (map pcontest_to_json (pb_contests b)))].
(** 883-901 *)
Definition pselection_of_json (j : json) : outcome pselection :=
  do i <- gs j "object_id";
  do v <- gn j "vote";
  do p <- match jpresent j (s2b "is_placeholder_selection") with Some x => jbool x | None => Ok false end;
  do w <- get_opt_str j "write_in";
  Ok {| ps_id := i; ps_vote := v; ps_placeholder := p; ps_writein := w |}.
(** 877-905 *)
Definition pcontest_of_json (j : json) : outcome pcontest :=
  do i <- gs j "object_id";
  do l <- jidx j (s2b "ballot_selections");
  do ss <- mapM pselection_of_json (jitems l);
  Ok {| pc_id := i; pc_selections := ss |}.
(** 867-909 *)
Definition pballot_of_json (j : json) : outcome pballot :=
  do i <- gs j "object_id";
  do y <- gs j "style_id";
  do l <- jidx j (s2b "contests");
  do cs <- mapM pcontest_of_json (jitems l);
  Ok {| pb_id := i; pb_style := y; pb_contests := cs |}.

(** ** Devices: 940-962 *)
Definition device_to_json (d : device) : json :=
  jobj [(s2b "device_id", JNum (dv_device d)); (s2b "session_id", JNum (dv_session d));
        (s2b "launch_code", JNum (dv_launch d)); (s2b "location", JStr (dv_location d))].
Definition device_of_json (j : json) : outcome device :=
  do d <- gn j "device_id"; do s <- gn j "session_id"; do c <- gn j "launch_code";
  do l <- gs j "location";
  Ok {| dv_device := d; dv_session := s; dv_launch := c; dv_location := l |}.

(** ** Compact ballots *)
(** enum class BallotBoxState (ballot.hpp:21-35) is written as its number. *)
Definition state_num (s : box_state) : Z :=
  match s with BS_cast => 1 | BS_spoiled => 2 | BS_unknown => 999 end.
(** BallotBoxState(n): other numbers give a value outside the enumeration, which has no
    counterpart here and is reported as [UB]. *)
Definition state_of_num (n : Z) : outcome box_state :=
  if n =? 1 then Ok BS_cast else if n =? 2 then Ok BS_spoiled
  else if n =? 999 then Ok BS_unknown else UB.
(** 985-1003 *)
Definition compact_plain_to_json (b : compact_plain) : json :=
  jobj [(s2b "object_id", JStr (cpt_id b)); (s2b "style_id", JStr (cpt_style b));
        (s2b "selections", jpushed (map JNum (cpt_votes b)));
        (s2b "writeins", jpushed (map JStr (cpt_writeins b)))].
(** The implicit conversion of json to vector<uint64_t> (1025) *)
Definition ju64_vector (j : json) : outcome (list Z) :=
  match j with JArr l => mapM ju64 l | _ => Throw JsonError end.
Section Compact.
(** json::dump *)
Context (jdump : json -> outcome bytes).
(** 1004-1026: the vector [votes] is filled and not used; the write-ins are dumped. *)
Definition compact_plain_of_json (j : json) : outcome compact_plain :=
  do i <- gs j "object_id";
  do y <- gs j "style_id";
  do ss <- jidx j (s2b "selections");
  do ws <- jidx j (s2b "writeins");
  do _ <- mapM ju64 (jitems ss);
  do writeins <- mapM jdump (jitems ws);
  do votes <- ju64_vector ss;
  Ok {| cpt_id := i; cpt_style := y; cpt_votes := votes; cpt_writeins := writeins |}.
End Compact.

Section Elements.
Context (gp : params).
Definition hexq (v : Z) : json := JStr (to_hex_q v).
Definition hexp (v : Z) : json := JStr (to_hex_p v).
(** ElementModQ::fromHex and ElementModP::fromHex of a string already read *)
Definition rq (s : bytes) : outcome Z := from_hex_q gp s false.
Definition rp (s : bytes) : outcome Z := from_hex_p gp s false.

(** 1401-1413 *)
Definition compact_cipher_to_json (c : compact_cipher) : json :=
  jobj [(s2b "plaintext", compact_plain_to_json (cct_plain c)); (s2b "code_seed", hexq (cct_seed c));
        (s2b "code", hexq (cct_code c)); (s2b "nonce", hexq (cct_nonce c));
        (s2b "timestamp", JNum (cct_timestamp c)); (s2b "ballot_box_state", JNum (state_num (cct_state c)))].
(** 1414-1429 *)
Definition compact_cipher_of_json (jdump : json -> outcome bytes) (j : json) : outcome compact_cipher :=
  do cs <- gs j "code_seed";
  do bc <- gs j "code";
  do nc <- gs j "nonce";
  do t <- gn j "timestamp";
  do st <- gn j "ballot_box_state";
  do state <- state_of_num st;
  do pj <- jidx j (s2b "plaintext");
  do p <- compact_plain_of_json jdump pj;
  do seed <- rq cs; do code <- rq bc; do nonce <- rq nc;
  Ok {| cct_plain := p; cct_state := state; cct_seed := seed; cct_code := code;
        cct_timestamp := t; cct_nonce := nonce |}.

(** ** Encryption contexts *)
(** election.cpp:34-97 with the members that [context] leaves out: the configuration
    (election.hpp:22-49) and the extended data (an unordered_map, here any list with distinct
    keys). *)
Record full_context := {
  fc_context : context; fc_overvotes : bool; fc_max_ballots : Z; fc_extended : list (bytes * bytes) }.
(** 748-772 *)
Definition context_to_json (x : full_context) : json :=
  let c := fc_context x in
  jobj ([(s2b "crypto_base_hash", hexq (el_base c)); (s2b "crypto_extended_base_hash", hexq (el_ext c));
         (s2b "commitment_hash", hexq (el_commitment c)); (s2b "manifest_hash", hexq (el_manifest c));
         (s2b "elgamal_public_key", hexp (el_pk c)); (s2b "number_of_guardians", JNum (el_guardians c));
         (s2b "quorum", JNum (el_quorum c));
         (s2b "configuration", jobj [(s2b "allow_overvotes", JBool (fc_overvotes x));
                                     (s2b "max_votes", JNum (fc_max_ballots x))])]
        ++ match fc_extended x with
           | [] => []
           | l => [(s2b "extended_data", jobj (map (fun kv => (fst kv, JStr (snd kv))) l))]
           end).
(** The pairs of json::items(): for an array the keys are positions, which the writer never
    produces and this model leaves out; no items for other values. *)
Definition jpairs (j : json) : outcome (list (bytes * json)) :=
  match j with JObj l => Ok l | JNull => Ok [] | _ => Throw JsonError end.
(** 773-817 *)
Definition context_of_json (j : json) : outcome full_context :=
  do bh <- gs j "crypto_base_hash";
  do eh <- gs j "crypto_extended_base_hash";
  do ch <- gs j "commitment_hash";
  do mh <- gs j "manifest_hash";
  do pk <- gs j "elgamal_public_key";
  do n <- gn j "number_of_guardians";
  do k <- gn j "quorum";
  do cfg <- match jpresent j (s2b "configuration") with
            | Some c => do o <- gb c "allow_overvotes"; do m <- gn c "max_votes"; Ok (o, m)
            | None => Ok (true, 1000000)
            end;
  do commitment <- rq ch; do manifest <- rq mh; do base <- rq bh; do ext <- rq eh; do key <- rp pk;
  do data <- match jpresent j (s2b "extended_data") with
             | Some d => do l <- jpairs d;
                         mapM (fun kv => do s <- jstring (snd kv); Ok (fst kv, s)) l
             | None => Ok []
             end;
  Ok {| fc_context := {| el_guardians := n; el_quorum := k; el_pk := key; el_commitment := commitment;
                         el_manifest := manifest; el_base := base; el_ext := ext |};
        fc_overvotes := fst cfg; fc_max_ballots := snd cfg; fc_extended := data |}.

(** ** Ciphertext ballots *)
(** 1067-1069 and 1098-1100 *)
Definition ct_to_json (c : ciphertext) : json :=
  jobj [(s2b "pad", hexp (ct_pad c)); (s2b "data", hexp (ct_data c))].
(** 1071-1081 *)
Definition dproof_to_json (p : dproof) : json :=
  jobj [(s2b "proof_zero_pad", hexp (dp_a0 p)); (s2b "proof_zero_data", hexp (dp_b0 p));
        (s2b "proof_one_pad", hexp (dp_a1 p)); (s2b "proof_one_data", hexp (dp_b1 p));
        (s2b "proof_zero_challenge", hexq (dp_c0 p)); (s2b "proof_one_challenge", hexq (dp_c1 p));
        (s2b "challenge", hexq (dp_c p));
        (s2b "proof_zero_response", hexq (dp_v0 p)); (s2b "proof_one_response", hexq (dp_v1 p))].
(** 1103-1109 *)
Definition cproof_to_json (p : cproof) : json :=
  jobj [(s2b "pad", hexp (cp_a p)); (s2b "data", hexp (cp_b p)); (s2b "challenge", hexq (cp_c p));
        (s2b "response", hexq (cp_v p)); (s2b "constant", JNum (cp_const p))].
(** 1111-1115 *)
Definition hashed_to_json (h : hashed_ct) : json :=
  jobj [(s2b "pad", hexp (hc_pad h)); (s2b "data", JStr (bytes_to_hex (hc_data h)));
        (s2b "mac", JStr (bytes_to_hex (hc_mac h)))].
(** The member "nonce", written only with nonces: 1092-1094, 1126-1128, 1142-1144 *)
Definition nonce_member (with_nonces : bool) (n : option Z) : outcome (list (bytes * json)) :=
  if with_nonces then do v <- deref n; Ok [(s2b "nonce", hexq v)] else Ok [].
(** 1067-1095 *)
Definition cselection_to_json (with_nonces : bool) (s : cselection) : outcome json :=
  do p <- deref (cs_proof s);
  do n <- nonce_member with_nonces (cs_nonce s);
  Ok (jobj ([(s2b "object_id", JStr (cs_id s)); (s2b "sequence_order", JNum (cs_seq s));
             (s2b "description_hash", hexq (cs_desc s)); (s2b "ciphertext", ct_to_json (cs_ct s));
             (s2b "is_placeholder_selection", JBool (cs_placeholder s));
             (s2b "crypto_hash", hexq (cs_hash s)); (s2b "proof", dproof_to_json p)] ++ n)).
(** 1065-1130 *)
Definition ccontest_to_json (with_nonces : bool) (c : ccontest) : outcome json :=
  do ss <- mapM (cselection_to_json with_nonces) (cc_sorted c);
  do p <- deref (cc_proof c);
  do e <- deref (cc_hashed c);
  do n <- nonce_member with_nonces (cc_nonce c);
  Ok (jobj ([(s2b "object_id", JStr (cc_id c)); (s2b "sequence_order", JNum (cc_seq c));
             (s2b "description_hash", hexq (cc_desc c)); (s2b "ballot_selections", jpushed ss);
             (s2b "ciphertext_accumulation", ct_to_json (cc_acc c));
             (s2b "crypto_hash", hexq (cc_hash c)); (s2b "proof", cproof_to_json p);
             (s2b "extended_data", hashed_to_json e)] ++ n)).
(** 1060-1146 *)
Definition cballot_to_json (with_nonces : bool) (b : cballot) : outcome json :=
  do cs <- mapM (ccontest_to_json with_nonces) (cb_sorted b);
  do n <- nonce_member with_nonces (cb_nonce b);
  Ok (jobj ([(s2b "object_id", JStr (cb_id b)); (s2b "style_id", JStr (cb_style b));
             (s2b "manifest_hash", hexq (cb_manifest b)); (s2b "code_seed", hexq (cb_seed b));
             (s2b "contests", jpushed cs); (s2b "code", hexq (cb_code b));
             (s2b "timestamp", JNum (cb_timestamp b)); (s2b "crypto_hash", hexq (cb_hash b))] ++ n)).

(** Reading.  Where C++ leaves the order of evaluation of arguments open, the order of the
    text is taken; it only decides which of several errors is reported. *)
(** j["nonce"].is_null() ? "" : j["nonce"].get<string>(), then zero if empty *)
Definition read_nonce_text (j : json) : outcome bytes :=
  do v <- jidx j (s2b "nonce"); match v with JNull => Ok [] | _ => jstring v end.
Definition nonce_of_text (s : bytes) : outcome Z := match s with [] => Ok 0 | _ => rq s end.
(** 1220-1226 and 1168-1175 *)
Definition ct_of_json (j : json) : outcome ciphertext :=
  do a <- gs j "pad"; do b <- gs j "data"; do pad <- rp a; do data <- rp b;
  Ok {| ct_pad := pad; ct_data := data |}.
(** 1228-1257 *)
Definition dproof_of_json (j : json) : outcome dproof :=
  do a0 <- gs j "proof_zero_pad"; do b0 <- gs j "proof_zero_data";
  do a1 <- gs j "proof_one_pad"; do b1 <- gs j "proof_one_data";
  do c0 <- gs j "proof_zero_challenge"; do c1 <- gs j "proof_one_challenge";
  do c <- gs j "challenge"; do v0 <- gs j "proof_zero_response"; do v1 <- gs j "proof_one_response";
  do a0' <- rp a0; do b0' <- rp b0; do a1' <- rp a1; do b1' <- rp b1;
  do c0' <- rq c0; do c1' <- rq c1; do c' <- rq c; do v0' <- rq v0; do v1' <- rq v1;
  Ok {| dp_a0 := a0'; dp_b0 := b0'; dp_a1 := a1'; dp_b1 := b1'; dp_c0 := c0'; dp_c1 := c1';
        dp_c := c'; dp_v0 := v0'; dp_v1 := v1' |}.
(** 1192-1203 *)
Definition cproof_of_json (j : json) : outcome cproof :=
  do a <- gs j "pad"; do b <- gs j "data"; do c <- gs j "challenge"; do v <- gs j "response";
  do n <- gn j "constant";
  do a' <- rp a; do b' <- rp b; do c' <- rq c; do v' <- rq v;
  Ok {| cp_a := a'; cp_b := b'; cp_c := c'; cp_v := v'; cp_const := n |}.
(** 1178-1190 *)
Definition hashed_of_json (j : json) : outcome hashed_ct :=
  do p <- gs j "pad"; do d <- gs j "data"; do m <- gs j "mac";
  do d' <- sanitize_hex_string d; do m' <- sanitize_hex_string m;
  do pad <- rp p; do data <- hex_to_bytes d'; do mac <- hex_to_bytes m';
  Ok {| hc_pad := pad; hc_data := data; hc_mac := mac |}.
(** 1209-1270 *)
Definition cselection_of_json (j : json) : outcome cselection :=
  do i <- gs j "object_id"; do q <- gn j "sequence_order"; do d <- gs j "description_hash";
  do ph <- gb j "is_placeholder_selection";
  do nt <- read_nonce_text j;
  do h <- gs j "crypto_hash";
  do cj <- jidx j (s2b "ciphertext"); do ct <- ct_of_json cj;
  do pj <- jidx j (s2b "proof"); do p <- dproof_of_json pj;
  do n <- nonce_of_text nt;
  do d' <- rq d; do h' <- rq h;
  Ok {| cs_id := i; cs_seq := q; cs_desc := d'; cs_ct := ct; cs_placeholder := ph;
        cs_nonce := Some n; cs_hash := h'; cs_proof := Some p |}.
(** 1162-1282 *)
Definition ccontest_of_json (j : json) : outcome ccontest :=
  do i <- gs j "object_id"; do q <- gn j "sequence_order"; do d <- gs j "description_hash";
  do nt <- read_nonce_text j;
  do aj <- jidx j (s2b "ciphertext_accumulation"); do acc <- ct_of_json aj;
  do h <- gs j "crypto_hash";
  do ej <- jidx j (s2b "extended_data"); do e <- hashed_of_json ej;
  do pj <- jidx j (s2b "proof"); do p <- cproof_of_json pj;
  do sj <- jidx j (s2b "ballot_selections"); do ss <- mapM cselection_of_json (jitems sj);
  do n <- nonce_of_text nt;
  do d' <- rq d; do h' <- rq h;
  Ok {| cc_id := i; cc_seq := q; cc_desc := d'; cc_selections := ss; cc_nonce := Some n;
        cc_acc := acc; cc_hash := h'; cc_proof := Some p; cc_hashed := Some e |}.
(** 1147-1292 *)
Definition cballot_of_json (j : json) : outcome cballot :=
  do i <- gs j "object_id"; do y <- gs j "style_id"; do mh <- gs j "manifest_hash";
  do cs <- gs j "code_seed"; do bc <- gs j "code"; do t <- gn j "timestamp";
  do nt <- read_nonce_text j;
  do h <- gs j "crypto_hash";
  do lj <- jidx j (s2b "contests"); do l <- mapM ccontest_of_json (jitems lj);
  do n <- nonce_of_text nt;
  do m' <- rq mh; do s' <- rq cs; do c' <- rq bc; do h' <- rq h;
  Ok {| cb_id := i; cb_style := y; cb_manifest := m'; cb_seed := s'; cb_contests := l;
        cb_code := c'; cb_timestamp := t; cb_nonce := Some n; cb_hash := h' |}.

(** ** Submitted ballots *)
(** 1340-1347 *)
Definition sballot_to_json (b : sballot) : outcome json :=
  do j <- cballot_to_json false (sb_ballot b);
  json_set j (s2b "state") (JNum (state_num (sb_state b))).
(** 1349-1355 *)
Definition sballot_of_json (j : json) : outcome sballot :=
  do b <- cballot_of_json j;
  do n <- gn j "state";
  do s <- state_of_num n;
  submitted_from b s.

(** ** Constants: 1464-1472 *)
Definition constants_to_json : json :=
  jobj [(s2b "large_prime", hexp (gpP gp)); (s2b "small_prime", hexq (gpQ gp));
        (s2b "cofactor", hexp (gpR gp)); (s2b "generator", hexp (gpG gp))].
End Elements.

(** ** Manifests *)
(** findByValue (utils.hpp:28-37) over the name tables, [unknown] if it throws:
    manifest.cpp:54-63, 108-117, 147-156 *)
Definition election_types : list election_type :=
  [ET_unknown; ET_general; ET_partisanPrimaryClosed; ET_partisanPrimaryOpen; ET_primary; ET_runoff;
   ET_special; ET_other].
Definition reporting_units : list reporting_unit_type :=
  [RU_unknown; RU_ballotBatch; RU_ballotStyleArea; RU_borough; RU_city; RU_cityCouncil;
   RU_combinedPrecinct; RU_congressional; RU_country; RU_county; RU_countyCouncil; RU_dropBox;
   RU_judicial; RU_municipality; RU_polling_place; RU_precinct; RU_school; RU_special;
   RU_splitPrecinct; RU_state; RU_stateHouse; RU_stateSenate; RU_township; RU_utility; RU_village;
   RU_voteCenter; RU_ward; RU_water; RU_other].
Definition vote_variations : list vote_variation :=
  [VV_unknown; VV_one_of_m; VV_borda; VV_cumulative; VV_majority; VV_n_of_m; VV_plurality;
   VV_proportional; VV_range; VV_rcv; VV_super_majority; VV_other].
Definition by_name {A} (name : A -> bytes) (all : list A) (unknown : A) (s : bytes) : A :=
  match find (fun t => bytes_eqb (name t) s) all with Some t => t | None => unknown end.
Definition election_type_of := by_name election_type_string election_types ET_unknown.
Definition reporting_unit_of := by_name reporting_unit_string reporting_units RU_unknown.
Definition vote_variation_of := by_name vote_variation_string vote_variations VV_unknown.

(** serialize.hpp:36-46 *)
Definition annotated_to_json (a : annotated_string) : json :=
  jobj [(s2b "annotation", JStr (an_annotation a)); (s2b "value", JStr (an_value a))].
Definition annotated_of_json (j : json) : outcome annotated_string :=
  do v <- cgs j "value"; do a <- cgs j "annotation"; Ok {| an_annotation := a; an_value := v |}.
(** 48-58 *)
Definition language_to_json (l : language) : json :=
  jobj [(s2b "value", JStr (la_value l)); (s2b "language", JStr (la_language l))].
Definition language_of_json (j : json) : outcome language :=
  do v <- cgs j "value"; do l <- cgs j "language"; Ok {| la_value := v; la_language := l |}.
(** 60-78 *)
Definition intl_to_json (t : intl_text) : json :=
  jobj [(s2b "text", JArr (map language_to_json t))].
Definition intl_of_json (j : json) : outcome intl_text :=
  match jpresent j (s2b "text") with
  | Some l => mapM language_of_json (jitems l)
  | None => Ok []
  end.
(** 80-142 *)
Definition contact_to_json (c : contact_info) : json :=
  jobj0 (opt_str "name" (cx_name c)
         ++ match cx_address c with [] => [] | l => [(s2b "address_line", JArr (map JStr l))] end
         ++ match cx_email c with [] => [] | l => [(s2b "email", JArr (map annotated_to_json l))] end
         ++ match cx_phone c with [] => [] | l => [(s2b "phone", JArr (map annotated_to_json l))] end).
Definition get_list {A} (f : json -> outcome A) (j : json) (k : string) : outcome (list A) :=
  match jpresent j (s2b k) with Some l => mapM f (jitems l) | None => Ok [] end.
Definition contact_of_json (j : json) : outcome contact_info :=
  do a <- get_list jstring j "address_line";
  do e <- get_list annotated_of_json j "email";
  do p <- get_list annotated_of_json j "phone";
  do n <- get_opt_str j "name";
  Ok {| cx_name := n; cx_address := a; cx_email := e; cx_phone := p |}.
(** 144-169 *)
Definition unit_to_json (u : gp_unit) : json :=
  jobj ([(s2b "object_id", JStr (gu_id u)); (s2b "name", JStr (gu_name u));
         (s2b "type", JStr (reporting_unit_string (gu_type u)))]
        ++ match gu_contact u with
           | None => []
           | Some c => [(s2b "contact_information", contact_to_json c)]
           end).
Definition unit_of_json (j : json) : outcome gp_unit :=
  do i <- cgs j "object_id"; do n <- cgs j "name"; do t <- cgs j "type";
  do c <- match jpresent j (s2b "contact_information") with
          | Some c => do x <- contact_of_json c; Ok (Some x)
          | None => Ok None
          end;
  Ok {| gu_id := i; gu_name := n; gu_type := reporting_unit_of t; gu_contact := c |}.
(** 190-235 *)
Definition party_to_json (p : party) : json :=
  jobj ([(s2b "object_id", JStr (pa_id p))]
        ++ opt_str "abbreviation" (pa_abbrev p) ++ opt_str "color" (pa_color p)
        ++ opt_str "logo_uri" (pa_logo p)
        ++ match pa_name p with None => [] | Some t => [(s2b "name", intl_to_json t)] end).
(** json("{}") is a string, hence has no text. *)
Definition get_name (j : json) : outcome intl_text :=
  match jpresent j (s2b "name") with
  | Some n => intl_of_json n
  | None => intl_of_json (JStr (s2b "{}"))
  end.
Definition party_of_json (j : json) : outcome party :=
  do a <- get_opt_str j "abbreviation";
  do c <- get_opt_str j "color";
  do l <- get_opt_str j "logo_uri";
  do n <- get_name j;
  do i <- cgs j "object_id";
  Ok {| pa_id := i; pa_name := Some n; pa_abbrev := a; pa_color := c; pa_logo := l |}.
(** 256-295 *)
Definition candidate_to_json (c : candidate) : json :=
  jobj ([(s2b "object_id", JStr (ca_id c))]
        ++ (if ca_writein c then [(s2b "is_write_in", JBool true)] else [])
        ++ match ca_name c with None => [] | Some t => [(s2b "name", intl_to_json t)] end
        ++ opt_str "party_id" (ca_party c) ++ opt_str "image_uri" (ca_image c)).
Definition candidate_of_json (j : json) : outcome candidate :=
  do i <- cgs j "object_id";
  do n <- get_name j;
  do w <- match jpresent j (s2b "is_write_in") with Some b => jbool b | None => Ok false end;
  do p <- get_opt_str j "party_id";
  do m <- get_opt_str j "image_uri";
  Ok {| ca_id := i; ca_name := Some n; ca_party := p; ca_image := m; ca_writein := w |}.
(** 316-361 *)
Definition style_to_json (s : ballot_style) : json :=
  jobj ([(s2b "object_id", JStr (bs_id s));
         (s2b "geopolitical_unit_ids", jpushed (map JStr (bs_units s)))]
        ++ match bs_parties s with [] => [] | l => [(s2b "party_ids", JArr (map JStr l))] end
        ++ opt_str "image_uri" (bs_image s)).
Definition style_of_json (j : json) : outcome ballot_style :=
  do u <- jcidx j (s2b "geopolitical_unit_ids"); do us <- mapM jstring (jitems u);
  do ps <- get_list jstring j "party_ids";
  do m <- get_opt_str j "image_uri";
  do i <- cgs j "object_id";
  Ok {| bs_id := i; bs_units := us; bs_parties := ps; bs_image := m |}.
(** 381-395 *)
Definition selection_to_json (s : selection) : json :=
  jobj [(s2b "object_id", JStr (sd_id s)); (s2b "candidate_id", JStr (sd_candidate s));
        (s2b "sequence_order", JNum (sd_seq s))].
Definition selection_of_json (j : json) : outcome selection :=
  do i <- cgs j "object_id"; do c <- cgs j "candidate_id"; do q <- cgn j "sequence_order";
  Ok {| sd_id := i; sd_candidate := c; sd_seq := q |}.
(** 397-405, 407-414 *)
Definition selections_to_json (l : list selection) : json := jpushed (map selection_to_json l).
Definition selections_of_json (j : json) : outcome (list selection) := mapM selection_of_json (jitems j).
(** 416-473: the primary party ids are not written. *)
Definition contest_to_json (c : contest) : json :=
  jobj ([(s2b "object_id", JStr (cd_id c)); (s2b "electoral_district_id", JStr (cd_district c));
         (s2b "sequence_order", JNum (cd_seq c));
         (s2b "vote_variation", JStr (vote_variation_string (cd_variation c)));
         (s2b "number_elected", JNum (cd_elected c))]
        ++ (if 0 <? cd_allowed c then [(s2b "votes_allowed", JNum (cd_allowed c))] else [])
        ++ [(s2b "name", JStr (cd_name c))]
        ++ match cd_title c with None => [] | Some t => [(s2b "ballot_title", intl_to_json t)] end
        ++ match cd_subtitle c with None => [] | Some t => [(s2b "ballot_subtitle", intl_to_json t)] end
        ++ [(s2b "ballot_selections", selections_to_json (get_selections c))]).
Definition get_opt_intl (j : json) (k : string) : outcome (option intl_text) :=
  match jpresent j (s2b k) with
  | Some t => do x <- intl_of_json t; Ok (Some x)
  | None => Ok None
  end.
Definition contest_of_json (j : json) : outcome contest :=
  do i <- cgs j "object_id"; do d <- cgs j "electoral_district_id"; do q <- cgn j "sequence_order";
  do vs <- cgs j "vote_variation";
  let v := vote_variation_of vs in
  do e <- cgn j "number_elected";
  do a <- match jpresent j (s2b "votes_allowed") with
          | Some x => ju64 x
          | None => Ok (match v with VV_n_of_m | VV_one_of_m => e | _ => 0 end)
          end;
  do n <- cgs j "name";
  do t <- get_opt_intl j "ballot_title";
  do u <- get_opt_intl j "ballot_subtitle";
  do sj <- jcidx j (s2b "ballot_selections"); do ss <- selections_of_json sj;
  Ok {| cd_id := i; cd_district := d; cd_seq := q; cd_variation := v; cd_elected := e; cd_allowed := a;
        cd_name := n; cd_title := t; cd_subtitle := u; cd_selections := ss; cd_primary := [] |}.

Section ManifestJson.
(** gmtime_r and put_time of a time_t, and date::parse of such a text (convert.cpp:26-65), in
    seconds; a text that cannot be parsed gives 0. *)
Context (fmt : Z -> bytes) (scan : bytes -> Z).
(** convert.cpp:47-65: the seconds read are converted to system_clock ticks, 64 bits of
    nanoseconds, whose multiplication may overflow. *)
Definition iso_scan (s : bytes) : outcome Z :=
  let t := scan s * 1000000000 in
  if (- 2 ^ 63 <=? t) && (t <? 2 ^ 63) then Ok t else UB.
(** serialize.hpp:500-538 *)
Definition manifest_to_json (m : manifest) : json :=
  jobj ([(s2b "election_scope_id", JStr (mf_scope m));
         (s2b "type", JStr (election_type_string (mf_type m)));
         (s2b "start_date", JStr (iso fmt (mf_start m))); (s2b "end_date", JStr (iso fmt (mf_end m)));
         (s2b "geopolitical_units", JArr (map unit_to_json (mf_units m)));
         (s2b "parties", JArr (map party_to_json (mf_parties m)));
         (s2b "candidates", JArr (map candidate_to_json (mf_candidates m)));
         (s2b "contests", JArr (map contest_to_json (get_contests m)));
         (s2b "ballot_styles", JArr (map style_to_json (mf_styles m)))]
        ++ match mf_name m with None => [] | Some t => [(s2b "name", intl_to_json t)] end
        ++ match mf_contact m with None => [] | Some c => [(s2b "contact_information", contact_to_json c)] end
        ++ [(s2b "spec_version", JStr (s2b "1.0"))]).
(** 540-569 *)
Definition manifest_of_json (j : json) : outcome manifest :=
  do i <- gs j "election_scope_id"; do t <- gs j "type"; do sd <- gs j "start_date"; do ed <- gs j "end_date";
  do uj <- jidx j (s2b "geopolitical_units"); do us <- mapM unit_of_json (jitems uj);
  do pj <- jidx j (s2b "parties"); do ps <- mapM party_of_json (jitems pj);
  do cj <- jidx j (s2b "candidates"); do cs <- mapM candidate_of_json (jitems cj);
  do dj <- jidx j (s2b "contests"); do ds <- mapM contest_of_json (jitems dj);
  do bj <- jidx j (s2b "ballot_styles"); do bs <- mapM style_of_json (jitems bj);
  do nc <- match jpresent j (s2b "name") with
           | Some n => do x <- intl_of_json n;
                       do c <- jidx j (s2b "contact_information"); do y <- contact_of_json c;
                       Ok (Some x, Some y)
           | None => Ok (None, None)
           end;
  do ts <- iso_scan sd; do te <- iso_scan ed;
  Ok {| mf_scope := i; mf_type := election_type_of t; mf_start := ts; mf_end := te;
        mf_units := us; mf_parties := ps; mf_candidates := cs; mf_contests := ds; mf_styles := bs;
        mf_name := fst nc; mf_contact := snd nc |}.
End ManifestJson.

(** ** Internal manifests *)
(** 632-633 and 637-639: the text is wrapped once more. *)
Definition wrapped_intl (t : intl_text) : json := jobj [(s2b "text", intl_to_json t)].
(** 614-643 *)
Definition contest_ph_to_json (c : contest_ph) : json :=
  let b := cw_base c in
  jobj ([(s2b "object_id", JStr (cd_id b)); (s2b "electoral_district_id", JStr (cd_district b));
         (s2b "sequence_order", JNum (cd_seq b));
         (s2b "vote_variation", JStr (vote_variation_string (cd_variation b)));
         (s2b "number_elected", JNum (cd_elected b)); (s2b "votes_allowed", JNum (cd_allowed b));
         (s2b "name", JStr (cd_name b));
         (s2b "ballot_selections", selections_to_json (get_selections b));
         (s2b "ballot_placeholders", selections_to_json (get_placeholders c))]
        ++ match cd_title b with None => [] | Some t => [(s2b "ballot_title", wrapped_intl t)] end
        ++ match cd_subtitle b with None => [] | Some t => [(s2b "ballot_subtitle", wrapped_intl t)] end).
(** 605-656 *)
Definition internal_to_json (m : internal_manifest) : json :=
  jobj [(s2b "manifest_hash", hexq (im_hash m));
        (s2b "geopolitical_units", JArr (map unit_to_json (im_units m)));
        (s2b "candidates", JArr (map candidate_to_json (im_candidates m)));
        (s2b "contests", jpushed (map contest_ph_to_json (im_get_contests m)));
        (s2b "ballot_styles", JArr (map style_to_json (im_styles m)))].
(** 667-701: without a title the constructor computes votesAllowed. *)
Definition contest_ph_of_json (j : json) : outcome contest_ph :=
  do i <- gs j "object_id"; do d <- gs j "electoral_district_id"; do q <- gn j "sequence_order";
  do vs <- gs j "vote_variation"; do e <- gn j "number_elected"; do n <- gs j "name";
  do sj <- jidx j (s2b "ballot_selections"); do ss <- selections_of_json sj;
  do pj <- jidx j (s2b "ballot_placeholders"); do ps <- selections_of_json pj;
  let v := vote_variation_of vs in
  match jpresent j (s2b "ballot_title") with
  | Some tj =>
      do a <- gn j "votes_allowed";
      do t <- intl_of_json tj;
      do uj <- jidx j (s2b "ballot_subtitle"); do u <- intl_of_json uj;
      Ok {| cw_base := {| cd_id := i; cd_district := d; cd_seq := q; cd_variation := v; cd_elected := e;
                          cd_allowed := a; cd_name := n; cd_title := Some t; cd_subtitle := Some u;
                          cd_selections := ss; cd_primary := [] |};
            cw_placeholders := ps |}
  | None =>
      Ok {| cw_base := {| cd_id := i; cd_district := d; cd_seq := q; cd_variation := v; cd_elected := e;
                          cd_allowed := default_allowed v e; cd_name := n; cd_title := None;
                          cd_subtitle := None; cd_selections := ss; cd_primary := [] |};
            cw_placeholders := ps |}
  end.
(** 657-711 *)
Definition internal_of_json (gp : params) (j : json) : outcome internal_manifest :=
  do uj <- jidx j (s2b "geopolitical_units"); do us <- mapM unit_of_json (jitems uj);
  do cj <- jidx j (s2b "candidates"); do cs <- mapM candidate_of_json (jitems cj);
  do dj <- jidx j (s2b "contests"); do ds <- mapM contest_ph_of_json (jitems dj);
  do bj <- jidx j (s2b "ballot_styles"); do bs <- mapM style_of_json (jitems bj);
  do h <- gs j "manifest_hash"; do h' <- rq gp h;
  Ok {| im_units := us; im_candidates := cs; im_contests := ds; im_styles := bs; im_hash := h' |}.

(** ** The public functions toJson/fromJson, toBson/fromBson, toMsgPack/fromMsgPack *)
Definition to_text {A} (dump : json -> outcome bytes) (f : A -> outcome json) (a : A) : outcome bytes :=
  do j <- f a; dump j.
Definition of_text {A} (parse : bytes -> outcome json) (g : json -> outcome A) (s : bytes) : outcome A :=
  do j <- parse s; g j.
