(** src/electionguard/ballot.cpp, ballot_code.cpp and election.cpp *)
From Verif Require Import Base GroupModel CodecModel HashModel ElgamalModel ChaumModel SortModel.
Open Scope Z_scope.

(** ** Plaintext ballots *)
(** ballot.cpp:65-84 *)
Record pselection := { ps_id : bytes; ps_vote : Z; ps_placeholder : bool; ps_writein : bytes }.
(** 394-413 *)
Record pcontest := { pc_id : bytes; pc_selections : list pselection }.
(** 802-823 *)
Record pballot := { pb_id : bytes; pb_style : bytes; pb_contests : list pcontest }.

(** 119-132 PlaintextBallotSelection::isValid *)
Definition pselection_valid (s : pselection) (expected : bytes) : bool :=
  if negb (bytes_eqb (ps_id s) expected) then false
  else if 1 <? ps_vote s then false
  else true.

(** ballot.h eg_valid_contest_return_type_t *)
Inductive contest_check :=
| SUCCESS | INVALID_OBJECT_ID_ERROR | TOO_MANY_SELECTIONS_ERROR | OVERVOTE | OVERVOTE_ERROR.

(** 464-514 PlaintextBallotContest::isValid; both counters are uint64_t. *)
Definition count_step (acc : Z * Z) (s : pselection) : Z * Z :=
  let '(elected, votes) := acc in
  ((if 1 <=? ps_vote s then (elected + 1) mod W64 else elected), (votes + ps_vote s) mod W64).
Definition pcontest_valid (c : pcontest) (expected : bytes) (number_selections number_elected votes_allowed : Z)
  (support_overvotes : bool) : contest_check :=
  if negb (bytes_eqb (pc_id c) expected) then INVALID_OBJECT_ID_ERROR
  else if number_selections <? Z.of_nat (length (pc_selections c)) then TOO_MANY_SELECTIONS_ERROR
  else
    let '(elected, votes) := fold_left count_step (pc_selections c) (0, 0) in
    if number_elected <? elected then (if support_overvotes then OVERVOTE else OVERVOTE_ERROR)
    else
      let allowed := if votes_allowed =? 0 then number_elected else votes_allowed in
      if allowed <? votes then (if support_overvotes then OVERVOTE else OVERVOTE_ERROR)
      else SUCCESS.

(** ** Ciphertext ballots *)
(** 146-168; the extendedData pointer of a selection is always null in the
    library and is left out.  [None] is a null pointer. *)
Record cselection := {
  cs_id : bytes; cs_seq : Z; cs_desc : Z; cs_ct : ciphertext; cs_placeholder : bool;
  cs_nonce : option Z; cs_hash : Z; cs_proof : option dproof }.
(** 520-544 *)
Record ccontest := {
  cc_id : bytes; cc_seq : Z; cc_desc : Z; cc_selections : list cselection;
  cc_nonce : option Z; cc_acc : ciphertext; cc_hash : Z; cc_proof : option cproof;
  cc_hashed : option hashed_ct }.
(** 891-917 *)
Record cballot := {
  cb_id : bytes; cb_style : bytes; cb_manifest : Z; cb_seed : Z;
  cb_contests : list ccontest; cb_code : Z; cb_timestamp : Z; cb_nonce : option Z; cb_hash : Z }.

(** ElGamalCiphertext operator==: elgamal.cpp:132-136 *)
Definition ct_eqb (a b : ciphertext) : bool :=
  elem_eq (ct_pad a) (ct_pad b) && elem_eq (ct_data a) (ct_data b).

(** 612-629 and 656-668: getSelections sorts references by sequence order. *)
Definition cc_sorted (c : ccontest) : list cselection := sort_by cs_seq (cc_selections c).
(** 966-983 *)
Definition cb_sorted (b : cballot) : list ccontest := sort_by cc_seq (cb_contests b).

Section Ballot.
Context (gp : params) (sha : bytes -> Z).
Notation hash := (hash_elems gp sha).

(** 384-391 CiphertextBallotSelection::makeCryptoHash *)
Definition cselection_hash (id : bytes) (desc : Z) (ct : ciphertext) : Z :=
  hash [HStr id; HElemQ desc; HHash (ct_hash gp sha ct)].

(** 354-380 CiphertextBallotSelection::isValidEncryption *)
Definition cselection_valid (s : cselection) (desc pk ext : Z) : bool :=
  if negb (elem_eq desc (cs_desc s)) then false
  else if negb (elem_eq (cs_hash s) (cselection_hash (cs_id s) desc (cs_ct s))) then false
  else match cs_proof s with
       | None => false
       | Some p => dproof_valid gp sha p (cs_ct s) pk ext
       end.

(** 784-797 CiphertextBallotContest::makeCryptoHash *)
Definition ccontest_hash (id : bytes) (l : list cselection) (desc : Z) : outcome Z :=
  match l with
  | [] => Throw InvalidArgument
  | _ => Ok (hash (HStr id :: HElemQ desc :: map (fun s => HElemQ (cs_hash s)) l))
  end.

(** 769-779: getNonce of each selection is dereferenced. *)
Definition get_nonce (s : cselection) : outcome Z :=
  match cs_nonce s with Some n => Ok n | None => UB end.
Definition aggregate_nonce (l : list cselection) : outcome Z :=
  do ns <- mapM get_nonce l; add_mod_q_list gp ns.
(** 781-791 *)
Definition accumulate (l : list cselection) : outcome ciphertext :=
  elgamal_add gp (map cs_ct l).

(** 648-693 CiphertextBallotContest::make without given hash and proof, the way
    the encryption uses it.  [pre] is the answer of the precompute buffer inside
    ConstantChaumPedersenProof::make. *)
Definition ccontest_make (pre : option triple) (id : bytes) (seq desc : Z) (l : list cselection)
  (pk ext proof_seed number_elected : Z) (nonce : option Z) (hashed : option hashed_ct)
  : outcome ccontest :=
  let refs := sort_by cs_seq l in
  do h <- ccontest_hash id refs desc;
  do acc <- accumulate refs;
  do agg <- aggregate_nonce refs;
  do p <- cproof_make gp sha pre acc agg pk proof_seed ext number_elected;
  Ok {| cc_id := id; cc_seq := seq; cc_desc := desc; cc_selections := l; cc_nonce := nonce;
        cc_acc := acc; cc_hash := h; cc_proof := Some p; cc_hashed := hashed |}.

(** 706-765 CiphertextBallotContest::isValidEncryption.  The hash is recomputed
    first (it throws without selections); the proof pointer is dereferenced even
    when null. *)
Definition ccontest_valid (c : ccontest) (desc pk ext : Z) : outcome bool :=
  do h <- ccontest_hash (cc_id c) (cc_sorted c) desc;
  do acc <- accumulate (cc_sorted c);
  match cc_proof c with
  | None => UB
  | Some p =>
      do v <- cproof_valid gp sha p acc pk ext;
      Ok (elem_eq desc (cc_desc c) && elem_eq (cc_hash c) h && ct_eqb (cc_acc c) acc && v)
  end.

(** 1126-1139 CiphertextBallot::makeCryptoHash *)
Definition cballot_hash (id : bytes) (l : list ccontest) (manifest : Z) : outcome Z :=
  match l with
  | [] => Throw InvalidArgument
  | _ => Ok (hash (HStr id :: HElemQ manifest :: map (fun c => HElemQ (cc_hash c)) l))
  end.

(** ballot_code.cpp:16-21 *)
Definition device_hash (device session launch : Z) (location : bytes) : Z :=
  hash [HU64 device; HU64 session; HU64 launch; HStr location].
(** ballot_code.cpp:23-28 *)
Definition ballot_code (seed timestamp ballot_hash : Z) : Z :=
  hash [HElemQ seed; HU64 timestamp; HElemQ ballot_hash].

(** 1009-1046 CiphertextBallot::make; [now] is what getSystemTimestamp returns.
    The hash runs over the contests in the given order. *)
Definition cballot_make (now : Z) (id style : bytes) (manifest : Z) (l : list ccontest)
  (nonce : option Z) (timestamp : Z) (seed code : option Z) : outcome cballot :=
  match l with
  | [] => Throw InvalidArgument
  | _ =>
      do h <- cballot_hash id l manifest;
      let t := if timestamp =? 0 then now else timestamp in
      let s := match seed with Some s => s | None => manifest end in
      let c := match code with Some c => c | None => ballot_code s t h end in
      Ok {| cb_id := id; cb_style := style; cb_manifest := manifest; cb_seed := s;
            cb_contests := l; cb_code := c; cb_timestamp := t; cb_nonce := nonce; cb_hash := h |}
  end.

(** 1048-1053 *)
Definition nonce_seed (manifest : Z) (id : bytes) (nonce : Z) : Z :=
  hash [HElemQ manifest; HStr id; HElemQ nonce].

(** 1077-1095: the results of the checks, in the order in which they are stored
    under their keys. *)
Definition dash : Z := 45.
Definition contest_results (c : ccontest) (pk ext : Z) : outcome (list (bytes * bool)) :=
  do v <- ccontest_valid c (cc_desc c) pk ext;
  Ok (map (fun s => (cc_id c ++ dash :: cs_id s, cselection_valid s (cs_desc s) pk ext)) (cc_sorted c)
      ++ [(cc_id c, v)]).
(** unordered_map: a later store under the same key replaces the value. *)
Definition map_store (m : list (bytes * bool)) (kv : bytes * bool) : list (bytes * bool) :=
  kv :: filter (fun x => negb (bytes_eqb (fst x) (fst kv))) m.
(** 1058-1099 CiphertextBallot::isValidEncryption *)
Definition cballot_valid (b : cballot) (manifest pk ext : Z) : outcome bool :=
  if negb (elem_eq manifest (cb_manifest b)) then Ok false
  else
    do h <- cballot_hash (cb_id b) (cb_sorted b) manifest;
    if negb (elem_eq (cb_hash b) h) then Ok false
    else
      do rs <- mapM (fun c => contest_results c pk ext) (cb_sorted b);
      Ok (forallb snd (fold_left map_store (concat rs) [])).

(** ** Copies *)
(** 170-184 CiphertextBallotSelection::Impl::clone dereferences nonce and proof;
    copies of elements and of proofs are exact (dproof_copy). *)
Definition cselection_copy (s : cselection) : outcome cselection :=
  match cs_nonce s, cs_proof s with
  | Some _, Some _ => Ok s
  | _, _ => UB
  end.
(** 546-563 CiphertextBallotContest::Impl::clone *)
Definition ccontest_copy (c : ccontest) : outcome ccontest :=
  do l <- mapM cselection_copy (cc_selections c);
  match cc_nonce c, cc_proof c, cc_hashed c with
  | Some _, Some _, Some _ =>
      Ok {| cc_id := cc_id c; cc_seq := cc_seq c; cc_desc := cc_desc c; cc_selections := l;
            cc_nonce := cc_nonce c; cc_acc := cc_acc c; cc_hash := cc_hash c;
            cc_proof := cc_proof c; cc_hashed := cc_hashed c |}
  | _, _, _ => UB
  end.
(** 919-935 CiphertextBallot::Impl::clone *)
Definition cballot_copy (b : cballot) : outcome cballot :=
  do l <- mapM ccontest_copy (cb_contests b);
  match cb_nonce b with
  | None => UB
  | Some _ =>
      Ok {| cb_id := cb_id b; cb_style := cb_style b; cb_manifest := cb_manifest b; cb_seed := cb_seed b;
            cb_contests := l; cb_code := cb_code b; cb_timestamp := cb_timestamp b;
            cb_nonce := cb_nonce b; cb_hash := cb_hash b |}
  end.

(** ballot.hpp BallotBoxState; 1150-1165 SubmittedBallot: a copied ballot with a
    state. *)
Inductive box_state := BS_unknown | BS_cast | BS_spoiled.
Record sballot := { sb_ballot : cballot; sb_state : box_state }.
(** 1187-1192 *)
Definition submitted_from (b : cballot) (s : box_state) : outcome sballot :=
  do b' <- cballot_copy b; Ok {| sb_ballot := b'; sb_state := s |}.
(** 1194-1211 SubmittedBallot::make *)
Definition submitted_make (now : Z) (id style : bytes) (manifest : Z) (l : list ccontest)
  (nonce : option Z) (timestamp : Z) (seed code : option Z) (s : box_state) : outcome sballot :=
  match l with
  | [] => Throw InvalidArgument
  | _ => do b <- cballot_make now id style manifest l nonce timestamp seed code; submitted_from b s
  end.

(** ** election.cpp *)
(** 100-135 CiphertextElectionContext::Impl; configuration and extended data do
    not take part in any computation and are left out. *)
Record context := {
  el_guardians : Z; el_quorum : Z; el_pk : Z; el_commitment : Z; el_manifest : Z;
  el_base : Z; el_ext : Z }.
(** 206-278: the four overloads of make compute the same hashes. *)
Definition context_make (guardians quorum pk commitment manifest : Z) : context :=
  let base := hash [HElemP (gpP gp); HElemQ (gpQ gp); HElemP (gpG gp); HU64 guardians; HU64 quorum;
                    HElemQ manifest] in
  {| el_guardians := guardians; el_quorum := quorum; el_pk := pk; el_commitment := commitment;
     el_manifest := manifest; el_base := base; el_ext := hash [HElemQ base; HElemQ commitment] |}.

End Ballot.
