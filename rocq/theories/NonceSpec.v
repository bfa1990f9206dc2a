(** The powers of the generator that a published ballot shows, and the byte strings its secret
    exponents are hashed from. *)
From Coq Require Import String.
From Verif Require Import Base GroupModel HashModel ElgamalModel ChaumModel ManifestModel BallotModel JsonModel EncryptModel EncryptSpec.
Open Scope Z_scope.

(** Where a power stands: the pad of a vote, of the extended data, the commitment of the proof of a
    contest; contests and options are named by their sequence orders. *)
Inductive slot := AtVote (contest option : Z) | AtData (contest : Z) | AtProof (contest : Z).
Definition contest_slots (cc : ccontest) : list (slot * Z) :=
  (map (fun x => (AtVote (cc_seq cc) (cs_seq x), ct_pad (cs_ct x))) (cc_selections cc)
  ++ match cc_hashed cc with Some h => [(AtData (cc_seq cc), hc_pad h)] | None => [] end
  ++ match cc_proof cc with Some p => [(AtProof (cc_seq cc), cp_a p)] | None => [] end)%list.
Definition ballot_slots (r : cballot) : list (slot * Z) := flat_map contest_slots (cb_contests r).

Section Queries.
Context (gp : params) (sha : bytes -> Z).
Notation msg := (hash_message gp sha).
Notation hash := (hash_elems gp sha).
Definition data_label : bytes := s2b "constant-extended-data".
Definition proof_label : bytes := s2b "constant-chaum-pedersen-proof".
(** The strings hashed for the exponents of one contest. *)
Definition contest_strings (seed : Z) (d : contest_ph) : list bytes :=
  let q := cd_seq (cw_base d) in
  let q' := (q + 1) mod 2 ^ 64 in
  let dh := match contest_hash gp sha (cw_base d) with Ok h => h | _ => 0 end in
  let s := hash [HElemQ dh; HElemQ seed] in
  let cn := hash [HElemQ s; HU64 q] in
  let pn := hash [HElemQ s; HU64 q'] in
  ([msg [HElemQ dh; HElemQ seed]; msg [HElemQ s; HU64 q]; msg [HElemQ s; HU64 q'];
    msg [HElemQ cn; HStr data_label]; msg [HElemQ pn; HStr proof_label];
    msg [HElemQ (hash [HElemQ cn; HStr data_label]); HU64 0];
    msg [HElemQ (hash [HElemQ pn; HStr proof_label]); HU64 0]]
  ++ flat_map (fun x =>
       let h := selection_hash gp sha x in
       [msg [HElemQ h; HElemQ cn]; msg [HElemQ (hash [HElemQ h; HElemQ cn]); HU64 (sd_seq x)]])
     (get_selections (cw_base d) ++ get_placeholders d))%list.
(** The strings hashed for the exponents of a ballot. *)
Definition ballot_strings (m : internal_manifest) (id : bytes) (n : Z) (ds : list contest_ph) : list bytes :=
  (msg [HElemQ (im_hash m); HStr id; HElemQ n] ::
   flat_map (contest_strings (hash [HElemQ (im_hash m); HStr id; HElemQ n])) ds)%list.

(** A ballot encrypted from master nonce [n] without precomputed values. *)
Record encrypted hmac dump (m : internal_manifest) (b : pballot) (n : Z) (ds : list contest_ph) (r : cballot) : Prop := {
  en_run : exists E cx code_seed nonce ts verify st st', env_empty E /\
    encrypt_ballot gp sha hmac dump E b m cx code_seed nonce ts verify st = Ok (r, st');
  en_nonce : cb_nonce r = Some n;
  en_contests : contests_for m (pb_style b) = Ok ds;
  en_size : 0 <= n < 2 ^ 256 /\ 0 <= im_hash m < 2 ^ 256;
  en_seqs : forall d, In d ds -> 0 <= cd_seq (cw_base d) < 2 ^ 64 /\
    forall x, In x (get_selections (cw_base d) ++ get_placeholders d)%list -> 0 <= sd_seq x < 2 ^ 64 }.
(** The sequence orders of a style's contests and of each contest's options are different. *)
Definition seqs_distinct (ds : list contest_ph) : Prop :=
  NoDup (map (fun d => cd_seq (cw_base d)) ds) /\
  forall d, In d ds -> NoDup (map sd_seq (get_selections (cw_base d) ++ get_placeholders d)%list).
End Queries.
