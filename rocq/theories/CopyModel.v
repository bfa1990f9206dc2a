(** Copy constructors, public clone() functions and assignment operators of the classes of
    manifest.cpp, ballot.cpp, elgamal.cpp, chaum_pedersen.cpp and precompute_buffers.cpp.

    Left out because their copy constructors are declared and nowhere defined, so that a program
    copying or assigning them does not link: SubmittedBallot, CiphertextElectionContext,
    EncryptionDevice, EncryptionMediator, the compact ballots, Manifest and InternalManifest.
    ElementModP and ElementModQ have ElementModel.  Objects emptied by a move constructor (null pimpl)
    are not values here. *)
From Verif Require Import Base GroupModel ElgamalModel ChaumModel ManifestModel BallotModel.
Local Open Scope Z_scope.

(** One constructor per class that can be copied. *)
Inductive value :=
| VAnnotated (x : annotated_string) | VLanguage (x : language) | VText (x : intl_text)
| VContact (x : contact_info) | VUnit (x : gp_unit) | VStyle (x : ballot_style) | VParty (x : party)
| VCandidate (x : candidate) | VSelection (x : selection) | VContest (x : contest) | VContestPh (x : contest_ph)
| VPSelection (x : pselection) | VPContest (x : pcontest) | VPBallot (x : pballot)
| VCSelection (x : cselection) | VCContest (x : ccontest) | VCBallot (x : cballot)
| VKeyPair (x : keypair) | VCiphertext (x : ciphertext) | VHashed (x : hashed_ct)
| VDisjunctive (x : dproof) | VConstant (x : cproof)
| VTriple (x : triple) | VQuadruple (x : quadruple) | VTwo (x : two_triples_quad).

Definition same_class (a b : value) : bool :=
  match a, b with
  | VAnnotated _, VAnnotated _ | VLanguage _, VLanguage _ | VText _, VText _ | VContact _, VContact _
  | VUnit _, VUnit _ | VStyle _, VStyle _ | VParty _, VParty _ | VCandidate _, VCandidate _
  | VSelection _, VSelection _ | VContest _, VContest _ | VContestPh _, VContestPh _
  | VPSelection _, VPSelection _ | VPContest _, VPContest _ | VPBallot _, VPBallot _
  | VCSelection _, VCSelection _ | VCContest _, VCContest _ | VCBallot _, VCBallot _
  | VKeyPair _, VKeyPair _ | VCiphertext _, VCiphertext _ | VHashed _, VHashed _
  | VDisjunctive _, VDisjunctive _ | VConstant _, VConstant _
  | VTriple _, VTriple _ | VQuadruple _, VQuadruple _ | VTwo _, VTwo _ => true
  | _, _ => false
  end.

(** ** Copy constructors, field by field *)
(** manifest.cpp:174-178 (implicit copy of the Impl), 190 *)
Definition annotated_copy (x : annotated_string) : annotated_string :=
  {| an_annotation := an_annotation x; an_value := an_value x |}.
(** manifest.cpp:238-242, 254 *)
Definition language_copy (x : language) : language :=
  {| la_value := la_value x; la_language := la_language x |}.
(** manifest.cpp:297-306, 325-328 *)
Definition text_copy (x : intl_text) : intl_text := map language_copy x.
(** manifest.cpp:399-420 *)
Definition contact_copy (x : contact_info) : contact_info :=
  {| cx_name := cx_name x; cx_address := map (fun e => e) (cx_address x);
     cx_email := map annotated_copy (cx_email x); cx_phone := map annotated_copy (cx_phone x) |}.
(** manifest.cpp:534-543 *)
Definition unit_copy (x : gp_unit) : gp_unit :=
  match gu_contact x with
  | Some c => {| gu_id := gu_id x; gu_name := gu_name x; gu_type := gu_type x; gu_contact := Some (contact_copy c) |}
  | None => {| gu_id := gu_id x; gu_name := gu_name x; gu_type := gu_type x; gu_contact := None |}
  end.
(** manifest.cpp:628-643 *)
Definition style_copy (x : ballot_style) : ballot_style :=
  {| bs_id := bs_id x; bs_units := map (fun e => e) (bs_units x); bs_parties := map (fun e => e) (bs_parties x);
     bs_image := bs_image x |}.
(** manifest.cpp:856-865 *)
Definition candidate_copy (x : candidate) : candidate :=
  match ca_name x with
  | Some n => {| ca_id := ca_id x; ca_name := Some (text_copy n); ca_party := ca_party x; ca_image := ca_image x;
                 ca_writein := ca_writein x |}
  | None => {| ca_id := ca_id x; ca_name := None; ca_party := ca_party x; ca_image := ca_image x;
               ca_writein := ca_writein x |}
  end.
(** manifest.cpp:951-954 *)
Definition selection_copy (x : selection) : selection :=
  {| sd_id := sd_id x; sd_candidate := sd_candidate x; sd_seq := sd_seq x |}.
(** manifest.cpp:1304-1313 and 1318-1322: the base by ContestDescription's copy constructor. *)
Definition contest_ph_copy (x : contest_ph) : outcome contest_ph :=
  do b <- contest_clone (cw_base x);
  Ok {| cw_base := b; cw_placeholders := map selection_copy (cw_placeholders x) |}.
(** manifest.cpp:1324-1328, the move constructor: [other] is a name, so the base is copied. *)
Definition contest_ph_move (x : contest_ph) : outcome contest_ph :=
  do b <- contest_clone (cw_base x);
  Ok {| cw_base := b; cw_placeholders := cw_placeholders x |}.
(** ballot.cpp:79-84 *)
Definition pselection_copy (x : pselection) : pselection :=
  {| ps_id := ps_id x; ps_vote := ps_vote x; ps_placeholder := ps_placeholder x; ps_writein := ps_writein x |}.
(** ballot.cpp:403-411 *)
Definition pcontest_copy (x : pcontest) : pcontest :=
  {| pc_id := pc_id x; pc_selections := map pselection_copy (pc_selections x) |}.
(** ballot.cpp:814-823 *)
Definition pballot_copy (x : pballot) : pballot :=
  {| pb_id := pb_id x; pb_style := pb_style x; pb_contests := map pcontest_copy (pb_contests x) |}.
(** elgamal.cpp:93-98; elements are copied by their (unchecked) copy constructors *)
Definition ciphertext_copy (x : ciphertext) : ciphertext := {| ct_pad := ct_pad x; ct_data := ct_data x |}.
(** elgamal.cpp:286-290 *)
Definition hashed_copy (x : hashed_ct) : hashed_ct :=
  {| hc_pad := hc_pad x; hc_data := hc_data x; hc_mac := hc_mac x |}.
(** chaum_pedersen.cpp:526-535 *)
Definition cproof_copy (x : cproof) : cproof :=
  {| cp_a := cp_a x; cp_b := cp_b x; cp_c := cp_c x; cp_v := cp_v x; cp_const := cp_const x |}.

Section Copy.
Context (gp : params).
(** precompute_buffers.cpp:32-37: clone() of the members, checked for the exponent *)
Definition triple_copy (x : triple) : outcome triple :=
  do e <- clone_q gp (tr_exp x);
  do g <- clone_p gp (tr_g x);
  do k <- clone_p gp (tr_k x);
  Ok {| tr_exp := e; tr_g := g; tr_k := k |}.
(** precompute_buffers.cpp:89-96 *)
Definition quadruple_copy (x : quadruple) : outcome quadruple :=
  do e1 <- clone_q gp (qd_exp1 x);
  do e2 <- clone_q gp (qd_exp2 x);
  do g <- clone_p gp (qd_g1 x);
  do h <- clone_p gp (qd_g2k1 x);
  Ok {| qd_exp1 := e1; qd_exp2 := e2; qd_g1 := g; qd_g2k1 := h |}.
(** precompute_buffers.cpp:148-153; Triple::clone (72-75) and Quadruple::clone (134-138) copy alike.
    The order in which their arguments are cloned is unspecified; the result is the same. *)
Definition two_copy (x : two_triples_quad) : outcome two_triples_quad :=
  do a <- triple_copy (tq_t1 x);
  do b <- triple_copy (tq_t2 x);
  do q <- quadruple_copy (tq_q x);
  Ok {| tq_t1 := a; tq_t2 := b; tq_q := q |}.

(** A copy and what the source has become. *)
Definition kept {A} (f : A -> value) (x : A) (c : outcome A) : outcome (value * value) :=
  do y <- c; Ok (f y, f x).
Definition copy (v : value) : outcome (value * value) :=
  match v with
  | VAnnotated x => kept VAnnotated x (Ok (annotated_copy x))
  | VLanguage x => kept VLanguage x (Ok (language_copy x))
  | VText x => kept VText x (Ok (text_copy x))
  | VContact x => kept VContact x (Ok (contact_copy x))
  | VUnit x => kept VUnit x (Ok (unit_copy x))
  | VStyle x => kept VStyle x (Ok (style_copy x))
  | VParty x => kept VParty x (Ok (party_clone x))
  | VCandidate x => kept VCandidate x (Ok (candidate_copy x))
  | VSelection x => kept VSelection x (Ok (selection_copy x))
  | VContest x => kept VContest x (contest_clone x)
  | VContestPh x => kept VContestPh x (contest_ph_copy x)
  | VPSelection x => kept VPSelection x (Ok (pselection_copy x))
  | VPContest x => kept VPContest x (Ok (pcontest_copy x))
  | VPBallot x => kept VPBallot x (Ok (pballot_copy x))
  | VCSelection x => kept VCSelection x (cselection_copy x)
  | VCContest x => kept VCContest x (ccontest_copy x)
  | VCBallot x => kept VCBallot x (cballot_copy x)
  | VKeyPair x => let '(c, after) := keypair_copy x in Ok (VKeyPair c, VKeyPair after)
  | VCiphertext x => kept VCiphertext x (Ok (ciphertext_copy x))
  | VHashed x => kept VHashed x (Ok (hashed_copy x))
  | VDisjunctive x => kept VDisjunctive x (Ok (dproof_copy x))
  | VConstant x => kept VConstant x (Ok (cproof_copy x))
  | VTriple x => kept VTriple x (triple_copy x)
  | VQuadruple x => kept VQuadruple x (quadruple_copy x)
  | VTwo x => kept VTwo x (two_copy x)
  end.

(** ** Public clone() functions: those of the seven classes that have one.
    PlaintextBallotSelection ballot.cpp:137-142, ElGamalCiphertext elgamal.cpp:207-210,
    HashedElGamalCiphertext elgamal.cpp:439-442, DisjunctiveChaumPedersenProof
    chaum_pedersen.cpp:294-303, Triple, Quadruple and TwoTriplesAndAQuadruple
    precompute_buffers.cpp:72-75, 134-138, 182-186. *)
Definition clone (v : value) : option (outcome value) :=
  match v with
  | VPSelection x => Some (Ok (VPSelection (pselection_copy x)))
  | VCiphertext x =>
      Some (do a <- clone_p gp (ct_pad x); do b <- clone_p gp (ct_data x);
            Ok (VCiphertext {| ct_pad := a; ct_data := b |}))
  | VHashed x =>
      Some (do a <- clone_p gp (hc_pad x); Ok (VHashed {| hc_pad := a; hc_data := hc_data x; hc_mac := hc_mac x |}))
  | VDisjunctive x => Some (do p <- dproof_clone gp x; Ok (VDisjunctive p))
  | VTriple x => Some (do p <- triple_copy x; Ok (VTriple p))
  | VQuadruple x => Some (do p <- quadruple_copy x; Ok (VQuadruple p))
  | VTwo x => Some (do p <- two_copy x; Ok (VTwo p))
  | _ => None
  end.

(** ** Assignment from a named object *)
(** The target and the source afterwards, and whether the operator returned. *)
Record assigned := { as_target : value; as_source : value; as_ended : outcome unit }.
Definition done (t s : value) : assigned := {| as_target := t; as_source := s; as_ended := Ok tt |}.
(** operator=(T other): the parameter is built by the copy constructor, before the body. *)
Definition by_value (t s : value) : assigned :=
  match copy s with
  | Ok (c, s') => done c s'
  | Throw e => {| as_target := t; as_source := s; as_ended := Throw e |}
  | UB => {| as_target := t; as_source := s; as_ended := UB |}
  end.
(** precompute_buffers.cpp:48-54, member by member *)
Definition triple_assign (t s : triple) : triple * outcome unit :=
  match clone_q gp (tr_exp s) with
  | Ok e =>
      match clone_p gp (tr_g s) with
      | Ok g =>
          match clone_p gp (tr_k s) with
          | Ok k => ({| tr_exp := e; tr_g := g; tr_k := k |}, Ok tt)
          | Throw x => ({| tr_exp := e; tr_g := g; tr_k := tr_k t |}, Throw x)
          | UB => ({| tr_exp := e; tr_g := g; tr_k := tr_k t |}, UB)
          end
      | Throw x => ({| tr_exp := e; tr_g := tr_g t; tr_k := tr_k t |}, Throw x)
      | UB => ({| tr_exp := e; tr_g := tr_g t; tr_k := tr_k t |}, UB)
      end
  | Throw x => (t, Throw x)
  | UB => (t, UB)
  end.
(** precompute_buffers.cpp:106-114, member by member; ElementModP::clone neither throws nor
    misbehaves, so the last two members are taken together. *)
Definition quadruple_assign (t s : quadruple) : quadruple * outcome unit :=
  match clone_q gp (qd_exp1 s) with
  | Ok e1 =>
      match clone_q gp (qd_exp2 s) with
      | Ok e2 =>
          match (do g <- clone_p gp (qd_g1 s); do h <- clone_p gp (qd_g2k1 s); Ok (g, h)) with
          | Ok (g, h) => ({| qd_exp1 := e1; qd_exp2 := e2; qd_g1 := g; qd_g2k1 := h |}, Ok tt)
          | Throw x => ({| qd_exp1 := e1; qd_exp2 := e2; qd_g1 := qd_g1 t; qd_g2k1 := qd_g2k1 t |}, Throw x)
          | UB => ({| qd_exp1 := e1; qd_exp2 := e2; qd_g1 := qd_g1 t; qd_g2k1 := qd_g2k1 t |}, UB)
          end
      | Throw x => ({| qd_exp1 := e1; qd_exp2 := qd_exp2 t; qd_g1 := qd_g1 t; qd_g2k1 := qd_g2k1 t |}, Throw x)
      | UB => ({| qd_exp1 := e1; qd_exp2 := qd_exp2 t; qd_g1 := qd_g1 t; qd_g2k1 := qd_g2k1 t |}, UB)
      end
  | Throw x => (t, Throw x)
  | UB => (t, UB)
  end.
(** precompute_buffers.cpp:165-172 *)
Definition two_assign (t s : two_triples_quad) : two_triples_quad * outcome unit :=
  match triple_copy (tq_t1 s) with
  | Ok a =>
      match triple_copy (tq_t2 s) with
      | Ok b =>
          match quadruple_copy (tq_q s) with
          | Ok q => ({| tq_t1 := a; tq_t2 := b; tq_q := q |}, Ok tt)
          | Throw x => ({| tq_t1 := a; tq_t2 := b; tq_q := tq_q t |}, Throw x)
          | UB => ({| tq_t1 := a; tq_t2 := b; tq_q := tq_q t |}, UB)
          end
      | Throw x => ({| tq_t1 := a; tq_t2 := tq_t2 t; tq_q := tq_q t |}, Throw x)
      | UB => ({| tq_t1 := a; tq_t2 := tq_t2 t; tq_q := tq_q t |}, UB)
      end
  | Throw x => (t, Throw x)
  | UB => (t, UB)
  end.
Definition assign (t s : value) : assigned :=
  match t, s with
  (* manifest.cpp:1392-1399: the parameter is copied, base included; only the pointer of the derived
     class is swapped, the base of the target stays *)
  | VContestPh x, VContestPh y =>
      match contest_ph_copy y with
      | Ok c => done (VContestPh {| cw_base := cw_base x; cw_placeholders := cw_placeholders c |}) s
      | Throw e => {| as_target := t; as_source := s; as_ended := Throw e |}
      | UB => {| as_target := t; as_source := s; as_ended := UB |}
      end
  (* manifest.cpp:200-208, 264-272 *)
  | VAnnotated _, VAnnotated y => done (VAnnotated (annotated_copy y)) s
  | VLanguage _, VLanguage y => done (VLanguage (language_copy y)) s
  | VTriple x, VTriple y =>
      let '(r, o) := triple_assign x y in {| as_target := VTriple r; as_source := s; as_ended := o |}
  | VQuadruple x, VQuadruple y =>
      let '(r, o) := quadruple_assign x y in {| as_target := VQuadruple r; as_source := s; as_ended := o |}
  | VTwo x, VTwo y =>
      let '(r, o) := two_assign x y in {| as_target := VTwo r; as_source := s; as_ended := o |}
  | _, _ => by_value t s
  end.

(** ** Programs over any number of objects *)
Inductive vop := OCopy (i : nat) | OClone (i : nat) | OAssign (i j : nat).
Definition vput (s : list value) (i : nat) (v : value) : list value := firstn i s ++ v :: skipn (S i) s.
(** The objects afterwards and how the operation ended; operations the compiler would refuse
    (no such object, no such function, another class) do nothing. *)
Definition vstep (s : list value) (op : vop) : list value * outcome unit :=
  match op with
  | OCopy i =>
      match nth_error s i with
      | Some v =>
          match copy v with
          | Ok (c, after) => (vput s i after ++ [c], Ok tt)
          | Throw e => (s, Throw e)
          | UB => (s, UB)
          end
      | None => (s, Ok tt)
      end
  | OClone i =>
      match nth_error s i with
      | Some v =>
          match clone v with
          | Some (Ok c) => (s ++ [c], Ok tt)
          | Some (Throw e) => (s, Throw e)
          | Some UB => (s, UB)
          | None => (s, Ok tt)
          end
      | None => (s, Ok tt)
      end
  | OAssign i j =>
      match nth_error s i, nth_error s j with
      | Some t, Some v =>
          if same_class t v then
            let r := assign t v in
            (vput (vput s j (as_source r)) i (as_target r), as_ended r)
          else (s, Ok tt)
      | _, _ => (s, Ok tt)
      end
  end.
Fixpoint vruns (s : list value) (ops : list vop) : list value * list (outcome unit) :=
  match ops with
  | [] => (s, [])
  | op :: t => let '(s1, r) := vstep s op in let '(s2, rs) := vruns s1 t in (s2, r :: rs)
  end.
End Copy.
