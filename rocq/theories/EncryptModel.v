(** src/electionguard/encrypt.cpp *)
From Coq Require Import String.
From Verif Require Import Base GroupModel CodecModel HashModel ElgamalModel ChaumModel SortModel
  ManifestModel BallotModel JsonModel.
Open Scope string_scope.
Open Scope list_scope.
Open Scope Z_scope.

(** ** The environment of an encryption
    Answers of the random generator, of the precompute buffers and of the clock,
    by the number of the call.  Every schedule of the threads that fill and drain
    the buffers gives some such sequence of answers. *)
Record env := {
  e_rand : nat -> Z;                         (* rand_q() *)
  e_tq : nat -> option two_triples_quad;     (* getTwoTriplesAndAQuadruple() *)
  e_tr : nat -> option triple;               (* getTriple() *)
  e_clock : nat -> Z }.                      (* getSystemTimestamp() *)
Record st := { n_rand : nat; n_tq : nat; n_tr : nat; n_clock : nat }.
Definition st0 : st := {| n_rand := 0; n_tq := 0; n_tr := 0; n_clock := 0 |}.

Definition M (A : Type) := st -> outcome (A * st).
Definition ret {A} (a : A) : M A := fun s => Ok (a, s).
Definition mbind {A B} (m : M A) (f : A -> M B) : M B :=
  fun s => match m s with Ok (a, s') => f a s' | Throw e => Throw e | UB => UB end.
Definition lift {A} (o : outcome A) : M A :=
  fun s => match o with Ok a => Ok (a, s) | Throw e => Throw e | UB => UB end.
Notation "'let!' x := m 'in' k" := (mbind m (fun x => k))
  (at level 200, x pattern, m at level 100, k at level 200, right associativity).

(** A loop pushing one result per element, with a loop-carried value. *)
Fixpoint mfold {A B C} (f : C -> A -> M (B * C)) (l : list A) (c : C) : M (list B * C) :=
  match l with
  | [] => ret ([], c)
  | x :: t => let! (y, c1) := f c x in
              let! (ys, c2) := mfold f t c1 in
              ret (y :: ys, c2)
  end.

Section Env.
Context (E : env).
Definition draw : M Z :=
  fun s => Ok (e_rand E (n_rand s),
               {| n_rand := S (n_rand s); n_tq := n_tq s; n_tr := n_tr s; n_clock := n_clock s |}).
Definition ask_tq : M (option two_triples_quad) :=
  fun s => Ok (e_tq E (n_tq s),
               {| n_rand := n_rand s; n_tq := S (n_tq s); n_tr := n_tr s; n_clock := n_clock s |}).
Definition ask_tr : M (option triple) :=
  fun s => Ok (e_tr E (n_tr s),
               {| n_rand := n_rand s; n_tq := n_tq s; n_tr := S (n_tr s); n_clock := n_clock s |}).
Definition ask_clock : M Z :=
  fun s => Ok (e_clock E (n_clock s),
               {| n_rand := n_rand s; n_tq := n_tq s; n_tr := n_tr s; n_clock := S (n_clock s) |}).
End Env.

(** ** Completing plaintext ballots *)
(** 189-195 selectionFrom *)
Definition selection_from (d : selection) (placeholder affirmative : bool) : pselection :=
  {| ps_id := sd_id d; ps_vote := if affirmative then 1 else 0; ps_placeholder := placeholder;
     ps_writein := [] |}.
(** 197-205 contestFrom *)
Definition contest_from (d : contest_ph) : pcontest :=
  {| pc_id := cd_id (cw_base d);
     pc_selections := map (fun s => selection_from s false false) (get_selections (cw_base d)) |}.
(** 207-230 emplaceMissingValues (contest) *)
Definition emplace_contest (c : pcontest) (d : contest_ph) : pcontest :=
  {| pc_id := cd_id (cw_base d);
     pc_selections :=
       map (fun sd => match find (fun s => bytes_eqb (ps_id s) (sd_id sd)) (pc_selections c) with
                      | Some s => s
                      | None => selection_from sd false false
                      end) (get_selections (cw_base d)) |}.
(** 232-257 emplaceMissingValues (ballot): the style pointer is dereferenced
    without a check. *)
Definition emplace_ballot (b : pballot) (m : internal_manifest) : outcome pballot :=
  match get_style m (pb_style b) with
  | None => UB
  | Some style =>
      do ds <- contests_for m (bs_id style);
      Ok {| pb_id := pb_id b; pb_style := pb_style b;
            pb_contests :=
              map (fun d => match find (fun c => bytes_eqb (pc_id c) (cd_id (cw_base d))) (pb_contests b) with
                            | Some c => emplace_contest c d
                            | None => contest_from d
                            end) ds |}
  end.

(** ** Extended data: 340-405 getOvervoteAndWriteIns *)
Definition error_data (c : pcontest) : outcome json :=
  foldM (fun j s => if ps_vote s =? 1 then json_push j (JStr (ps_id s)) else Ok j)
        (pc_selections c) JNull.
(** 367-371: the last contest with the id. *)
Definition ballot_selections (c : pcontest) (m : internal_manifest) : list selection :=
  fold_left (fun acc d => if bytes_eqb (pc_id c) (cd_id (cw_base d))
                          then get_selections (cw_base d) else acc) (im_get_contests m) [].
Definition writeins_of (c : pcontest) (m : internal_manifest) : outcome json :=
  foldM (fun j s =>
    if ps_vote s =? 1 then
      foldM (fun j d =>
        if bytes_eqb (ps_id s) (sd_id d) then
          foldM (fun j k => if bytes_eqb (sd_candidate d) (ca_id k) && ca_writein k
                            then json_set j (ps_id s) (JStr (ps_writein s)) else Ok j)
                (im_candidates m) j
        else Ok j) (ballot_selections c m) j
    else Ok j) (pc_selections c) JNull.
Definition is_null (j : json) : bool := match j with JNull => true | _ => false end.

Section Encrypt.
Context (gp : params) (sha : bytes -> Z) (hmac : bytes -> bytes -> Z).
(** nlohmann::json::dump *)
Context (dump : json -> outcome bytes).

Definition extended_data (c : pcontest) (m : internal_manifest) (check : contest_check) : outcome bytes :=
  do j0 <- match check with
           | OVERVOTE =>
               do e <- error_data c;
               do j <- json_set JNull (s2b "error") (JStr (s2b "overvote"));
               json_set j (s2b "error_data") e
           | _ => Ok JNull
           end;
  do w <- writeins_of c m;
  do j1 <- (if is_null w then Ok j0 else json_set j0 (s2b "write_ins") w);
  if is_null j1 then Ok [] else dump j1.

(** nonces.cpp:18-34: Nonces(seed, header).get(i) *)
Definition nonce_of (seed : Z) (header : hitem) (i : Z) : Z :=
  fst (nonces_get gp sha (nonces_new gp sha seed header) i).

(** ** 260-338 encryptSelection *)
Definition encrypt_selection (E : env) (s : pselection) (d : selection) (pk ext seed : Z)
  (placeholder verify : bool) : M cselection :=
  if negb (pselection_valid s (sd_id d)) then lift (Throw InvalidArgument)
  else
    let dh := selection_hash gp sha d in
    let nonce := nonce_of dh (HElemQ seed) (sd_seq d) in
    let! tq := ask_tq E in
    let! c :=
      match tq with
      | Some t =>
          let ct := elgamal_encrypt_precomp gp (ps_vote s) (tr_g (tq_t1 t)) (tr_k (tq_t1 t)) in
          let! p := lift (dproof_make_precomp gp sha ct t ext (ps_vote s)) in
          ret {| cs_id := ps_id s; cs_seq := sd_seq d; cs_desc := dh; cs_ct := ct;
                 cs_placeholder := placeholder; cs_nonce := Some (tr_exp (tq_t1 t));
                 cs_hash := cselection_hash gp sha (ps_id s) dh ct; cs_proof := Some p |}
      | None =>
          let! ct := lift (elgamal_encrypt gp (ps_vote s) nonce pk) in
          let! u := draw E in
          let! v := draw E in
          let! w := draw E in
          let! p := lift (dproof_make_rand gp sha ct nonce pk ext (ps_vote s) u v w) in
          ret {| cs_id := ps_id s; cs_seq := sd_seq d; cs_desc := dh; cs_ct := ct;
                 cs_placeholder := placeholder; cs_nonce := Some nonce;
                 cs_hash := cselection_hash gp sha (ps_id s) dh ct; cs_proof := Some p |}
      end in
    if negb verify then ret c
    else if cselection_valid gp sha c dh pk ext then ret c
    else lift (Throw RuntimeError).

(** ** 407-550 encryptContest *)
(** 453-482: one real selection; [count] is selectionCount. *)
Definition encrypt_real (E : env) (normalized : list pselection) (overvote : bool)
  (pk ext seed : Z) (verify : bool) (count : Z) (d : selection) : M (cselection * Z) :=
  match find (fun s => bytes_eqb (ps_id s) (sd_id d)) normalized with
  | None => lift (Throw RuntimeError)
  | Some s =>
      let s' := if overvote
                then {| ps_id := ps_id s; ps_vote := 0; ps_placeholder := false; ps_writein := [] |}
                else s in
      let! c := encrypt_selection E s' d pk ext seed false verify in
      ret (c, (count + ps_vote s') mod W64)
  end.
(** 487-506: one placeholder *)
Definition encrypt_placeholder (E : env) (overvote : bool) (elected : Z)
  (pk ext seed : Z) (verify : bool) (count : Z) (d : selection) : M (cselection * Z) :=
  let select := overvote || (count <? elected) in
  let count' := if negb overvote && (count <? elected) then (count + 1) mod W64 else count in
  let! c := encrypt_selection E (selection_from d true select) d pk ext seed true verify in
  ret (c, count').

Definition is_overvote (c : contest_check) : bool := match c with OVERVOTE => true | _ => false end.
(** elgamal.hpp:145-149 *)
Definition BYTES_512 : Z := 510.

Definition encrypt_contest (E : env) (c : pcontest) (m : internal_manifest) (d : contest_ph)
  (pk ext seed : Z) (verify : bool) : M ccontest :=
  let b := cw_base d in
  let check := pcontest_valid c (cd_id b) (Z.of_nat (List.length (get_selections b))) (cd_elected b)
                              (cd_allowed b) true in
  match check with
  | SUCCESS | OVERVOTE =>
      let! dh := lift (contest_hash gp sha b) in
      let ns := nonces_new gp sha dh (HElemQ seed) in
      let '(contest_nonce, ns1) := nonces_get gp sha ns (cd_seq b) in
      let proof_nonce := fst (nonces_next gp sha ns1) in
      let! data := lift (extended_data c m check) in
      let over := is_overvote check in
      let normalized := pc_selections (emplace_contest c d) in
      let! (reals, count) :=
        mfold (encrypt_real E normalized over pk ext contest_nonce verify) (get_selections b) 0 in
      let! (phs, count') :=
        mfold (encrypt_placeholder E over (cd_elected b) pk ext contest_nonce verify)
              (get_placeholders d) count in
      let! n1 := lift (clone_q gp contest_nonce) in
      let data_nonce := nonce_of n1 (HStr (s2b "constant-extended-data")) 0 in
      let! t1 := ask_tr E in
      let! hashed := lift (hashed_encrypt gp sha hmac t1 data data_nonce pk ext BYTES_512 true) in
      let! n2 := lift (clone_q gp contest_nonce) in
      let! t2 := ask_tr E in
      let! r := lift (ccontest_make gp sha t2 (pc_id c) (cd_seq b) dh (reals ++ phs) pk ext
                                    proof_nonce (cd_elected b) (Some n2) (Some hashed)) in
      if negb verify then ret r
      else
        let! ok := lift (ccontest_valid gp sha r dh pk ext) in
        if ok : bool then ret r else lift (Throw RuntimeError)
  | _ => lift (Throw InvalidArgument)
  end.

(** ** 552-583 encryptContests *)
Fixpoint mmap {A B} (f : A -> M B) (l : list A) : M (list B) :=
  match l with
  | [] => ret []
  | x :: t => let! y := f x in let! ys := mmap f t in ret (y :: ys)
  end.
Definition encrypt_contests (E : env) (b : pballot) (m : internal_manifest) (cx : context)
  (seed : Z) (verify : bool) : M (list ccontest) :=
  match get_style m (pb_style b) with
  | None => lift UB
  | Some style =>
      let! nb := lift (emplace_ballot b m) in
      let! ds := lift (contests_for m (bs_id style)) in
      mmap (fun d =>
        match find (fun c => bytes_eqb (pc_id c) (cd_id (cw_base d))) (pb_contests nb) with
        | None => lift (Throw RuntimeError)
        | Some c => encrypt_contest E c m d (el_pk cx) (el_ext cx) seed verify
        end) ds
  end.

(** ** 585-646 encryptBallot *)
Definition encrypt_ballot (E : env) (b : pballot) (m : internal_manifest) (cx : context)
  (code_seed : Z) (nonce : option Z) (timestamp : Z) (verify : bool) : M cballot :=
  match get_style m (pb_style b) with
  | None => lift (Throw InvalidArgument)
  | Some _ =>
      let! n := match nonce with Some n => ret n | None => draw E end in
      let seed := nonce_seed gp sha (im_hash m) (pb_id b) n in
      let! cs := encrypt_contests E b m cx seed verify in
      let! t := if timestamp =? 0 then ask_clock E else ret timestamp in
      let! now := if t =? 0 then ask_clock E else ret 0 in
      let! r := lift (cballot_make gp sha now (pb_id b) (pb_style b) (im_hash m) cs (Some n) t
                                   (Some code_seed) None) in
      if negb verify then ret r
      else
        let! ok := lift (cballot_valid gp sha r (im_hash m) (el_pk cx) (el_ext cx)) in
        if ok : bool then ret r else lift (Throw RuntimeError)
  end.

(** ** ballot_compact.cpp *)
(** 32-44 *)
Record compact_plain := { cpt_id : bytes; cpt_style : bytes; cpt_votes : list Z; cpt_writeins : list bytes }.
(** 115-133 *)
Record compact_cipher := {
  cct_plain : compact_plain; cct_state : box_state; cct_seed : Z; cct_code : Z;
  cct_timestamp : Z; cct_nonce : Z }.
(** 232-248 compressPlaintextBallot *)
Definition compress_plain (b : pballot) : compact_plain :=
  let ss := flat_map pc_selections (pb_contests b) in
  {| cpt_id := pb_id b; cpt_style := pb_style b; cpt_votes := map ps_vote ss;
     cpt_writeins := map ps_writein ss |}.
(** 250-272 compressCiphertextBallot: seed and code of a ballot are never null in
    this model; the elements are cloned (checked). *)
Definition compress_cipher (p : pballot) (c : cballot) : outcome compact_cipher :=
  match cb_nonce c with
  | None => Throw InvalidArgument
  | Some n =>
      do s <- clone_q gp (cb_seed c);
      do k <- clone_q gp (cb_code c);
      do n' <- clone_q gp n;
      Ok {| cct_plain := compress_plain p; cct_state := BS_unknown; cct_seed := s; cct_code := k;
            cct_timestamp := cb_timestamp c; cct_nonce := n' |}
  end.

(** vector::at *)
Definition vec_at {A} (l : list A) (i : nat) : outcome A :=
  match nth_error l i with Some a => Ok a | None => Throw OutOfRange end.
(** 277-305 expandCompactPlaintextBallot: the two loops share one index. *)
Fixpoint expand_selections (cp : compact_plain) (l : list selection) (i : nat) : outcome (list pselection) :=
  match l with
  | [] => Ok []
  | d :: t =>
      do v <- vec_at (cpt_votes cp) i;
      do w <- vec_at (cpt_writeins cp) i;
      do r <- expand_selections cp t (S i);
      Ok ({| ps_id := sd_id d; ps_vote := v; ps_placeholder := false; ps_writein := w |} :: r)
  end.
Fixpoint expand_contests (cp : compact_plain) (l : list contest_ph) (i : nat) : outcome (list pcontest) :=
  match l with
  | [] => Ok []
  | d :: t =>
      let ss := get_selections (cw_base d) in
      do s <- expand_selections cp ss i;
      do r <- expand_contests cp t (i + List.length ss)%nat;
      Ok ({| pc_id := cd_id (cw_base d); pc_selections := s |} :: r)
  end.
Definition expand_plain (cp : compact_plain) (m : internal_manifest) : outcome pballot :=
  do ds <- contests_for m (cpt_style cp);
  do cs <- expand_contests cp ds 0;
  Ok {| pb_id := cpt_id cp; pb_style := cpt_style cp; pb_contests := cs |}.
(** 307-339 expandCompactCiphertextBallot *)
Definition expand_cipher (E : env) (cc : compact_cipher) (m : internal_manifest) (cx : context) : M cballot :=
  let! p := lift (expand_plain (cct_plain cc) m) in
  let! n := lift (clone_q gp (cct_nonce cc)) in
  let! c := encrypt_ballot E p m cx (cct_seed cc) (Some n) (cct_timestamp cc) true in
  if elem_eq (cb_code c) (cct_code cc) then ret c else lift (Throw RuntimeError).

(** encrypt.cpp:648-659 encryptCompactBallot *)
Definition encrypt_compact_ballot (E : env) (b : pballot) (m : internal_manifest) (cx : context)
  (code_seed : Z) (nonce : option Z) (timestamp : Z) (verify : bool) : M compact_cipher :=
  let! nb := lift (emplace_ballot b m) in
  let! c := encrypt_ballot E nb m cx code_seed nonce timestamp verify in
  lift (compress_cipher nb c).

(** ** The mediator *)
(** 38-54 EncryptionDevice::Impl *)
Record device := { dv_device : Z; dv_session : Z; dv_launch : Z; dv_location : bytes }.
Definition device_get_hash (d : device) : Z :=
  device_hash gp sha (dv_device d) (dv_session d) (dv_launch d) (dv_location d).
(** 102-128: manifest, context and device are references; only the seed changes. *)
Record mediator := { md_manifest : internal_manifest; md_context : context; md_device : device;
                     md_seed : option Z }.
Definition mediator_new (m : internal_manifest) (cx : context) (d : device) : outcome mediator :=
  if bytes_eqb (to_hex_q (im_hash m)) (to_hex_q (el_manifest cx))
  then Ok {| md_manifest := m; md_context := cx; md_device := d; md_seed := None |}
  else Throw InvalidArgument.
Definition with_seed (md : mediator) (s : Z) : mediator :=
  {| md_manifest := md_manifest md; md_context := md_context md; md_device := md_device md;
     md_seed := Some s |}.
(** A request, each with its own environment. *)
Inductive request :=
| ReqEncrypt (E : env) (b : pballot) (verify : bool)
| ReqCompact (E : env) (b : pballot) (verify : bool).
Inductive response :=
| RespBallot (r : outcome cballot)
| RespCompact (r : outcome compact_cipher).
Definition value_of {A} (o : outcome (A * st)) : outcome A :=
  match o with Ok (a, _) => Ok a | Throw e => Throw e | UB => UB end.
(** 137-160 encrypt and 162-185 compactEncrypt *)
Definition mediator_step (md : mediator) (r : request) : mediator * response :=
  let seed := match md_seed md with Some s => s | None => device_get_hash (md_device md) end in
  let md1 := with_seed md seed in
  match r with
  | ReqEncrypt E b verify =>
      let o := value_of ((let! t := ask_clock E in
                          encrypt_ballot E b (md_manifest md) (md_context md) seed None t verify) st0) in
      (match o with Ok c => with_seed md (cb_code c) | _ => md1 end, RespBallot o)
  | ReqCompact E b verify =>
      let o := value_of ((let! t := ask_clock E in
                          encrypt_compact_ballot E b (md_manifest md) (md_context md) seed None t verify) st0) in
      (match o with Ok c => with_seed md (cct_code c) | _ => md1 end, RespCompact o)
  end.
Fixpoint mediator_run (md : mediator) (l : list request) : mediator * list response :=
  match l with
  | [] => (md, [])
  | r :: t => let '(md1, x) := mediator_step md r in
              let '(md2, xs) := mediator_run md1 t in (md2, x :: xs)
  end.
End Encrypt.
