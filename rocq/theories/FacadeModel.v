(** src/electionguard/facades: the values that cross the C interface.  What the interface does
    with the objects behind its handles is in CApiModel.v, its lists are in CollModel.v.
    Handles are represented here by the objects they name; a handle that a function gives
    out is an [option], [None] where nothing is written. *)
From Verif Require Import Base GroupModel CodecModel BallotModel ContextModel ManifestModel JsonModel SerializeModel CollModel.
Open Scope Z_scope.

(** ** Texts and byte arrays *)
(** What is read through a char pointer into an array: the bytes before the first zero.  An
    array without a zero is read beyond its end. *)
Fixpoint read_text (buffer : bytes) : outcome bytes :=
  match buffer with
  | [] => UB
  | c :: t => if c =? 0 then Ok [] else do s <- read_text t; Ok (c :: s)
  end.
(** std::string::c_str: the characters and a zero. *)
Definition c_str (s : bytes) : bytes := s ++ [0].
(** strncpy(3): at most [n] bytes; after the end of the source, zeroes. *)
Fixpoint strncpy (n : nat) (source : bytes) : bytes :=
  match n with
  | O => []
  | S n' => match source with
            | [] => 0 :: strncpy n' []
            | c :: t => if c =? 0 then 0 :: strncpy n' [] else c :: strncpy n' t
            end
  end.
(** convert.hpp:268-277 dynamicCopy of a string, and of hex texts and identifiers 280-284: the
    array and the size reported.  The result of malloc is not checked. *)
Definition text_out (s : bytes) (ok : bool) : outcome (bytes * Z) :=
  let size := S (length s) in
  if ok then Ok (strncpy size (c_str s), Z.of_nat size) else UB.
(** convert.hpp:287-293 dynamicCopy of a vector of bytes; new[] throws, which the facade reports. *)
Definition bytes_out (l : bytes) (ok : bool) : outcome (bytes * Z) :=
  if ok then Ok (l, Z.of_nat (length l)) else Throw BadAlloc.
(** string(in_data) of an argument, as in facades/ballot.cpp eg_plaintext_ballot_from_json; the
    null pointer is undefined (in libstdc++ an exception). *)
Definition text_in (buffer : option bytes) : outcome bytes :=
  match buffer with None => UB | Some b => read_text b end.
(** vector<uint8_t>(in_data, in_data + in_length), as in eg_plaintext_ballot_from_bson. *)
Definition bytes_in (buffer : bytes) (n : Z) : outcome bytes :=
  if n <=? Z.of_nat (length buffer) then Ok (firstn (Z.to_nat n) buffer) else UB.

(** The catch clauses of facades/election.cpp, ballot.cpp, group.cpp and manifest.cpp: every
    exception is ELECTIONGUARD_STATUS_ERROR_BAD_ALLOC and no handle is written. *)
Definition wrap {A} (x : outcome A) : outcome (status * option A) :=
  match x with
  | Ok a => Ok (Success, Some a)
  | Throw _ => Ok (BadAllocStatus, None)
  | UB => UB
  end.

(** eg_*_to_json and eg_*_from_json, all alike: facades/election.cpp:341-354 and 372-389, ballot.cpp
    724-737 and 769-785 and so on. *)
Definition c_to_json {A} (dump : json -> outcome bytes) (f : A -> outcome json) (x : A) (ok : bool)
  : outcome (status * option (bytes * Z)) :=
  wrap (do s <- to_text dump f x; text_out s ok).
Definition c_from_json {A} (parse : bytes -> outcome json) (g : json -> outcome A) (buffer : option bytes)
  : outcome (status * option A) :=
  wrap (do s <- text_in buffer; of_text parse g s).

(** ** Extended data of contexts *)
(** unordered_map operator[] and assignment; the order of the entries is not observable but
    through iteration, for which see [get_extended]. *)
Definition map_set (m : list (bytes * bytes)) (k v : bytes) : list (bytes * bytes) :=
  if existsb (fun e => bytes_eqb (fst e) k) m
  then map (fun e => if bytes_eqb (fst e) k then (k, v) else e) m
  else m ++ [(k, v)].
(** string(edKey), string(edValue): the lists of CollModel.v hold what their pointers show. *)
Definition to_string (s : option bytes) : outcome bytes :=
  match s with None => UB | Some s => Ok s end.
(** facades/election.cpp:231-239, 267-275, 320-328.  The count is asked again in every round;
    as many rounds are allowed as it says at first.  [None] is the return of BAD_ACCESS. *)
Fixpoint read_loop (n : nat) (m : memory) (h : ptr) (i : Z) (acc : list (bytes * bytes))
  : outcome (option (list (bytes * bytes))) :=
  do count <- list_get_count m h;
  if i <? count then
    match n with
    | O => UB
    | S n' =>
        do (s, r) <- list_get_element_at m h i;
        match s, r with
        | Success, Some (k, v) =>
            do ks <- load_str m k; do vs <- load_str m v;
            do key <- to_string ks; do value <- to_string vs;
            read_loop n' m h (i + 1) (map_set acc key value)
        | _, _ => Ok None
        end
    end
  else Ok (Some acc).
Definition read_list (m : memory) (h : ptr) : outcome (option (list (bytes * bytes))) :=
  do count <- list_get_count m h; read_loop (Z.to_nat count) m h 0 [].

(** ** Contexts *)
Section Context.
Context (gp : params) (sha : bytes -> Z).

(** election.hpp:27 and constants.h:23: the configuration of a context made without one. *)
Definition default_configuration : bool * Z := (true, 1000000).
(** election.cpp:44-96: the four constructors. *)
Definition full (c : context) (configuration : bool * Z) (extended : list (bytes * bytes)) : full_context :=
  {| fc_context := c; fc_overvotes := fst configuration; fc_max_ballots := snd configuration;
     fc_extended := extended |}.
(** The clones of the arguments (all three are made before the context is; ElementModP's
    clone is not checked, ElementModQ's is) and election.cpp:206-278. *)
Definition make_cloned (n q pk commitment manifest : Z) (configuration : bool * Z)
  (extended : list (bytes * bytes)) : outcome full_context :=
  do k <- clone_p gp pk; do c <- clone_q gp commitment; do m <- clone_q gp manifest;
  Ok (full (context_make gp sha n q k c m) configuration extended).

(** facades/election.cpp:174-194 *)
Definition c_make (n q pk commitment manifest : Z) : outcome (status * option full_context) :=
  wrap (make_cloned n q pk commitment manifest default_configuration []).
(** 196-219 *)
Definition c_make_configured (n q pk commitment manifest : Z) (configuration : bool * Z)
  : outcome (status * option full_context) :=
  wrap (make_cloned n q pk commitment manifest (fst configuration, snd configuration) []).
(** 221-251 *)
Definition c_make_extended (m : memory) (n q pk commitment manifest : Z) (h : ptr)
  : outcome (status * option full_context) :=
  do r <- read_list m h;
  match r with
  | None => Ok (BadAccessStatus, None)
  | Some l => wrap (make_cloned n q pk commitment manifest default_configuration l)
  end.
(** 253-287 *)
Definition c_make_both (m : memory) (n q pk commitment manifest : Z) (configuration : bool * Z) (h : ptr)
  : outcome (status * option full_context) :=
  do r <- read_list m h;
  match r with
  | None => Ok (BadAccessStatus, None)
  | Some l => wrap (make_cloned n q pk commitment manifest (fst configuration, snd configuration) l)
  end.
(** 289-308; the texts are what the pointers show. *)
Definition c_make_hex (n q : Z) (pk commitment manifest : bytes) : outcome (status * option full_context) :=
  wrap (do c <- context_make_hex gp sha n q pk commitment manifest; Ok (full c default_configuration [])).
(** 310-339: the list is read and then not passed on (330-331). *)
Definition c_make_hex_extended (m : memory) (n q : Z) (pk commitment manifest : bytes) (h : ptr)
  : outcome (status * option full_context) :=
  do r <- read_list m h;
  match r with
  | None => Ok (BadAccessStatus, None)
  | Some _ => c_make_hex n q pk commitment manifest
  end.
End Context.

(** 154-172 eg_ciphertext_election_context_get_extended_data.  [entries] are the entries in the order in
    which the unordered_map iterates; which allocations succeed are arguments, those of
    append (collections.c:44-73) by position.  The answers of append are ignored.  strdup
    copies up to the first zero of c_str. *)
Definition shown (s : bytes) : option bytes :=
  match read_text (c_str s) with Ok t => Some t | _ => None end.
Fixpoint append_loop (m : memory) (h : ptr) (entries : list (bytes * bytes)) (i : nat)
  (oks : nat -> bool * bool * bool) : outcome memory :=
  match entries with
  | [] => Ok m
  | (k, v) :: t =>
      let '(a, b, c) := oks i in
      do (m', _) <- list_append m h (shown k) (shown v) a b c;
      append_loop m' h t (S i) oks
  end.
Definition c_get_extended (m : memory) (entries : list (bytes * bytes)) (ok : bool)
  (oks : nat -> bool * bool * bool) : outcome (memory * status * ptr) :=
  let '(m1, s, h) := list_new m ok in
  match s with
  | Success => do m2 <- append_loop m1 h entries 0 oks; Ok (m2, Success, h)
  | _ => Ok (m1, BadAllocStatus, None)
  end.

(** ** Dates of manifests *)
(** A uint64_t as an int64_t. *)
Definition signed64 (x : Z) : Z := if x <? 2 ^ 63 then x else x - 2 ^ 64.
(** facades/manifest.cpp:1638-1639 and 1705-1706: time_point(milliseconds{in_date}).  A clock
    has [den] ticks in a second (std::chrono::system_clock: 10^9 in libstdc++, 10^7 in Microsoft's
    library, 10^6 in libc++); the product of two int64_t must be one. *)
Definition date_in (den ms : Z) : outcome Z :=
  let t := signed64 ms * (den / 1000) in
  if (- 2 ^ 63 <=? t) && (t <? 2 ^ 63) then Ok t else UB.
(** 1795-1817: count() * period::num / period::den, returned as a uint64_t. *)
Definition date_out (den t : Z) : Z := Z.quot (t * 1) den mod 2 ^ 64.
(** 1625-1691 and 1693-1763 (which also set name and contact), as far as dates are
    concerned: the rest of the manifest is [x]. *)
Definition c_manifest_new (den : Z) (x : manifest) (start_date end_date : Z) : outcome manifest :=
  do s <- date_in den start_date;
  do e <- date_in den end_date;
  Ok {| mf_scope := mf_scope x; mf_type := mf_type x; mf_start := s; mf_end := e; mf_units := mf_units x;
        mf_parties := mf_parties x; mf_candidates := mf_candidates x; mf_contests := mf_contests x;
        mf_styles := mf_styles x; mf_name := mf_name x; mf_contact := mf_contact x |}.
Definition c_start_date (den : Z) (x : manifest) : Z := date_out den (mf_start x).
Definition c_end_date (den : Z) (x : manifest) : Z := date_out den (mf_end x).

(** ** Ballots of voters *)
(** facades/ballot.cpp:92-106: there is no argument for a write-in. *)
Definition c_selection_new (id : option bytes) (vote : Z) (placeholder : bool) : outcome pselection :=
  do i <- text_in id; Ok {| ps_id := i; ps_vote := vote; ps_placeholder := placeholder; ps_writein := [] |}.
(** 341-365; the selections are moved out of their handles. *)
Definition c_contest_new (id : option bytes) (l : list pselection) : outcome pcontest :=
  do i <- text_in id; Ok {| pc_id := i; pc_selections := l |}.
(** 634-660 *)
Definition c_ballot_new (id style : option bytes) (l : list pcontest) : outcome pballot :=
  do i <- text_in id; do s <- text_in style; Ok {| pb_id := i; pb_style := s; pb_contests := l |}.
(** ballot.cpp:38-86: the value and the length of extended data are stored as given. *)
Record extended := { xd_value : bytes; xd_length : Z }.
Definition c_extended_new (value : option bytes) (n : Z) : outcome extended :=
  do v <- text_in value; Ok {| xd_value := v; xd_length := n |}.
