(** C72: the C interface under a client that goes by the headers. *)
From Coq Require Import PArith.
From Verif Require Import Base CApiClass CApiNames CApiModel CApiSpec CApiTable CHeaderTable CApiProofs.
Import ListNotations.
Local Open Scope list_scope.
Local Open Scope nat_scope.

(** The functions a C program can link against, and the client's own reads. *)
Definition library : list func :=
  link (map (fun c => (cname c, csignature c)) headers) implementation ++ client_reads.
(** What the client goes by. *)
Definition documentation : list contract := headers ++ reading.

Definition linked (n : name) : Prop := exists f, lookup library n = Some f.

(** Declared to C and not defined for it. *)
Definition unlinked : list name := [
  eg_plaintext_ballot_selection_new_with_extended_data;
  eg_plaintext_ballot_selection_get_extended_data;
  eg_ciphertext_ballot_contest_get_proof;
  eg_ciphertext_ballot_contest_crypto_hash_with;
  eg_ciphertext_ballot_contest_aggregate_nonce;
  eg_ciphertext_ballot_contest_elgamal_accumulate;
  eg_ciphertext_ballot_get_timestamp;
  eg_encrypt_contest;
  eg_contest_description_new_with_title_and_parties;
  eg_contest_description_with_placeholders_new_with_title;
  eg_contest_description_with_placeholders_new_with_title_and_parties].
(** Functions whose handles are mistyped in the body, and the one that frees parts of its argument. *)
Definition broken : list name := [
  eg_linked_list_delete_last;
  eg_intertnationalized_text_crypto_hash;
  eg_contact_information_get_email_line_at_index;
  eg_contact_information_get_phone_line_at_index;
  eg_contact_information_get_name;
  eg_contact_information_crypto_hash;
  eg_candidate_crypto_hash;
  eg_contest_description_with_placeholders_get_placeholder_at_index].
(** What the headers would have to say of the other functions they misdescribe: the
    terms of the handles given and the titles of those returned. *)
Definition amendments : list (name * list terms * list title) := [
  (eg_plaintext_ballot_contest_new, [Empty], [Owned]);
  (eg_plaintext_ballot_new, [Empty], [Owned]);
  (eg_linked_list_get_element_at, [Borrow], [Reference; Reference]);
  (eg_linked_list_get_value_at, [Borrow], [Reference]);
  (eg_elgamal_keypair_get_public_key, [Borrow], [Reference]);
  (eg_elgamal_keypair_get_secret_key, [Borrow], [Reference]);
  (eg_elgamal_ciphertext_get_pad, [Borrow], [Reference]);
  (eg_elgamal_ciphertext_get_data, [Borrow], [Reference]);
  (eg_encryption_mediator_new, [Outlive; Outlive; Outlive], [Owned]);
  (eg_encrypt_ballot_with_nonce, [Borrow; Borrow; Borrow; Borrow; GiveUp], [Owned]);
  (eg_encrypt_compact_ballot_with_nonce, [Borrow; Borrow; Borrow; Borrow; GiveUp], [Owned]);
  (eg_contact_information_new_with_collections, [Empty; Empty], [Owned]);
  (eg_contact_information_get_address_line_at_index, [Borrow], [Owned]);
  (eg_geopolitical_unit_new_with_contact_info, [Empty], [Owned]);
  (eg_party_new_with_extras, [Empty], [Owned]);
  (eg_candidate_new_with_extras, [Empty], [Owned]);
  (eg_contest_description_new, [Empty], [Owned]);
  (eg_contest_description_new_with_title, [Empty; Empty; Empty], [Owned]);
  (eg_contest_description_new_with_parties, [Empty], [Owned]);
  (eg_contest_description_with_placeholders_new, [Empty; Empty], [Owned]);
  (eg_contest_description_with_placeholders_new_with_parties, [Empty; Empty], [Owned]);
  (eg_election_manifest_new, [Empty; Empty; Empty; Empty; Empty], [Owned]);
  (eg_election_manifest_new_with_contact,
     [Empty; Empty; Empty; Empty; Empty; Empty; Empty], [Owned])].
Definition misdescribed : list name := broken ++ map (fun x => fst (fst x)) amendments.
Definition amend (c : contract) : contract :=
  match find (fun x => Pos.eqb (fst (fst x)) (cname c)) amendments with
  | None => c
  | Some (_, ts, os) =>
      {| cname := cname c; csignature := csignature c;
         cgiven := map (fun x => match x with (k, _, a, t) => (k, t, a) end) (combine (cgiven c) ts);
         cresults := map (fun x => match x with (k, _, o) => (k, o) end) (combine (cresults c) os) |}
  end.
Definition amended : list contract := map amend documentation.

(** Which functions are missing, and which do not do what the header says: the lists
    above are exact. *)
Theorem C72_declared_refuted :
  map cname (filter (fun c => negb (linked_in library (cname c))) documentation) = unlinked.
Proof. vm_compute. reflexivity. Qed.
Lemma misdescribed_exact : exact_list library documentation misdescribed = true.
Proof. vm_compute. reflexivity. Qed.
Lemma amended_exact : exact_list library amended broken = true.
Proof. vm_compute. reflexivity. Qed.

(** Any history of calls by the headers, of any length, whatever calls fail or return
    null, is free of undefined behaviour when it avoids the 31 functions of
    [misdescribed]; the objects behind the handles are what the client's book
    says, and nothing is left allocated once the client holds nothing. *)
Theorem C72_headers_safe_partial : forall l b es,
  by_the_rules documentation [] l b ->
  (forall f args r, In (f, args, r) l -> linked f /\ ~ In f misdescribed) ->
  Forall2 plays l es ->
  exists h answers, run library [] es = Ok (h, answers) /\
    map abs_object h = b /\ (nothing_held b -> allocated h = []).
Proof. exact (safe_by library documentation misdescribed misdescribed_exact). Qed.

(** With the amendments only the eight of [broken] must be avoided. *)
Theorem C72_amended_safe_partial : forall l b es,
  by_the_rules amended [] l b ->
  (forall f args r, In (f, args, r) l -> linked f /\ ~ In f broken) ->
  Forall2 plays l es ->
  exists h answers, run library [] es = Ok (h, answers) /\
    map abs_object h = b /\ (nothing_held b -> allocated h = []).
Proof. exact (safe_by library amended broken amended_exact). Qed.

(** ** Every function of the list is rightly there *)
Definition text := ok eg_internationalized_text_new [[]].
Definition contact := ok eg_contact_information_new [].
Definition selection := ok eg_selection_description_new [].
Definition modq := ok eg_element_mod_q_new [].
Definition unit := ok eg_geopolitical_unit_new [].
Definition five := [ok eg_plaintext_ballot_from_json []; ok eg_internal_manifest_from_json [];
                    ok eg_ciphertext_election_context_from_json []; modq; modq].
Definition wrong_histories : list (name * history) := [
  (eg_plaintext_ballot_contest_new,
     [ok eg_plaintext_ballot_selection_new []; ok eg_plaintext_ballot_contest_new [[0]];
      ok eg_plaintext_ballot_selection_get_object_id [[0]]]);
  (eg_plaintext_ballot_new,
     [ok eg_plaintext_ballot_contest_new [[]]; ok eg_plaintext_ballot_new [[0]];
      ok eg_plaintext_ballot_contest_get_object_id [[0]]]);
  (eg_linked_list_get_element_at,
     [ok eg_linked_list_new []; ok eg_linked_list_append [[0]];
      ok eg_linked_list_get_element_at [[0]]; ok eg_free_int_ptr [[1]]]);
  (eg_linked_list_get_value_at,
     [ok eg_linked_list_new []; ok eg_linked_list_append [[0]];
      ok eg_linked_list_get_value_at [[0]]; ok eg_free_int_ptr [[1]]]);
  (eg_elgamal_keypair_get_public_key,
     [modq; ok eg_elgamal_keypair_from_secret_new [[0]]; ok eg_elgamal_keypair_get_public_key [[1]];
      ok eg_element_mod_p_free [[2]]]);
  (eg_elgamal_keypair_get_secret_key,
     [modq; ok eg_elgamal_keypair_from_secret_new [[0]]; ok eg_elgamal_keypair_get_secret_key [[1]];
      ok eg_element_mod_q_free [[2]]]);
  (eg_elgamal_ciphertext_get_pad,
     [modq; ok eg_element_mod_p_new []; ok eg_elgamal_encrypt [[0]; [1]];
      ok eg_elgamal_ciphertext_get_pad [[2]]; ok eg_element_mod_p_free [[3]]]);
  (eg_elgamal_ciphertext_get_data,
     [modq; ok eg_element_mod_p_new []; ok eg_elgamal_encrypt [[0]; [1]];
      ok eg_elgamal_ciphertext_get_data [[2]]; ok eg_element_mod_p_free [[3]]]);
  (eg_encryption_mediator_new,
     [ok eg_internal_manifest_from_json []; ok eg_ciphertext_election_context_from_json [];
      ok eg_encryption_device_new []; ok eg_encryption_mediator_new [[0]; [1]; [2]];
      ok eg_internal_manifest_free [[0]]; ok eg_plaintext_ballot_from_json [];
      ok eg_encryption_mediator_encrypt_ballot [[3]; [4]]]);
  (eg_encrypt_ballot_with_nonce,
     five ++ [ok eg_encrypt_ballot_with_nonce [[0]; [1]; [2]; [3]; [4]]; ok eg_element_mod_q_free [[4]]]);
  (eg_encrypt_compact_ballot_with_nonce,
     five ++ [ok eg_encrypt_compact_ballot_with_nonce [[0]; [1]; [2]; [3]; [4]]; ok eg_element_mod_q_free [[4]]]);
  (eg_intertnationalized_text_crypto_hash,
     [ok eg_language_new []; ok eg_intertnationalized_text_crypto_hash [[0]]]);
  (eg_contact_information_new_with_collections,
     [ok eg_annotated_string_new []; ok eg_contact_information_new_with_collections [[0]; []];
      ok eg_annotated_string_get_value [[0]]]);
  (eg_contact_information_get_address_line_at_index,
     [contact; ok eg_contact_information_get_address_line_at_index [[0]];
      ok eg_contact_information_free [[0]]]);
  (eg_contact_information_get_email_line_at_index,
     [contact; ok eg_contact_information_get_email_line_at_index [[0]];
      ok eg_internationalized_text_get_text_size [[1]]]);
  (eg_contact_information_get_phone_line_at_index,
     [contact; ok eg_contact_information_get_phone_line_at_index [[0]];
      ok eg_internationalized_text_get_text_size [[1]]]);
  (eg_contact_information_get_name, [contact; ok eg_contact_information_get_name [[0]]]);
  (eg_contact_information_crypto_hash, [contact; ok eg_contact_information_crypto_hash [[0]]]);
  (eg_geopolitical_unit_new_with_contact_info,
     [contact; ok eg_geopolitical_unit_new_with_contact_info [[0]];
      ok eg_contact_information_get_email_line_size [[0]]]);
  (eg_party_new_with_extras,
     [text; ok eg_party_new_with_extras [[0]]; ok eg_internationalized_text_get_text_size [[0]]]);
  (eg_candidate_new_with_extras,
     [text; ok eg_candidate_new_with_extras [[0]]; ok eg_internationalized_text_get_text_size [[0]]]);
  (eg_candidate_crypto_hash, [ok eg_candidate_new []; ok eg_candidate_crypto_hash [[0]]]);
  (eg_contest_description_new,
     [selection; ok eg_contest_description_new [[0]]; ok eg_selection_description_get_object_id [[0]]]);
  (eg_contest_description_new_with_title,
     [selection; text; text; ok eg_contest_description_new_with_title [[1]; [2]; [0]];
      ok eg_selection_description_get_object_id [[0]]]);
  (eg_contest_description_new_with_parties,
     [selection; ok eg_contest_description_new_with_parties [[0]];
      ok eg_selection_description_get_object_id [[0]]]);
  (eg_contest_description_with_placeholders_new,
     [selection; ok eg_contest_description_with_placeholders_new [[0]; []];
      ok eg_selection_description_get_object_id [[0]]]);
  (eg_contest_description_with_placeholders_new_with_parties,
     [selection; ok eg_contest_description_with_placeholders_new_with_parties [[0]; []];
      ok eg_selection_description_get_object_id [[0]]]);
  (eg_contest_description_with_placeholders_get_placeholder_at_index,
     [ok eg_internal_manifest_from_json []; ok eg_internal_manifest_get_contest_at_index [[0]];
      ok eg_contest_description_with_placeholders_get_placeholder_at_index [[1]];
      ok eg_contest_description_with_placeholders_get_placeholders_size [[2]]]);
  (eg_election_manifest_new,
     [unit; ok eg_election_manifest_new [[0]; []; []; []; []]; ok eg_geopolitical_unit_get_object_id [[0]]]);
  (eg_election_manifest_new_with_contact,
     [unit; text; contact; ok eg_election_manifest_new_with_contact [[0]; []; []; []; []; [1]; [2]];
      ok eg_geopolitical_unit_get_object_id [[0]]])].

(** Each function of [misdescribed] (but the one below) has a history by the headers
    that calls it and no other such function (except, to make a contest, with
    no handle), and that is undefined, or leaks with nothing held. *)
Theorem C72_misdescribed_refuted : forall f, In f misdescribed -> f <> eg_linked_list_delete_last ->
  exists l b, by_the_rules documentation [] l b /\
    (exists args r, In (f, args, r) l) /\
    (forall g args r, In (g, args, r) l -> In g misdescribed -> g = f \/ args = [[]]) /\
    (run library [] (played l) = UB \/
     (nothing_held b /\ exists h a, run library [] (played l) = Ok (h, a) /\ allocated h <> [])).
Proof.
  apply (wrongs_ok library documentation misdescribed eg_linked_list_delete_last wrong_histories);
    vm_compute; reflexivity.
Qed.
(** Deleting the last element of a list frees strings the client may hold references to. *)
Definition trimming : history :=
  [ok eg_linked_list_new []; ok eg_linked_list_append [[0]]; ok eg_linked_list_get_value_at [[0]];
   ok eg_linked_list_delete_last [[0]]; ok read_text [[1]]].
Theorem C72_delete_last_refuted :
  exists b, by_the_rules amended [] trimming b /\ run library [] (played trimming) = UB.
Proof. apply ub_ok. vm_compute. reflexivity. Qed.

(** Null: all the functions that free do nothing with it, whatever the state; most of the
    others dereference it. *)
Theorem C72_free_null : forall f p h e,
  In f library -> In p (fparams f) -> peffect p = Delete ->
  call h f [[None]] e = Ok (h, Error).
Proof. apply free_null_ok. vm_compute. reflexivity. Qed.
Theorem C72_null_refuted : exists f, lookup library eg_element_mod_q_to_hex = Some f /\
  forall h e, call h f [[None]] e = UB.
Proof. eexists. split; [vm_compute; reflexivity|]. intros h e. reflexivity. Qed.
(** How many functions do not check some handle. *)
Definition defined : list func := link (map (fun c => (cname c, csignature c)) headers) implementation.
Definition unchecked : list func :=
  filter (fun f => existsb (fun p => negb (pnull p)) (fparams f)) defined.
Example C72_unchecked_count : (length unchecked, length defined) = (221, 333).
Proof. vm_compute. reflexivity. Qed.

(** A cast to a base class is defined, one to a derived class is not. *)
Theorem C72_cast : forall h n c base o, nth_error h n = Some o -> oclass o = c ->
  ohome o = Allocated Intact [] ->
  forall p, peffect p = Use -> pcast p = base ->
  (touch h (p, Some n) = Ok h /\ (c = base \/ (c = SubmittedBallot /\ base = CiphertextBallot) \/
      (c = ContestDescriptionWithPlaceholders /\ base = ContestDescription))) \/
  (touch h (p, Some n) = UB /\ c <> base /\ ~ (c = SubmittedBallot /\ base = CiphertextBallot) /\
      ~ (c = ContestDescriptionWithPlaceholders /\ base = ContestDescription)).
Proof. exact cast_ok. Qed.

(** ** Cases meeting the hypotheses *)
(** A manifest is read, encrypted with and freed, by the headers alone. *)
Definition small_program : history :=
  [ok eg_plaintext_ballot_from_json []; ok eg_election_manifest_from_json [];
   ok eg_internal_manifest_new [[1]]; ok eg_ciphertext_election_context_from_json [];
   modq; ok eg_encrypt_ballot [[0]; [2]; [3]; [4]];
   (eg_encrypt_ballot, [[0]; [2]; [3]; [4]], false);
   ok eg_ciphertext_ballot_get_contest_at_index [[5]];
   ok eg_ciphertext_ballot_contest_get_selection_at_index [[6]];
   ok eg_ciphertext_ballot_selection_get_ciphertext [[7]];
   ok eg_ciphertext_ballot_selection_get_object_id [[7]]; ok read_text [[9]];
   ok eg_element_mod_q_free [[4]]; ok eg_plaintext_ballot_free [[0]];
   ok eg_ciphertext_ballot_free [[5]]; ok eg_free_int_ptr [[9]];
   ok eg_internal_manifest_free [[2]]; ok eg_election_manifest_free [[1]];
   ok eg_ciphertext_election_context_free [[3]]].
Example C72_headers_case :
  exists b, by_the_rules documentation [] small_program b /\ nothing_held b /\
    Forall2 plays small_program (played small_program) /\
    forall f args r, In (f, args, r) small_program -> linked f /\ ~ In f misdescribed.
Proof. apply (case_ok library). vm_compute. reflexivity. Qed.
(** A contest is built and its emptied selection freed, and a nonce given up, by the
    amended rules. *)
Definition amended_program : history :=
  [selection; ok eg_contest_description_new [[0]]; ok eg_selection_description_free [[0]];
   ok eg_contest_description_free [[1]];
   ok eg_plaintext_ballot_from_json []; ok eg_internal_manifest_from_json [];
   ok eg_ciphertext_election_context_from_json []; modq; modq;
   ok eg_encrypt_ballot_with_nonce [[2]; [3]; [4]; [5]; [6]];
   ok eg_encryption_device_new []; ok eg_encryption_mediator_new [[3]; [4]; [8]];
   ok eg_encryption_mediator_encrypt_ballot [[9]; [2]]; ok eg_internal_manifest_free [[3]];
   ok eg_encryption_mediator_free [[9]]; ok eg_ciphertext_election_context_free [[4]];
   ok eg_encryption_device_free [[8]]; ok eg_ciphertext_ballot_free [[7]];
   ok eg_ciphertext_ballot_free [[10]]; ok eg_plaintext_ballot_free [[2]]; ok eg_element_mod_q_free [[5]]].
Example C72_amended_case :
  exists b, by_the_rules amended [] amended_program b /\ nothing_held b /\
    Forall2 plays amended_program (played amended_program) /\
    forall f args r, In (f, args, r) amended_program -> linked f /\ ~ In f broken.
Proof. apply (case_ok library). vm_compute. reflexivity. Qed.

Print Assumptions C72_declared_refuted.
Print Assumptions C72_headers_safe_partial.
Print Assumptions C72_amended_safe_partial.
Print Assumptions C72_misdescribed_refuted.
Print Assumptions C72_delete_last_refuted.
Print Assumptions C72_free_null.
Print Assumptions C72_null_refuted.
Print Assumptions C72_cast.
