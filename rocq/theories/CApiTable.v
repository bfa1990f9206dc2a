(** What each function of the C interface does with handles: one row per definition
    in src/electionguard/facades/*.cpp and collections.c, in the order of the
    files.  Written by tools/capi.py from the text of the sources.  A row holds
    the name, the C types of the parameters as defined, the handle parameters
    (type in the definition, class the body casts to, effect, whether null is
    checked) and the handles returned (type, class of the object). *)
From Coq Require Import List.
From Verif Require Import CApiClass CApiNames CApiModel.
Import ListNotations.

Definition implementation : list func := [
  (** facades/ballot.cpp:40. *)
  fn eg_extended_data_new
    [Ptr c_char; c_uint64_t; Ptr (Ptr c_eg_extended_data_t)]
    []
    [Fresh ExtendedData ExtendedData];
  (** facades/ballot.cpp:53. *)
  fn eg_extended_data_free
    [Ptr c_eg_extended_data_t]
    [arg ExtendedData ExtendedData Delete true]
    [];
  (** facades/ballot.cpp:64. *)
  fn eg_extended_data_get_value
    [Ptr c_eg_extended_data_t; Ptr (Ptr c_char)]
    [arg ExtendedData ExtendedData Use false]
    [Fresh Text Text];
  (** facades/ballot.cpp:78. *)
  fn eg_extended_data_get_length
    [Ptr c_eg_extended_data_t]
    [arg ExtendedData ExtendedData Use false]
    [];
  (** facades/ballot.cpp:92. *)
  fn eg_plaintext_ballot_selection_new
    [Ptr (Const c_char); c_uint64_t; c_bool; Ptr (Ptr c_eg_plaintext_ballot_selection_t)]
    []
    [Fresh PlaintextBallotSelection PlaintextBallotSelection];
  (** facades/ballot.cpp:108. *)
  fn eg_plaintext_ballot_selection_new_with_write_in
    [Ptr (Const c_char); c_uint64_t; c_bool; Ptr (Const c_char); Ptr (Ptr c_eg_plaintext_ballot_selection_t)]
    []
    [Fresh PlaintextBallotSelection PlaintextBallotSelection];
  (** facades/ballot.cpp:124. *)
  fn eg_plaintext_ballot_selection_free
    [Ptr c_eg_plaintext_ballot_selection_t]
    [arg PlaintextBallotSelection PlaintextBallotSelection Delete true]
    [];
  (** facades/ballot.cpp:136. *)
  fn eg_plaintext_ballot_selection_get_object_id
    [Ptr c_eg_plaintext_ballot_selection_t; Ptr (Ptr c_char)]
    [arg PlaintextBallotSelection PlaintextBallotSelection Use false]
    [Fresh Text Text];
  (** facades/ballot.cpp:151. *)
  fn eg_plaintext_ballot_selection_get_vote
    [Ptr c_eg_plaintext_ballot_selection_t]
    [arg PlaintextBallotSelection PlaintextBallotSelection Use false]
    [];
  (** facades/ballot.cpp:162. *)
  fn eg_plaintext_ballot_selection_get_is_placeholder
    [Ptr c_eg_plaintext_ballot_selection_t]
    [arg PlaintextBallotSelection PlaintextBallotSelection Use false]
    [];
  (** facades/ballot.cpp:167. *)
  fn eg_plaintext_ballot_selection_get_write_in
    [Ptr c_eg_plaintext_ballot_selection_t; Ptr (Ptr c_char)]
    [arg PlaintextBallotSelection PlaintextBallotSelection Use false]
    [Fresh Text Text];
  (** facades/ballot.cpp:182. *)
  fn eg_plaintext_ballot_selection_is_valid
    [Ptr c_eg_plaintext_ballot_selection_t; Ptr c_char]
    [arg PlaintextBallotSelection PlaintextBallotSelection Use false]
    [];
  (** facades/ballot.cpp:192. *)
  fn eg_ciphertext_ballot_selection_free
    [Ptr c_eg_ciphertext_ballot_selection_t]
    [arg CiphertextBallotSelection CiphertextBallotSelection Delete true]
    [];
  (** facades/ballot.cpp:204. *)
  fn eg_ciphertext_ballot_selection_get_object_id
    [Ptr c_eg_ciphertext_ballot_selection_t; Ptr (Ptr c_char)]
    [arg CiphertextBallotSelection CiphertextBallotSelection Use false]
    [Fresh Text Text];
  (** facades/ballot.cpp:219. *)
  fn eg_ciphertext_ballot_selection_get_sequence_order
    [Ptr c_eg_ciphertext_ballot_selection_t]
    [arg CiphertextBallotSelection CiphertextBallotSelection Use false]
    [];
  (** facades/ballot.cpp:230. *)
  fn eg_ciphertext_ballot_selection_get_description_hash
    [Ptr c_eg_ciphertext_ballot_selection_t; Ptr (Ptr c_eg_element_mod_q_t)]
    [arg CiphertextBallotSelection CiphertextBallotSelection Use false]
    [Inner ElementModQ ElementModQ];
  (** facades/ballot.cpp:244. *)
  fn eg_ciphertext_ballot_selection_get_is_placeholder
    [Ptr c_eg_ciphertext_ballot_selection_t]
    [arg CiphertextBallotSelection CiphertextBallotSelection Use false]
    [];
  (** facades/ballot.cpp:249. *)
  fn eg_ciphertext_ballot_selection_get_ciphertext
    [Ptr c_eg_ciphertext_ballot_selection_t; Ptr (Ptr c_eg_elgamal_ciphertext_t)]
    [arg CiphertextBallotSelection CiphertextBallotSelection Use false]
    [Inner ElGamalCiphertext ElGamalCiphertext];
  (** facades/ballot.cpp:263. *)
  fn eg_ciphertext_ballot_selection_get_crypto_hash
    [Ptr c_eg_ciphertext_ballot_selection_t; Ptr (Ptr c_eg_element_mod_q_t)]
    [arg CiphertextBallotSelection CiphertextBallotSelection Use false]
    [Inner ElementModQ ElementModQ];
  (** facades/ballot.cpp:277. *)
  fn eg_ciphertext_ballot_selection_get_nonce
    [Ptr c_eg_ciphertext_ballot_selection_t; Ptr (Ptr c_eg_element_mod_q_t)]
    [arg CiphertextBallotSelection CiphertextBallotSelection Use false]
    [Inner ElementModQ ElementModQ];
  (** facades/ballot.cpp:291. *)
  fn eg_ciphertext_ballot_selection_get_proof
    [Ptr c_eg_ciphertext_ballot_selection_t; Ptr (Ptr c_eg_disjunctive_chaum_pedersen_proof_t)]
    [arg CiphertextBallotSelection CiphertextBallotSelection Use false]
    [Inner DisjunctiveChaumPedersenProof DisjunctiveChaumPedersenProof];
  (** facades/ballot.cpp:305. *)
  fn eg_ciphertext_ballot_selection_crypto_hash_with
    [Ptr c_eg_ciphertext_ballot_selection_t; Ptr c_eg_element_mod_q_t; Ptr (Ptr c_eg_element_mod_q_t)]
    [arg CiphertextBallotSelection CiphertextBallotSelection Use false; arg ElementModQ ElementModQ Use false]
    [Fresh ElementModQ ElementModQ];
  (** facades/ballot.cpp:321. *)
  fn eg_ciphertext_ballot_selection_is_valid_encryption
    [Ptr c_eg_ciphertext_ballot_selection_t; Ptr c_eg_element_mod_q_t; Ptr c_eg_element_mod_p_t; Ptr c_eg_element_mod_q_t]
    [arg CiphertextBallotSelection CiphertextBallotSelection Use false; arg ElementModQ ElementModQ Use false; arg ElementModP ElementModP Use false; arg ElementModQ ElementModQ Use false]
    [];
  (** facades/ballot.cpp:341. *)
  fn eg_plaintext_ballot_contest_new
    [Ptr c_char; Ptr (Ptr c_eg_plaintext_ballot_selection_t); c_uint64_t; Ptr (Ptr c_eg_plaintext_ballot_contest_t)]
    [arr PlaintextBallotSelection PlaintextBallotSelection Move false]
    [Fresh PlaintextBallotContest PlaintextBallotContest];
  (** facades/ballot.cpp:367. *)
  fn eg_plaintext_ballot_contest_free
    [Ptr c_eg_plaintext_ballot_contest_t]
    [arg PlaintextBallotContest PlaintextBallotContest Delete true]
    [];
  (** facades/ballot.cpp:378. *)
  fn eg_plaintext_ballot_contest_get_object_id
    [Ptr c_eg_plaintext_ballot_contest_t; Ptr (Ptr c_char)]
    [arg PlaintextBallotContest PlaintextBallotContest Use false]
    [Fresh Text Text];
  (** facades/ballot.cpp:393. *)
  fn eg_plaintext_ballot_contest_get_selections_size
    [Ptr c_eg_plaintext_ballot_contest_t]
    [arg PlaintextBallotContest PlaintextBallotContest Use false]
    [];
  (** facades/ballot.cpp:404. *)
  fn eg_plaintext_ballot_contest_get_selection_at_index
    [Ptr c_eg_plaintext_ballot_contest_t; c_uint64_t; Ptr (Ptr c_eg_plaintext_ballot_selection_t)]
    [arg PlaintextBallotContest PlaintextBallotContest Use false]
    [Inner PlaintextBallotSelection PlaintextBallotSelection];
  (** facades/ballot.cpp:421. *)
  fn eg_plaintext_ballot_contest_is_valid
    [Ptr c_eg_plaintext_ballot_contest_t; Ptr c_char; c_uint64_t; c_uint64_t; c_uint64_t]
    [arg PlaintextBallotContest PlaintextBallotContest Use false]
    [];
  (** facades/ballot.cpp:442. *)
  fn eg_ciphertext_ballot_contest_free
    [Ptr c_eg_ciphertext_ballot_contest_t]
    [arg CiphertextBallotContest CiphertextBallotContest Delete true]
    [];
  (** facades/ballot.cpp:453. *)
  fn eg_ciphertext_ballot_contest_get_object_id
    [Ptr c_eg_ciphertext_ballot_contest_t; Ptr (Ptr c_char)]
    [arg CiphertextBallotContest CiphertextBallotContest Use false]
    [Fresh Text Text];
  (** facades/ballot.cpp:468. *)
  fn eg_ciphertext_ballot_contest_get_sequence_order
    [Ptr c_eg_ciphertext_ballot_contest_t]
    [arg CiphertextBallotContest CiphertextBallotContest Use false]
    [];
  (** facades/ballot.cpp:479. *)
  fn eg_ciphertext_ballot_contest_get_description_hash
    [Ptr c_eg_ciphertext_ballot_contest_t; Ptr (Ptr c_eg_element_mod_q_t)]
    [arg CiphertextBallotContest CiphertextBallotContest Use false]
    [Inner ElementModQ ElementModQ];
  (** facades/ballot.cpp:493. *)
  fn eg_ciphertext_ballot_contest_get_selections_size
    [Ptr c_eg_ciphertext_ballot_contest_t]
    [arg CiphertextBallotContest CiphertextBallotContest Use false]
    [];
  (** facades/ballot.cpp:499. *)
  fn eg_ciphertext_ballot_contest_get_selection_at_index
    [Ptr c_eg_ciphertext_ballot_contest_t; c_uint64_t; Ptr (Ptr c_eg_ciphertext_ballot_selection_t)]
    [arg CiphertextBallotContest CiphertextBallotContest Use false]
    [Inner CiphertextBallotSelection CiphertextBallotSelection];
  (** facades/ballot.cpp:516. *)
  fn eg_ciphertext_ballot_contest_get_nonce
    [Ptr c_eg_ciphertext_ballot_contest_t; Ptr (Ptr c_eg_element_mod_q_t)]
    [arg CiphertextBallotContest CiphertextBallotContest Use false]
    [Inner ElementModQ ElementModQ];
  (** facades/ballot.cpp:530. *)
  fn eg_ciphertext_ballot_contest_get_ciphertext_accumulation
    [Ptr c_eg_ciphertext_ballot_contest_t; Ptr (Ptr c_eg_elgamal_ciphertext_t)]
    [arg CiphertextBallotContest CiphertextBallotContest Use false]
    [Inner ElGamalCiphertext ElGamalCiphertext];
  (** facades/ballot.cpp:543. *)
  fn eg_ciphertext_ballot_contest_get_crypto_hash
    [Ptr c_eg_ciphertext_ballot_contest_t; Ptr (Ptr c_eg_element_mod_q_t)]
    [arg CiphertextBallotContest CiphertextBallotContest Use false]
    [Inner ElementModQ ElementModQ];
  (** facades/ballot.cpp:557. *)
  fn eg_ciphertext_ballot_contest_get_proof
    [Ptr c_eg_ciphertext_ballot_selection_t; Ptr (Ptr c_eg_disjunctive_chaum_pedersen_proof_t)]
    [arg CiphertextBallotSelection CiphertextBallotContest Use false]
    [Inner DisjunctiveChaumPedersenProof ConstantChaumPedersenProof];
  (** facades/ballot.cpp:571. *)
  fn eg_ciphertext_ballot_contest_crypto_hash_with
    [Ptr c_eg_ciphertext_ballot_contest_t; Ptr c_eg_element_mod_q_t; Ptr (Ptr c_eg_element_mod_q_t)]
    [arg CiphertextBallotContest CiphertextBallotContest Use false; arg ElementModQ ElementModQ Use false]
    [Fresh ElementModQ ElementModQ];
  (** facades/ballot.cpp:587. *)
  fn eg_ciphertext_ballot_contest_aggregate_nonce
    [Ptr c_eg_ciphertext_ballot_contest_t; Ptr (Ptr c_eg_element_mod_q_t)]
    [arg CiphertextBallotContest CiphertextBallotContest Use false]
    [Fresh ElementModQ ElementModQ];
  (** facades/ballot.cpp:601. *)
  fn eg_ciphertext_ballot_contest_elgamal_accumulate
    [Ptr c_eg_ciphertext_ballot_contest_t; Ptr (Ptr c_eg_elgamal_ciphertext_t)]
    [arg CiphertextBallotContest CiphertextBallotContest Use false]
    [Fresh ElGamalCiphertext ElGamalCiphertext];
  (** facades/ballot.cpp:614. *)
  fn eg_ciphertext_ballot_contest_is_valid_encryption
    [Ptr c_eg_ciphertext_ballot_contest_t; Ptr c_eg_element_mod_q_t; Ptr c_eg_element_mod_p_t; Ptr c_eg_element_mod_q_t]
    [arg CiphertextBallotContest CiphertextBallotContest Use false; arg ElementModQ ElementModQ Use false; arg ElementModP ElementModP Use false; arg ElementModQ ElementModQ Use false]
    [];
  (** facades/ballot.cpp:634. *)
  fn eg_plaintext_ballot_new
    [Ptr c_char; Ptr c_char; Ptr (Ptr c_eg_plaintext_ballot_contest_t); c_uint64_t; Ptr (Ptr c_eg_plaintext_ballot_t)]
    [arr PlaintextBallotContest PlaintextBallotContest Move false]
    [Fresh PlaintextBallot PlaintextBallot];
  (** facades/ballot.cpp:662. *)
  fn eg_plaintext_ballot_free
    [Ptr c_eg_plaintext_ballot_t]
    [arg PlaintextBallot PlaintextBallot Delete true]
    [];
  (** facades/ballot.cpp:673. *)
  fn eg_plaintext_ballot_get_object_id
    [Ptr c_eg_plaintext_ballot_t; Ptr (Ptr c_char)]
    [arg PlaintextBallot PlaintextBallot Use false]
    [Fresh Text Text];
  (** facades/ballot.cpp:687. *)
  fn eg_plaintext_ballot_get_style_id
    [Ptr c_eg_plaintext_ballot_t; Ptr (Ptr c_char)]
    [arg PlaintextBallot PlaintextBallot Use false]
    [Fresh Text Text];
  (** facades/ballot.cpp:701. *)
  fn eg_plaintext_ballot_get_contests_size
    [Ptr c_eg_plaintext_ballot_t]
    [arg PlaintextBallot PlaintextBallot Use false]
    [];
  (** facades/ballot.cpp:707. *)
  fn eg_plaintext_ballot_get_contest_at_index
    [Ptr c_eg_plaintext_ballot_t; c_uint64_t; Ptr (Ptr c_eg_plaintext_ballot_contest_t)]
    [arg PlaintextBallot PlaintextBallot Use false]
    [Inner PlaintextBallotContest PlaintextBallotContest];
  (** facades/ballot.cpp:724. *)
  fn eg_plaintext_ballot_from_json
    [Ptr c_char; Ptr (Ptr c_eg_plaintext_ballot_t)]
    []
    [Fresh PlaintextBallot PlaintextBallot];
  (** facades/ballot.cpp:739. *)
  fn eg_plaintext_ballot_from_bson
    [Ptr c_uint8_t; c_uint64_t; Ptr (Ptr c_eg_plaintext_ballot_t)]
    []
    [Fresh PlaintextBallot PlaintextBallot];
  (** facades/ballot.cpp:754. *)
  fn eg_plaintext_ballot_from_msgpack
    [Ptr c_uint8_t; c_uint64_t; Ptr (Ptr c_eg_plaintext_ballot_t)]
    []
    [Fresh PlaintextBallot PlaintextBallot];
  (** facades/ballot.cpp:769. *)
  fn eg_plaintext_ballot_to_json
    [Ptr c_eg_plaintext_ballot_t; Ptr (Ptr c_char); Ptr c_uint64_t]
    [arg PlaintextBallot PlaintextBallot Use false]
    [Fresh Text Text];
  (** facades/ballot.cpp:787. *)
  fn eg_plaintext_ballot_to_bson
    [Ptr c_eg_plaintext_ballot_t; Ptr (Ptr c_uint8_t); Ptr c_uint64_t]
    [arg PlaintextBallot PlaintextBallot Use false]
    [Fresh ByteBuffer ByteBuffer];
  (** facades/ballot.cpp:805. *)
  fn eg_plaintext_ballot_to_msgpack
    [Ptr c_eg_plaintext_ballot_t; Ptr (Ptr c_uint8_t); Ptr c_uint64_t]
    [arg PlaintextBallot PlaintextBallot Use false]
    [Fresh ByteBuffer ByteBuffer];
  (** facades/ballot.cpp:827. *)
  fn eg_ciphertext_ballot_free
    [Ptr c_eg_ciphertext_ballot_t]
    [arg CiphertextBallot CiphertextBallot Delete true]
    [];
  (** facades/ballot.cpp:838. *)
  fn eg_ciphertext_ballot_get_object_id
    [Ptr c_eg_ciphertext_ballot_t; Ptr (Ptr c_char)]
    [arg CiphertextBallot CiphertextBallot Use false]
    [Fresh Text Text];
  (** facades/ballot.cpp:852. *)
  fn eg_ciphertext_ballot_get_style_id
    [Ptr c_eg_ciphertext_ballot_t; Ptr (Ptr c_char)]
    [arg CiphertextBallot CiphertextBallot Use false]
    [Fresh Text Text];
  (** facades/ballot.cpp:866. *)
  fn eg_ciphertext_ballot_get_manifest_hash
    [Ptr c_eg_ciphertext_ballot_t; Ptr (Ptr c_eg_element_mod_q_t)]
    [arg CiphertextBallot CiphertextBallot Use false]
    [Inner ElementModQ ElementModQ];
  (** facades/ballot.cpp:880. *)
  fn eg_ciphertext_ballot_get_ballot_code_seed
    [Ptr c_eg_ciphertext_ballot_t; Ptr (Ptr c_eg_element_mod_q_t)]
    [arg CiphertextBallot CiphertextBallot Use false]
    [Inner ElementModQ ElementModQ];
  (** facades/ballot.cpp:894. *)
  fn eg_ciphertext_ballot_get_contests_size
    [Ptr c_eg_ciphertext_ballot_t]
    [arg CiphertextBallot CiphertextBallot Use false]
    [];
  (** facades/ballot.cpp:900. *)
  fn eg_ciphertext_ballot_get_contest_at_index
    [Ptr c_eg_ciphertext_ballot_t; c_uint64_t; Ptr (Ptr c_eg_ciphertext_ballot_contest_t)]
    [arg CiphertextBallot CiphertextBallot Use false]
    [Inner CiphertextBallotContest CiphertextBallotContest];
  (** facades/ballot.cpp:917. *)
  fn eg_ciphertext_ballot_get_ballot_code
    [Ptr c_eg_ciphertext_ballot_t; Ptr (Ptr c_eg_element_mod_q_t)]
    [arg CiphertextBallot CiphertextBallot Use false]
    [Inner ElementModQ ElementModQ];
  (** facades/ballot.cpp:932. *)
  fn eg_ciphertext_ballot_get_timestamp
    [Ptr c_eg_ciphertext_ballot_t]
    [arg CiphertextBallot CiphertextBallot Use false]
    [];
  (** facades/ballot.cpp:943. *)
  fn eg_ciphertext_ballot_get_nonce
    [Ptr c_eg_ciphertext_ballot_t; Ptr (Ptr c_eg_element_mod_q_t)]
    [arg CiphertextBallot CiphertextBallot Use false]
    [Inner ElementModQ ElementModQ];
  (** facades/ballot.cpp:956. *)
  fn eg_ciphertext_ballot_get_crypto_hash
    [Ptr c_eg_ciphertext_ballot_t; Ptr (Ptr c_eg_element_mod_q_t)]
    [arg CiphertextBallot CiphertextBallot Use false]
    [Inner ElementModQ ElementModQ];
  (** facades/ballot.cpp:969. *)
  fn eg_ciphertext_ballot_crypto_hash_with
    [Ptr c_eg_ciphertext_ballot_t; Ptr c_eg_element_mod_q_t; Ptr (Ptr c_eg_element_mod_q_t)]
    [arg CiphertextBallot CiphertextBallot Use false; arg ElementModQ ElementModQ Use false]
    [Fresh ElementModQ ElementModQ];
  (** facades/ballot.cpp:985. *)
  fn eg_ciphertext_ballot_is_valid_encryption
    [Ptr c_eg_ciphertext_ballot_t; Ptr c_eg_element_mod_q_t; Ptr c_eg_element_mod_p_t; Ptr c_eg_element_mod_q_t]
    [arg CiphertextBallot CiphertextBallot Use false; arg ElementModQ ElementModQ Use false; arg ElementModP ElementModP Use false; arg ElementModQ ElementModQ Use false]
    [];
  (** facades/ballot.cpp:1003. *)
  fn eg_ciphertext_ballot_from_json
    [Ptr c_char; Ptr (Ptr c_eg_ciphertext_ballot_t)]
    []
    [Fresh CiphertextBallot CiphertextBallot];
  (** facades/ballot.cpp:1018. *)
  fn eg_ciphertext_ballot_from_bson
    [Ptr c_uint8_t; c_uint64_t; Ptr (Ptr c_eg_ciphertext_ballot_t)]
    []
    [Fresh CiphertextBallot CiphertextBallot];
  (** facades/ballot.cpp:1033. *)
  fn eg_ciphertext_ballot_from_msgpack
    [Ptr c_uint8_t; c_uint64_t; Ptr (Ptr c_eg_ciphertext_ballot_t)]
    []
    [Fresh CiphertextBallot CiphertextBallot];
  (** facades/ballot.cpp:1048. *)
  fn eg_ciphertext_ballot_to_json
    [Ptr c_eg_ciphertext_ballot_t; Ptr (Ptr c_char); Ptr c_uint64_t]
    [arg CiphertextBallot CiphertextBallot Use false]
    [Fresh Text Text];
  (** facades/ballot.cpp:1066. *)
  fn eg_ciphertext_ballot_to_json_with_nonces
    [Ptr c_eg_ciphertext_ballot_t; Ptr (Ptr c_char); Ptr c_uint64_t]
    [arg CiphertextBallot CiphertextBallot Use false]
    [Fresh Text Text];
  (** facades/ballot.cpp:1085. *)
  fn eg_ciphertext_ballot_to_bson
    [Ptr c_eg_ciphertext_ballot_t; Ptr (Ptr c_uint8_t); Ptr c_uint64_t]
    [arg CiphertextBallot CiphertextBallot Use false]
    [Fresh ByteBuffer ByteBuffer];
  (** facades/ballot.cpp:1103. *)
  fn eg_ciphertext_ballot_to_bson_with_nonces
    [Ptr c_eg_ciphertext_ballot_t; Ptr (Ptr c_uint8_t); Ptr c_uint64_t]
    [arg CiphertextBallot CiphertextBallot Use false]
    [Fresh ByteBuffer ByteBuffer];
  (** facades/ballot.cpp:1122. *)
  fn eg_ciphertext_ballot_to_msgpack
    [Ptr c_eg_ciphertext_ballot_t; Ptr (Ptr c_uint8_t); Ptr c_uint64_t]
    [arg CiphertextBallot CiphertextBallot Use false]
    [Fresh ByteBuffer ByteBuffer];
  (** facades/ballot.cpp:1140. *)
  fn eg_ciphertext_ballot_to_msgpack_with_nonces
    [Ptr c_eg_ciphertext_ballot_t; Ptr (Ptr c_uint8_t); Ptr c_uint64_t]
    [arg CiphertextBallot CiphertextBallot Use false]
    [Fresh ByteBuffer ByteBuffer];
  (** facades/ballot.cpp:1163. *)
  fn eg_submitted_ballot_free
    [Ptr c_eg_submitted_ballot_t]
    [arg SubmittedBallot SubmittedBallot Delete true]
    [];
  (** facades/ballot.cpp:1174. *)
  fn eg_submitted_ballot_get_state
    [Ptr c_eg_submitted_ballot_t]
    [arg SubmittedBallot SubmittedBallot Use false]
    [];
  (** facades/ballot.cpp:1184. *)
  fn eg_submitted_ballot_from
    [Ptr c_eg_ciphertext_ballot_t; c_eg_ballot_box_state_t; Ptr (Ptr c_eg_submitted_ballot_t)]
    [arg CiphertextBallot CiphertextBallot Use false]
    [Fresh SubmittedBallot SubmittedBallot];
  (** facades/ballot.cpp:1200. *)
  fn eg_submitted_ballot_from_json
    [Ptr c_char; Ptr (Ptr c_eg_submitted_ballot_t)]
    []
    [Fresh SubmittedBallot SubmittedBallot];
  (** facades/ballot.cpp:1215. *)
  fn eg_submitted_ballot_from_bson
    [Ptr c_uint8_t; c_uint64_t; Ptr (Ptr c_eg_submitted_ballot_t)]
    []
    [Fresh SubmittedBallot SubmittedBallot];
  (** facades/ballot.cpp:1230. *)
  fn eg_submitted_ballot_from_msgpack
    [Ptr c_uint8_t; c_uint64_t; Ptr (Ptr c_eg_submitted_ballot_t)]
    []
    [Fresh SubmittedBallot SubmittedBallot];
  (** facades/ballot.cpp:1245. *)
  fn eg_submitted_ballot_to_json
    [Ptr c_eg_submitted_ballot_t; Ptr (Ptr c_char); Ptr c_uint64_t]
    [arg SubmittedBallot SubmittedBallot Use false]
    [Fresh Text Text];
  (** facades/ballot.cpp:1263. *)
  fn eg_submitted_ballot_to_bson
    [Ptr c_eg_submitted_ballot_t; Ptr (Ptr c_uint8_t); Ptr c_uint64_t]
    [arg SubmittedBallot SubmittedBallot Use false]
    [Fresh ByteBuffer ByteBuffer];
  (** facades/ballot.cpp:1281. *)
  fn eg_submitted_ballot_to_msgpack
    [Ptr c_eg_submitted_ballot_t; Ptr (Ptr c_uint8_t); Ptr c_uint64_t]
    [arg SubmittedBallot SubmittedBallot Use false]
    [Fresh ByteBuffer ByteBuffer];
  (** facades/ballot_code.cpp:17. *)
  fn eg_ballot_code_get_hash_for_device
    [c_uint64_t; c_uint64_t; c_uint64_t; Ptr (Const c_char); Ptr (Ptr c_eg_element_mod_q_t)]
    []
    [Fresh ElementModQ ElementModQ];
  (** facades/ballot_code.cpp:34. *)
  fn eg_ballot_code_get_ballot_code
    [Ptr c_eg_element_mod_q_t; c_uint64_t; Ptr c_eg_element_mod_q_t; Ptr (Ptr c_eg_element_mod_q_t)]
    [arg ElementModQ ElementModQ Use true; arg ElementModQ ElementModQ Use true]
    [Fresh ElementModQ ElementModQ];
  (** facades/ballot_compact.cpp:25. *)
  fn eg_compact_plaintext_ballot_free
    [Ptr c_eg_compact_plaintext_ballot_t]
    [arg CompactPlaintextBallot CompactPlaintextBallot Delete true]
    [];
  (** facades/ballot_compact.cpp:36. *)
  fn eg_compact_plaintext_ballot_from_msgpack
    [Ptr c_uint8_t; c_uint64_t; Ptr (Ptr c_eg_compact_plaintext_ballot_t)]
    []
    [Fresh CompactPlaintextBallot CompactPlaintextBallot];
  (** facades/ballot_compact.cpp:52. *)
  fn eg_compact_plaintext_ballot_to_msgpack
    [Ptr c_eg_compact_plaintext_ballot_t; Ptr (Ptr c_uint8_t); Ptr c_uint64_t]
    [arg CompactPlaintextBallot CompactPlaintextBallot Use false]
    [Fresh ByteBuffer ByteBuffer];
  (** facades/ballot_compact.cpp:71. *)
  fn eg_compact_plaintext_ballot_msgpack_free
    [Ptr c_uint8_t]
    [arg ByteBuffer ByteBuffer Delete true]
    [];
  (** facades/ballot_compact.cpp:85. *)
  fn eg_compact_ciphertext_ballot_free
    [Ptr c_eg_compact_ciphertext_ballot_t]
    [arg CompactCiphertextBallot CompactCiphertextBallot Delete true]
    [];
  (** facades/ballot_compact.cpp:96. *)
  fn eg_compact_ciphertext_ballot_get_object_id
    [Ptr c_eg_compact_ciphertext_ballot_t; Ptr (Ptr c_char)]
    [arg CompactCiphertextBallot CompactCiphertextBallot Use false]
    [Fresh Text Text];
  (** facades/ballot_compact.cpp:111. *)
  fn eg_compact_ciphertext_ballot_from_msgpack
    [Ptr c_uint8_t; c_uint64_t; Ptr (Ptr c_eg_compact_ciphertext_ballot_t)]
    []
    [Fresh CompactCiphertextBallot CompactCiphertextBallot];
  (** facades/ballot_compact.cpp:127. *)
  fn eg_compact_ciphertext_ballot_to_msgpack
    [Ptr c_eg_compact_ciphertext_ballot_t; Ptr (Ptr c_uint8_t); Ptr c_uint64_t]
    [arg CompactCiphertextBallot CompactCiphertextBallot Use false]
    [Fresh ByteBuffer ByteBuffer];
  (** facades/ballot_compact.cpp:146. *)
  fn eg_compact_ciphertext_ballot_msgpack_free
    [Ptr c_uint8_t]
    [arg ByteBuffer ByteBuffer Delete true]
    [];
  (** facades/ballot_compact.cpp:159. *)
  fn eg_free_int_ptr
    [Ptr c_char]
    [arg Text Text Delete true]
    [];
  (** facades/ballot_compact.cpp:169. *)
  fn eg_delete_int_ptr
    [Ptr c_uint8_t]
    [arg ByteBuffer ByteBuffer Delete true]
    [];
  (** facades/chaum_pedersen.cpp:20. *)
  fn eg_disjunctive_chaum_pedersen_proof_free
    [Ptr c_eg_disjunctive_chaum_pedersen_proof_t]
    [arg DisjunctiveChaumPedersenProof DisjunctiveChaumPedersenProof Delete true]
    [];
  (** facades/chaum_pedersen.cpp:33. *)
  fn eg_disjunctive_chaum_pedersen_proof_get_zero_pad
    [Ptr c_eg_disjunctive_chaum_pedersen_proof_t; Ptr (Ptr c_eg_element_mod_p_t)]
    [arg DisjunctiveChaumPedersenProof DisjunctiveChaumPedersenProof Use false]
    [Inner ElementModP ElementModP];
  (** facades/chaum_pedersen.cpp:42. *)
  fn eg_disjunctive_chaum_pedersen_proof_get_zero_data
    [Ptr c_eg_disjunctive_chaum_pedersen_proof_t; Ptr (Ptr c_eg_element_mod_p_t)]
    [arg DisjunctiveChaumPedersenProof DisjunctiveChaumPedersenProof Use false]
    [Inner ElementModP ElementModP];
  (** facades/chaum_pedersen.cpp:51. *)
  fn eg_disjunctive_chaum_pedersen_proof_get_one_pad
    [Ptr c_eg_disjunctive_chaum_pedersen_proof_t; Ptr (Ptr c_eg_element_mod_p_t)]
    [arg DisjunctiveChaumPedersenProof DisjunctiveChaumPedersenProof Use false]
    [Inner ElementModP ElementModP];
  (** facades/chaum_pedersen.cpp:60. *)
  fn eg_disjunctive_chaum_pedersen_proof_get_one_data
    [Ptr c_eg_disjunctive_chaum_pedersen_proof_t; Ptr (Ptr c_eg_element_mod_p_t)]
    [arg DisjunctiveChaumPedersenProof DisjunctiveChaumPedersenProof Use false]
    [Inner ElementModP ElementModP];
  (** facades/chaum_pedersen.cpp:69. *)
  fn eg_disjunctive_chaum_pedersen_proof_get_zero_challenge
    [Ptr c_eg_disjunctive_chaum_pedersen_proof_t; Ptr (Ptr c_eg_element_mod_q_t)]
    [arg DisjunctiveChaumPedersenProof DisjunctiveChaumPedersenProof Use false]
    [Inner ElementModQ ElementModQ];
  (** facades/chaum_pedersen.cpp:77. *)
  fn eg_disjunctive_chaum_pedersen_proof_get_one_challenge
    [Ptr c_eg_disjunctive_chaum_pedersen_proof_t; Ptr (Ptr c_eg_element_mod_q_t)]
    [arg DisjunctiveChaumPedersenProof DisjunctiveChaumPedersenProof Use false]
    [Inner ElementModQ ElementModQ];
  (** facades/chaum_pedersen.cpp:86. *)
  fn eg_disjunctive_chaum_pedersen_proof_get_challenge
    [Ptr c_eg_disjunctive_chaum_pedersen_proof_t; Ptr (Ptr c_eg_element_mod_q_t)]
    [arg DisjunctiveChaumPedersenProof DisjunctiveChaumPedersenProof Use false]
    [Inner ElementModQ ElementModQ];
  (** facades/chaum_pedersen.cpp:95. *)
  fn eg_disjunctive_chaum_pedersen_proof_get_zero_response
    [Ptr c_eg_disjunctive_chaum_pedersen_proof_t; Ptr (Ptr c_eg_element_mod_q_t)]
    [arg DisjunctiveChaumPedersenProof DisjunctiveChaumPedersenProof Use false]
    [Inner ElementModQ ElementModQ];
  (** facades/chaum_pedersen.cpp:104. *)
  fn eg_disjunctive_chaum_pedersen_proof_get_one_response
    [Ptr c_eg_disjunctive_chaum_pedersen_proof_t; Ptr (Ptr c_eg_element_mod_q_t)]
    [arg DisjunctiveChaumPedersenProof DisjunctiveChaumPedersenProof Use false]
    [Inner ElementModQ ElementModQ];
  (** facades/chaum_pedersen.cpp:113. *)
  fn eg_disjunctive_chaum_pedersen_proof_make
    [Ptr c_eg_elgamal_ciphertext_t; Ptr c_eg_element_mod_q_t; Ptr c_eg_element_mod_p_t; Ptr c_eg_element_mod_q_t; c_uint64_t; Ptr (Ptr c_eg_disjunctive_chaum_pedersen_proof_t)]
    [arg ElGamalCiphertext ElGamalCiphertext Use true; arg ElementModQ ElementModQ Use true; arg ElementModP ElementModP Use true; arg ElementModQ ElementModQ Use true]
    [Fresh DisjunctiveChaumPedersenProof DisjunctiveChaumPedersenProof];
  (** facades/chaum_pedersen.cpp:138. *)
  fn eg_disjunctive_chaum_pedersen_proof_make_deterministic
    [Ptr c_eg_elgamal_ciphertext_t; Ptr c_eg_element_mod_q_t; Ptr c_eg_element_mod_p_t; Ptr c_eg_element_mod_q_t; Ptr c_eg_element_mod_q_t; c_uint64_t; Ptr (Ptr c_eg_disjunctive_chaum_pedersen_proof_t)]
    [arg ElGamalCiphertext ElGamalCiphertext Use true; arg ElementModQ ElementModQ Use true; arg ElementModP ElementModP Use true; arg ElementModQ ElementModQ Use true; arg ElementModQ ElementModQ Use true]
    [Fresh DisjunctiveChaumPedersenProof DisjunctiveChaumPedersenProof];
  (** facades/chaum_pedersen.cpp:164. *)
  fn eg_disjunctive_chaum_pedersen_proof_is_valid
    [Ptr c_eg_disjunctive_chaum_pedersen_proof_t; Ptr c_eg_elgamal_ciphertext_t; Ptr c_eg_element_mod_p_t; Ptr c_eg_element_mod_q_t]
    [arg DisjunctiveChaumPedersenProof DisjunctiveChaumPedersenProof Use true; arg ElGamalCiphertext ElGamalCiphertext Use true; arg ElementModP ElementModP Use true; arg ElementModQ ElementModQ Use true]
    [];
  (** facades/chaum_pedersen.cpp:182. *)
  fn eg_constant_chaum_pedersen_proof_free
    [Ptr c_eg_constant_chaum_pedersen_proof_t]
    [arg ConstantChaumPedersenProof ConstantChaumPedersenProof Delete true]
    [];
  (** facades/chaum_pedersen.cpp:194. *)
  fn eg_constant_chaum_pedersen_proof_get_pad
    [Ptr c_eg_constant_chaum_pedersen_proof_t; Ptr (Ptr c_eg_element_mod_p_t)]
    [arg ConstantChaumPedersenProof ConstantChaumPedersenProof Use false]
    [Inner ElementModP ElementModP];
  (** facades/chaum_pedersen.cpp:202. *)
  fn eg_constant_chaum_pedersen_proof_get_data
    [Ptr c_eg_constant_chaum_pedersen_proof_t; Ptr (Ptr c_eg_element_mod_p_t)]
    [arg ConstantChaumPedersenProof ConstantChaumPedersenProof Use false]
    [Inner ElementModP ElementModP];
  (** facades/chaum_pedersen.cpp:210. *)
  fn eg_constant_chaum_pedersen_proof_get_challenge
    [Ptr c_eg_constant_chaum_pedersen_proof_t; Ptr (Ptr c_eg_element_mod_q_t)]
    [arg ConstantChaumPedersenProof ConstantChaumPedersenProof Use false]
    [Inner ElementModQ ElementModQ];
  (** facades/chaum_pedersen.cpp:218. *)
  fn eg_constant_chaum_pedersen_proof_get_response
    [Ptr c_eg_constant_chaum_pedersen_proof_t; Ptr (Ptr c_eg_element_mod_q_t)]
    [arg ConstantChaumPedersenProof ConstantChaumPedersenProof Use false]
    [Inner ElementModQ ElementModQ];
  (** facades/chaum_pedersen.cpp:226. *)
  fn eg_constant_chaum_pedersen_proof_make
    [Ptr c_eg_elgamal_ciphertext_t; Ptr c_eg_element_mod_q_t; Ptr c_eg_element_mod_p_t; Ptr c_eg_element_mod_q_t; Ptr c_eg_element_mod_q_t; c_uint64_t; Ptr (Ptr c_eg_constant_chaum_pedersen_proof_t)]
    [arg ElGamalCiphertext ElGamalCiphertext Use true; arg ElementModQ ElementModQ Use true; arg ElementModP ElementModP Use true; arg ElementModQ ElementModQ Use true; arg ElementModQ ElementModQ Use true]
    [Fresh ConstantChaumPedersenProof ConstantChaumPedersenProof];
  (** facades/chaum_pedersen.cpp:254. *)
  fn eg_constant_chaum_pedersen_proof_is_valid
    [Ptr c_eg_constant_chaum_pedersen_proof_t; Ptr c_eg_elgamal_ciphertext_t; Ptr c_eg_element_mod_p_t; Ptr c_eg_element_mod_q_t]
    [arg ConstantChaumPedersenProof ConstantChaumPedersenProof Use true; arg ElGamalCiphertext ElGamalCiphertext Use true; arg ElementModP ElementModP Use true; arg ElementModQ ElementModQ Use true]
    [];
  (** facades/election.cpp:34. *)
  fn eg_ciphertext_election_context_config_get_allowed_overvotes
    [Ptr c_eg_context_configuration_t; Ptr c_bool]
    [arg ContextConfiguration ContextConfiguration Use true]
    [];
  (** facades/election.cpp:46. *)
  fn eg_ciphertext_election_context_config_get_max_ballots
    [Ptr c_eg_context_configuration_t; Ptr c_uint64_t]
    [arg ContextConfiguration ContextConfiguration Use true]
    [];
  (** facades/election.cpp:58. *)
  fn eg_ciphertext_election_context_config_free
    [Ptr c_eg_context_configuration_t]
    [arg ContextConfiguration ContextConfiguration Delete true]
    [];
  (** facades/election.cpp:70. *)
  fn eg_ciphertext_election_context_config_make
    [c_bool; c_uint64_t; Ptr (Ptr c_eg_context_configuration_t)]
    []
    [Fresh ContextConfiguration ContextConfiguration];
  (** facades/election.cpp:89. *)
  fn eg_ciphertext_election_context_free
    [Ptr c_eg_ciphertext_election_context_t]
    [arg CiphertextElectionContext CiphertextElectionContext Delete true]
    [];
  (** facades/election.cpp:101. *)
  fn eg_ciphertext_election_context_get_elgamal_public_key
    [Ptr c_eg_ciphertext_election_context_t; Ptr (Ptr c_eg_element_mod_p_t)]
    [arg CiphertextElectionContext CiphertextElectionContext Use false]
    [Inner ElementModP ElementModP];
  (** facades/election.cpp:109. *)
  fn eg_ciphertext_election_context_get_configuration
    [Ptr c_eg_ciphertext_election_context_t; Ptr (Ptr c_eg_context_configuration_t)]
    [arg CiphertextElectionContext CiphertextElectionContext Use false]
    [Inner ContextConfiguration ContextConfiguration];
  (** facades/election.cpp:118. *)
  fn eg_ciphertext_election_context_get_commitment_hash
    [Ptr c_eg_ciphertext_election_context_t; Ptr (Ptr c_eg_element_mod_q_t)]
    [arg CiphertextElectionContext CiphertextElectionContext Use false]
    [Inner ElementModQ ElementModQ];
  (** facades/election.cpp:127. *)
  fn eg_ciphertext_election_context_get_manifest_hash
    [Ptr c_eg_ciphertext_election_context_t; Ptr (Ptr c_eg_element_mod_q_t)]
    [arg CiphertextElectionContext CiphertextElectionContext Use false]
    [Inner ElementModQ ElementModQ];
  (** facades/election.cpp:136. *)
  fn eg_ciphertext_election_context_get_crypto_base_hash
    [Ptr c_eg_ciphertext_election_context_t; Ptr (Ptr c_eg_element_mod_q_t)]
    [arg CiphertextElectionContext CiphertextElectionContext Use false]
    [Inner ElementModQ ElementModQ];
  (** facades/election.cpp:145. *)
  fn eg_ciphertext_election_context_get_crypto_extended_base_hash
    [Ptr c_eg_ciphertext_election_context_t; Ptr (Ptr c_eg_element_mod_q_t)]
    [arg CiphertextElectionContext CiphertextElectionContext Use false]
    [Inner ElementModQ ElementModQ];
  (** facades/election.cpp:154. *)
  fn eg_ciphertext_election_context_get_extended_data
    [Ptr c_eg_ciphertext_election_context_t; Ptr (Ptr c_eg_linked_list_t)]
    [arg CiphertextElectionContext CiphertextElectionContext Use false]
    [Fresh LinkedList LinkedList];
  (** facades/election.cpp:174. *)
  fn eg_ciphertext_election_context_make
    [c_uint64_t; c_uint64_t; Ptr c_eg_element_mod_p_t; Ptr c_eg_element_mod_q_t; Ptr c_eg_element_mod_q_t; Ptr (Ptr c_eg_ciphertext_election_context_t)]
    [arg ElementModP ElementModP Use false; arg ElementModQ ElementModQ Use false; arg ElementModQ ElementModQ Use false]
    [Fresh CiphertextElectionContext CiphertextElectionContext];
  (** facades/election.cpp:196. *)
  fn eg_ciphertext_election_context_make_with_configuration
    [c_uint64_t; c_uint64_t; Ptr c_eg_element_mod_p_t; Ptr c_eg_element_mod_q_t; Ptr c_eg_element_mod_q_t; Ptr c_eg_context_configuration_t; Ptr (Ptr c_eg_ciphertext_election_context_t)]
    [arg ElementModP ElementModP Use false; arg ElementModQ ElementModQ Use false; arg ElementModQ ElementModQ Use false; arg ContextConfiguration ContextConfiguration Use false]
    [Fresh CiphertextElectionContext CiphertextElectionContext];
  (** facades/election.cpp:221. *)
  fn eg_ciphertext_election_context_make_with_extended_data
    [c_uint64_t; c_uint64_t; Ptr c_eg_element_mod_p_t; Ptr c_eg_element_mod_q_t; Ptr c_eg_element_mod_q_t; Ptr c_eg_linked_list_t; Ptr (Ptr c_eg_ciphertext_election_context_t)]
    [arg ElementModP ElementModP Use false; arg ElementModQ ElementModQ Use false; arg ElementModQ ElementModQ Use false; arg LinkedList LinkedList Use false]
    [Fresh CiphertextElectionContext CiphertextElectionContext];
  (** facades/election.cpp:253. *)
  fn eg_ciphertext_election_context_make_with_configuration_and_extended_data
    [c_uint64_t; c_uint64_t; Ptr c_eg_element_mod_p_t; Ptr c_eg_element_mod_q_t; Ptr c_eg_element_mod_q_t; Ptr c_eg_context_configuration_t; Ptr c_eg_linked_list_t; Ptr (Ptr c_eg_ciphertext_election_context_t)]
    [arg ElementModP ElementModP Use false; arg ElementModQ ElementModQ Use false; arg ElementModQ ElementModQ Use false; arg ContextConfiguration ContextConfiguration Use false; arg LinkedList LinkedList Use false]
    [Fresh CiphertextElectionContext CiphertextElectionContext];
  (** facades/election.cpp:289. *)
  fn eg_ciphertext_election_context_make_from_hex
    [c_uint64_t; c_uint64_t; Ptr (Const c_char); Ptr (Const c_char); Ptr (Const c_char); Ptr (Ptr c_eg_ciphertext_election_context_t)]
    []
    [Fresh CiphertextElectionContext CiphertextElectionContext];
  (** facades/election.cpp:310. *)
  fn eg_ciphertext_election_context_make_from_hex_with_extended_data
    [c_uint64_t; c_uint64_t; Ptr (Const c_char); Ptr (Const c_char); Ptr (Const c_char); Ptr c_eg_linked_list_t; Ptr (Ptr c_eg_ciphertext_election_context_t)]
    [arg LinkedList LinkedList Use false]
    [Fresh CiphertextElectionContext CiphertextElectionContext];
  (** facades/election.cpp:341. *)
  fn eg_ciphertext_election_context_from_json
    [Ptr c_char; Ptr (Ptr c_eg_ciphertext_election_context_t)]
    []
    [Fresh CiphertextElectionContext CiphertextElectionContext];
  (** facades/election.cpp:356. *)
  fn eg_ciphertext_election_context_from_bson
    [Ptr c_uint8_t; c_uint64_t; Ptr (Ptr c_eg_ciphertext_election_context_t)]
    []
    [Fresh CiphertextElectionContext CiphertextElectionContext];
  (** facades/election.cpp:372. *)
  fn eg_ciphertext_election_context_to_json
    [Ptr c_eg_ciphertext_election_context_t; Ptr (Ptr c_char); Ptr c_uint64_t]
    [arg CiphertextElectionContext CiphertextElectionContext Use false]
    [Fresh Text Text];
  (** facades/election.cpp:391. *)
  fn eg_ciphertext_election_context_to_bson
    [Ptr c_eg_ciphertext_election_context_t; Ptr (Ptr c_uint8_t); Ptr c_uint64_t]
    [arg CiphertextElectionContext CiphertextElectionContext Use false]
    [Fresh ByteBuffer ByteBuffer];
  (** facades/elgamal.cpp:20. *)
  fn eg_elgamal_keypair_from_secret_new
    [Ptr c_eg_element_mod_q_t; Ptr (Ptr c_eg_elgamal_keypair_t)]
    [arg ElementModQ ElementModQ Use true]
    [Fresh ElGamalKeyPair ElGamalKeyPair];
  (** facades/elgamal.cpp:39. *)
  fn eg_elgamal_keypair_free
    [Ptr c_eg_elgamal_keypair_t]
    [arg ElGamalKeyPair ElGamalKeyPair Delete true]
    [];
  (** facades/elgamal.cpp:50. *)
  fn eg_elgamal_keypair_get_secret_key
    [Ptr c_eg_elgamal_keypair_t; Ptr (Ptr c_eg_element_mod_q_t)]
    [arg ElGamalKeyPair ElGamalKeyPair Use true]
    [Inner ElementModQ ElementModQ];
  (** facades/elgamal.cpp:61. *)
  fn eg_elgamal_keypair_get_public_key
    [Ptr c_eg_elgamal_keypair_t; Ptr (Ptr c_eg_element_mod_p_t)]
    [arg ElGamalKeyPair ElGamalKeyPair Use true]
    [Inner ElementModP ElementModP];
  (** facades/elgamal.cpp:76. *)
  fn eg_elgamal_ciphertext_free
    [Ptr c_eg_elgamal_ciphertext_t]
    [arg ElGamalCiphertext ElGamalCiphertext Delete true]
    [];
  (** facades/elgamal.cpp:87. *)
  fn eg_elgamal_ciphertext_get_pad
    [Ptr c_eg_elgamal_ciphertext_t; Ptr (Ptr c_eg_element_mod_p_t)]
    [arg ElGamalCiphertext ElGamalCiphertext Use false]
    [Inner ElementModP ElementModP];
  (** facades/elgamal.cpp:95. *)
  fn eg_elgamal_ciphertext_get_data
    [Ptr c_eg_elgamal_ciphertext_t; Ptr (Ptr c_eg_element_mod_p_t)]
    [arg ElGamalCiphertext ElGamalCiphertext Use false]
    [Inner ElementModP ElementModP];
  (** facades/elgamal.cpp:103. *)
  fn eg_elgamal_ciphertext_crypto_hash
    [Ptr c_eg_elgamal_ciphertext_t; Ptr (Ptr c_eg_element_mod_q_t)]
    [arg ElGamalCiphertext ElGamalCiphertext Use false]
    [Fresh ElementModQ ElementModQ];
  (** facades/elgamal.cpp:116. *)
  fn eg_elgamal_ciphertext_decrypt_with_secret
    [Ptr c_eg_elgamal_ciphertext_t; Ptr c_eg_element_mod_q_t; Ptr c_uint64_t]
    [arg ElGamalCiphertext ElGamalCiphertext Use false; arg ElementModQ ElementModQ Use false]
    [];
  (** facades/elgamal.cpp:133. *)
  fn eg_elgamal_encrypt
    [c_uint64_t; Ptr c_eg_element_mod_q_t; Ptr c_eg_element_mod_p_t; Ptr (Ptr c_eg_elgamal_ciphertext_t)]
    [arg ElementModQ ElementModQ Use false; arg ElementModP ElementModP Use false]
    [Fresh ElGamalCiphertext ElGamalCiphertext];
  (** facades/encrypt.cpp:43. *)
  fn eg_encryption_device_new
    [c_uint64_t; c_uint64_t; c_uint64_t; Ptr (Const c_char); Ptr (Ptr c_eg_encryption_device_t)]
    []
    [Fresh EncryptionDevice EncryptionDevice];
  (** facades/encrypt.cpp:59. *)
  fn eg_encryption_device_free
    [Ptr c_eg_encryption_device_t]
    [arg EncryptionDevice EncryptionDevice Delete true]
    [];
  (** facades/encrypt.cpp:70. *)
  fn eg_encryption_device_get_hash
    [Ptr c_eg_encryption_device_t; Ptr (Ptr c_eg_element_mod_q_t)]
    [arg EncryptionDevice EncryptionDevice Use false]
    [Fresh ElementModQ ElementModQ];
  (** facades/encrypt.cpp:83. *)
  fn eg_encryption_device_from_json
    [Ptr c_char; Ptr (Ptr c_eg_encryption_device_t)]
    []
    [Fresh EncryptionDevice EncryptionDevice];
  (** facades/encrypt.cpp:96. *)
  fn eg_encryption_device_to_json
    [Ptr c_eg_encryption_device_t; Ptr (Ptr c_char); Ptr c_uint64_t]
    [arg EncryptionDevice EncryptionDevice Use false]
    [Fresh Text Text];
  (** facades/encrypt.cpp:115. *)
  fn eg_encryption_mediator_new
    [Ptr c_eg_internal_manifest_t; Ptr c_eg_ciphertext_election_context_t; Ptr c_eg_encryption_device_t; Ptr (Ptr c_eg_encryption_mediator_t)]
    [arg InternalManifest InternalManifest Keep false; arg CiphertextElectionContext CiphertextElectionContext Keep false; arg EncryptionDevice EncryptionDevice Keep false]
    [Fresh EncryptionMediator EncryptionMediator];
  (** facades/encrypt.cpp:134. *)
  fn eg_encryption_mediator_free
    [Ptr c_eg_encryption_mediator_t]
    [arg EncryptionMediator EncryptionMediator Delete true]
    [];
  (** facades/encrypt.cpp:145. *)
  fn eg_encryption_mediator_encrypt_ballot
    [Ptr c_eg_encryption_mediator_t; Ptr c_eg_plaintext_ballot_t; Ptr (Ptr c_eg_ciphertext_ballot_t)]
    [arg EncryptionMediator EncryptionMediator Use false; arg PlaintextBallot PlaintextBallot Use false]
    [Fresh CiphertextBallot CiphertextBallot];
  (** facades/encrypt.cpp:169. *)
  fn eg_encryption_mediator_compact_encrypt_ballot
    [Ptr c_eg_encryption_mediator_t; Ptr c_eg_plaintext_ballot_t; Ptr (Ptr c_eg_compact_ciphertext_ballot_t)]
    [arg EncryptionMediator EncryptionMediator Use false; arg PlaintextBallot PlaintextBallot Use false]
    [Fresh CompactCiphertextBallot CompactCiphertextBallot];
  (** facades/encrypt.cpp:191. *)
  fn eg_encryption_mediator_compact_encrypt_ballot_verify_proofs
    [Ptr c_eg_encryption_mediator_t; Ptr c_eg_plaintext_ballot_t; Ptr (Ptr c_eg_compact_ciphertext_ballot_t)]
    [arg EncryptionMediator EncryptionMediator Use false; arg PlaintextBallot PlaintextBallot Use false]
    [Fresh CompactCiphertextBallot CompactCiphertextBallot];
  (** facades/encrypt.cpp:213. *)
  fn eg_encryption_mediator_encrypt_ballot_verify_proofs
    [Ptr c_eg_encryption_mediator_t; Ptr c_eg_plaintext_ballot_t; Ptr (Ptr c_eg_ciphertext_ballot_t)]
    [arg EncryptionMediator EncryptionMediator Use false; arg PlaintextBallot PlaintextBallot Use false]
    [Fresh CiphertextBallot CiphertextBallot];
  (** facades/encrypt.cpp:240. *)
  fn eg_encrypt_selection
    [Ptr c_eg_plaintext_ballot_selection_t; Ptr c_eg_selection_description_t; Ptr c_eg_element_mod_p_t; Ptr c_eg_element_mod_q_t; Ptr c_eg_element_mod_q_t; c_bool; c_bool; Ptr (Ptr c_eg_ciphertext_ballot_selection_t)]
    [arg PlaintextBallotSelection PlaintextBallotSelection Use false; arg SelectionDescription SelectionDescription Use false; arg ElementModP ElementModP Use false; arg ElementModQ ElementModQ Use false; arg ElementModQ ElementModQ Use false]
    [Fresh CiphertextBallotSelection CiphertextBallotSelection];
  (** facades/encrypt.cpp:277. *)
  fn eg_encrypt_contest
    [Ptr c_eg_plaintext_ballot_contest_t; Ptr c_eg_internal_manifest_t; Ptr c_eg_contest_description_with_placeholders_t; Ptr c_eg_element_mod_p_t; Ptr c_eg_element_mod_q_t; Ptr c_eg_element_mod_q_t; c_bool; Ptr (Ptr c_eg_ciphertext_ballot_contest_t)]
    [arg PlaintextBallotContest PlaintextBallotContest Use false; arg InternalManifest InternalManifest Use false; arg ContestDescriptionWithPlaceholders ContestDescriptionWithPlaceholders Use false; arg ElementModP ElementModP Use false; arg ElementModQ ElementModQ Use false; arg ElementModQ ElementModQ Use false]
    [Fresh CiphertextBallotContest CiphertextBallotContest];
  (** facades/encrypt.cpp:313. *)
  fn eg_encrypt_ballot
    [Ptr c_eg_plaintext_ballot_t; Ptr c_eg_internal_manifest_t; Ptr c_eg_ciphertext_election_context_t; Ptr c_eg_element_mod_q_t; c_bool; Ptr (Ptr c_eg_ciphertext_ballot_t)]
    [arg PlaintextBallot PlaintextBallot Use false; arg InternalManifest InternalManifest Use false; arg CiphertextElectionContext CiphertextElectionContext Use false; arg ElementModQ ElementModQ Use false]
    [Fresh CiphertextBallot CiphertextBallot];
  (** facades/encrypt.cpp:342. *)
  fn eg_encrypt_ballot_with_nonce
    [Ptr c_eg_plaintext_ballot_t; Ptr c_eg_internal_manifest_t; Ptr c_eg_ciphertext_election_context_t; Ptr c_eg_element_mod_q_t; Ptr c_eg_element_mod_q_t; c_bool; Ptr (Ptr c_eg_ciphertext_ballot_t)]
    [arg PlaintextBallot PlaintextBallot Use false; arg InternalManifest InternalManifest Use false; arg CiphertextElectionContext CiphertextElectionContext Use false; arg ElementModQ ElementModQ Use false; arg ElementModQ ElementModQ Take false]
    [Fresh CiphertextBallot CiphertextBallot];
  (** facades/encrypt.cpp:375. *)
  fn eg_encrypt_compact_ballot
    [Ptr c_eg_plaintext_ballot_t; Ptr c_eg_internal_manifest_t; Ptr c_eg_ciphertext_election_context_t; Ptr c_eg_element_mod_q_t; c_bool; Ptr (Ptr c_eg_compact_ciphertext_ballot_t)]
    [arg PlaintextBallot PlaintextBallot Use false; arg InternalManifest InternalManifest Use false; arg CiphertextElectionContext CiphertextElectionContext Use false; arg ElementModQ ElementModQ Use false]
    [Fresh CompactCiphertextBallot CompactCiphertextBallot];
  (** facades/encrypt.cpp:404. *)
  fn eg_encrypt_compact_ballot_with_nonce
    [Ptr c_eg_plaintext_ballot_t; Ptr c_eg_internal_manifest_t; Ptr c_eg_ciphertext_election_context_t; Ptr c_eg_element_mod_q_t; Ptr c_eg_element_mod_q_t; c_bool; Ptr (Ptr c_eg_compact_ciphertext_ballot_t)]
    [arg PlaintextBallot PlaintextBallot Use false; arg InternalManifest InternalManifest Use false; arg CiphertextElectionContext CiphertextElectionContext Use false; arg ElementModQ ElementModQ Use false; arg ElementModQ ElementModQ Take false]
    [Fresh CompactCiphertextBallot CompactCiphertextBallot];
  (** facades/encrypt.cpp:438. *)
  fn eg_precompute_init
    [c_int]
    []
    [];
  (** facades/encrypt.cpp:450. *)
  fn eg_precompute_populate
    [Ptr c_eg_element_mod_p_t]
    [arg ElementModP ElementModP Use false]
    [];
  (** facades/encrypt.cpp:463. *)
  fn eg_precompute_stop
    []
    []
    [];
  (** facades/encrypt.cpp:475. *)
  fn eg_precompute_status
    [Ptr c_int; Ptr c_int]
    []
    [];
  (** facades/group.cpp:38. *)
  fn eg_element_mod_p_new
    [Const c_uint64_t; Ptr (Ptr c_eg_element_mod_p_t)]
    []
    [Fresh ElementModP ElementModP];
  (** facades/group.cpp:55. *)
  fn eg_element_mod_p_new_unchecked
    [Const c_uint64_t; Ptr (Ptr c_eg_element_mod_p_t)]
    []
    [Fresh ElementModP ElementModP];
  (** facades/group.cpp:72. *)
  fn eg_element_mod_p_free
    [Ptr c_eg_element_mod_p_t]
    [arg ElementModP ElementModP Delete true]
    [];
  (** facades/group.cpp:83. *)
  fn eg_element_mod_p_get_data
    [Ptr c_eg_element_mod_p_t; Ptr (Ptr c_uint64_t); Ptr c_uint64_t]
    [arg ElementModP ElementModP Use true]
    [Inner Words Words];
  (** facades/group.cpp:97. *)
  fn eg_element_mod_p_to_hex
    [Ptr c_eg_element_mod_p_t; Ptr (Ptr c_char)]
    [arg ElementModP ElementModP Use false]
    [Fresh Text Text];
  (** facades/group.cpp:114. *)
  fn eg_element_mod_q_new
    [Const c_uint64_t; Ptr (Ptr c_eg_element_mod_q_t)]
    []
    [Fresh ElementModQ ElementModQ];
  (** facades/group.cpp:131. *)
  fn eg_element_mod_q_new_unchecked
    [Const c_uint64_t; Ptr (Ptr c_eg_element_mod_q_t)]
    []
    [Fresh ElementModQ ElementModQ];
  (** facades/group.cpp:148. *)
  fn eg_element_mod_q_free
    [Ptr c_eg_element_mod_q_t]
    [arg ElementModQ ElementModQ Delete true]
    [];
  (** facades/group.cpp:159. *)
  fn eg_element_mod_q_get_data
    [Ptr c_eg_element_mod_q_t; Ptr (Ptr c_uint64_t); Ptr c_uint64_t]
    [arg ElementModQ ElementModQ Use true]
    [Inner Words Words];
  (** facades/group.cpp:173. *)
  fn eg_element_mod_q_to_hex
    [Ptr c_eg_element_mod_q_t; Ptr (Ptr c_char)]
    [arg ElementModQ ElementModQ Use false]
    [Fresh Text Text];
  (** facades/group.cpp:186. *)
  fn eg_element_mod_q_from_hex
    [Ptr c_char; Ptr (Ptr c_eg_element_mod_q_t)]
    []
    [Fresh ElementModQ ElementModQ];
  (** facades/group.cpp:200. *)
  fn eg_element_mod_q_from_hex_unchecked
    [Ptr c_char; Ptr (Ptr c_eg_element_mod_q_t)]
    []
    [Fresh ElementModQ ElementModQ];
  (** facades/group.cpp:218. *)
  fn eg_element_mod_p_constant_g
    [Ptr (Ptr c_eg_element_mod_p_t)]
    []
    [Static ElementModP ElementModP];
  (** facades/group.cpp:224. *)
  fn eg_element_mod_p_constant_p
    [Ptr (Ptr c_eg_element_mod_p_t)]
    []
    [Static ElementModP ElementModP];
  (** facades/group.cpp:230. *)
  fn eg_element_mod_p_constant_r
    [Ptr (Ptr c_eg_element_mod_p_t)]
    []
    [Static ElementModP ElementModP];
  (** facades/group.cpp:236. *)
  fn eg_element_mod_p_constant_zero_mod_p
    [Ptr (Ptr c_eg_element_mod_p_t)]
    []
    [Static ElementModP ElementModP];
  (** facades/group.cpp:243. *)
  fn eg_element_mod_p_constant_one_mod_p
    [Ptr (Ptr c_eg_element_mod_p_t)]
    []
    [Static ElementModP ElementModP];
  (** facades/group.cpp:249. *)
  fn eg_element_mod_p_constant_two_mod_p
    [Ptr (Ptr c_eg_element_mod_p_t)]
    []
    [Static ElementModP ElementModP];
  (** facades/group.cpp:255. *)
  fn eg_element_mod_q_constant_q
    [Ptr (Ptr c_eg_element_mod_q_t)]
    []
    [Static ElementModQ ElementModQ];
  (** facades/group.cpp:261. *)
  fn eg_element_mod_q_constant_zero_mod_q
    [Ptr (Ptr c_eg_element_mod_q_t)]
    []
    [Static ElementModQ ElementModQ];
  (** facades/group.cpp:268. *)
  fn eg_element_mod_q_constant_one_mod_q
    [Ptr (Ptr c_eg_element_mod_q_t)]
    []
    [Static ElementModQ ElementModQ];
  (** facades/group.cpp:274. *)
  fn eg_element_mod_q_constant_two_mod_q
    [Ptr (Ptr c_eg_element_mod_q_t)]
    []
    [Static ElementModQ ElementModQ];
  (** facades/group.cpp:284. *)
  fn eg_element_mod_q_pow_mod_p
    [Ptr c_eg_element_mod_p_t; Ptr c_eg_element_mod_q_t; Ptr (Ptr c_eg_element_mod_p_t)]
    [arg ElementModP ElementModP Use false; arg ElementModQ ElementModQ Use false]
    [Fresh ElementModP ElementModP];
  (** facades/group.cpp:301. *)
  fn eg_element_mod_q_rand_q_new
    [Ptr (Ptr c_eg_element_mod_q_t)]
    []
    [Fresh ElementModQ ElementModQ];
  (** facades/group.cpp:317. *)
  fn eg_constant_to_json
    [Ptr (Ptr c_char); Ptr c_uint64_t]
    []
    [Fresh Text Text];
  (** facades/hash.cpp:16. *)
  fn eg_hash_elems_string
    [Ptr (Const c_char); Ptr (Ptr c_eg_element_mod_q_t)]
    []
    [Fresh ElementModQ ElementModQ];
  (** facades/hash.cpp:28. *)
  fn eg_hash_elems_strings
    [Ptr (Ptr (Const c_char)); c_uint64_t; Ptr (Ptr c_eg_element_mod_q_t)]
    []
    [Fresh ElementModQ ElementModQ];
  (** facades/hash.cpp:42. *)
  fn eg_hash_elems_int
    [c_uint64_t; Ptr (Ptr c_eg_element_mod_q_t)]
    []
    [Fresh ElementModQ ElementModQ];
  (** facades/manifest.cpp:47. *)
  fn eg_annotated_string_new
    [Ptr (Const c_char); Ptr (Const c_char); Ptr (Ptr c_eg_annotated_string_t)]
    []
    [Fresh AnnotatedString AnnotatedString];
  (** facades/manifest.cpp:63. *)
  fn eg_annotated_string_free
    [Ptr c_eg_annotated_string_t]
    [arg AnnotatedString AnnotatedString Delete true]
    [];
  (** facades/manifest.cpp:74. *)
  fn eg_annotated_string_get_annotation
    [Ptr c_eg_annotated_string_t; Ptr (Ptr (Const c_char))]
    [arg AnnotatedString AnnotatedString Use false]
    [Fresh Text Text];
  (** facades/manifest.cpp:88. *)
  fn eg_annotated_string_get_value
    [Ptr c_eg_annotated_string_t; Ptr (Ptr (Const c_char))]
    [arg AnnotatedString AnnotatedString Use false]
    [Fresh Text Text];
  (** facades/manifest.cpp:102. *)
  fn eg_annotated_string_crypto_hash
    [Ptr c_eg_annotated_string_t; Ptr (Ptr c_eg_element_mod_q_t)]
    [arg AnnotatedString AnnotatedString Use false]
    [Fresh ElementModQ ElementModQ];
  (** facades/manifest.cpp:119. *)
  fn eg_language_new
    [Ptr (Const c_char); Ptr (Const c_char); Ptr (Ptr c_eg_language_t)]
    []
    [Fresh Language Language];
  (** facades/manifest.cpp:135. *)
  fn eg_language_free
    [Ptr c_eg_language_t]
    [arg Language Language Delete true]
    [];
  (** facades/manifest.cpp:146. *)
  fn eg_language_get_value
    [Ptr c_eg_language_t; Ptr (Ptr c_char)]
    [arg Language Language Use false]
    [Fresh Text Text];
  (** facades/manifest.cpp:159. *)
  fn eg_language_get_language
    [Ptr c_eg_language_t; Ptr (Ptr c_char)]
    [arg Language Language Use false]
    [Fresh Text Text];
  (** facades/manifest.cpp:172. *)
  fn eg_language_crypto_hash
    [Ptr c_eg_language_t; Ptr (Ptr c_eg_element_mod_q_t)]
    [arg Language Language Use false]
    [Fresh ElementModQ ElementModQ];
  (** facades/manifest.cpp:189. *)
  fn eg_internationalized_text_new
    [Ptr (Ptr c_eg_language_t); c_uint64_t; Ptr (Ptr c_eg_internationalized_text_t)]
    [arr Language Language Use false]
    [Fresh InternationalizedText InternationalizedText];
  (** facades/manifest.cpp:213. *)
  fn eg_internationalized_text_free
    [Ptr c_eg_internationalized_text_t]
    [arg InternationalizedText InternationalizedText Delete true]
    [];
  (** facades/manifest.cpp:224. *)
  fn eg_internationalized_text_get_text_size
    [Ptr c_eg_internationalized_text_t]
    [arg InternationalizedText InternationalizedText Use false]
    [];
  (** facades/manifest.cpp:229. *)
  fn eg_internationalized_text_get_text_at_index
    [Ptr c_eg_internationalized_text_t; c_uint64_t; Ptr (Ptr c_eg_language_t)]
    [arg InternationalizedText InternationalizedText Use false]
    [Inner Language Language];
  (** facades/manifest.cpp:246. *)
  fn eg_intertnationalized_text_crypto_hash
    [Ptr c_eg_language_t; Ptr (Ptr c_eg_element_mod_q_t)]
    [arg Language InternationalizedText Use false]
    [Fresh ElementModQ ElementModQ];
  (** facades/manifest.cpp:263. *)
  fn eg_contact_information_new
    [Ptr c_char; Ptr (Ptr c_eg_contact_information_t)]
    []
    [Fresh ContactInformation ContactInformation];
  (** facades/manifest.cpp:278. *)
  fn eg_contact_information_new_with_collections
    [Ptr c_char; Ptr (Ptr c_char); c_uint64_t; Ptr (Ptr c_eg_annotated_string_t); c_uint64_t; Ptr (Ptr c_eg_annotated_string_t); c_uint64_t; Ptr (Ptr c_eg_contact_information_t)]
    [arr AnnotatedString AnnotatedString Move false; arr AnnotatedString AnnotatedString Move false]
    [Fresh ContactInformation ContactInformation];
  (** facades/manifest.cpp:318. *)
  fn eg_contact_information_free
    [Ptr c_eg_contact_information_t]
    [arg ContactInformation ContactInformation Delete true]
    [];
  (** facades/manifest.cpp:329. *)
  fn eg_contact_information_get_address_line_size
    [Ptr c_eg_contact_information_t]
    [arg ContactInformation ContactInformation Use false]
    [];
  (** facades/manifest.cpp:334. *)
  fn eg_contact_information_get_address_line_at_index
    [Ptr c_eg_contact_information_t; c_uint64_t; Ptr (Ptr c_char)]
    [arg ContactInformation ContactInformation Use false]
    [Fresh Text Text];
  (** facades/manifest.cpp:351. *)
  fn eg_contact_information_get_email_line_size
    [Ptr c_eg_contact_information_t]
    [arg ContactInformation ContactInformation Use false]
    [];
  (** facades/manifest.cpp:356. *)
  fn eg_contact_information_get_email_line_at_index
    [Ptr c_eg_contact_information_t; c_uint64_t; Ptr (Ptr c_eg_internationalized_text_t)]
    [arg ContactInformation ContactInformation Use false]
    [Inner InternationalizedText AnnotatedString];
  (** facades/manifest.cpp:373. *)
  fn eg_contact_information_get_phone_line_size
    [Ptr c_eg_contact_information_t]
    [arg ContactInformation ContactInformation Use false]
    [];
  (** facades/manifest.cpp:378. *)
  fn eg_contact_information_get_phone_line_at_index
    [Ptr c_eg_contact_information_t; c_uint64_t; Ptr (Ptr c_eg_internationalized_text_t)]
    [arg ContactInformation ContactInformation Use false]
    [Inner InternationalizedText AnnotatedString];
  (** facades/manifest.cpp:395. *)
  fn eg_contact_information_get_name
    [Ptr c_eg_contact_information_t; Ptr (Ptr (Const c_char))]
    [arg ContactInformation GeopoliticalUnit Use false]
    [Fresh Text Text];
  (** facades/manifest.cpp:409. *)
  fn eg_contact_information_crypto_hash
    [Ptr c_eg_contact_information_t; Ptr (Ptr c_eg_element_mod_q_t)]
    [arg ContactInformation InternationalizedText Use false]
    [Fresh ElementModQ ElementModQ];
  (** facades/manifest.cpp:426. *)
  fn eg_geopolitical_unit_new
    [Ptr c_char; Ptr c_char; c_eg_reporting_unit_type_t; Ptr (Ptr c_eg_geopolitical_unit_t)]
    []
    [Fresh GeopoliticalUnit GeopoliticalUnit];
  (** facades/manifest.cpp:445. *)
  fn eg_geopolitical_unit_new_with_contact_info
    [Ptr c_char; Ptr c_char; c_eg_reporting_unit_type_t; Ptr c_eg_contact_information_t; Ptr (Ptr c_eg_geopolitical_unit_t)]
    [arg ContactInformation ContactInformation Move false]
    [Fresh GeopoliticalUnit GeopoliticalUnit];
  (** facades/manifest.cpp:466. *)
  fn eg_geopolitical_unit_free
    [Ptr c_eg_geopolitical_unit_t]
    [arg GeopoliticalUnit GeopoliticalUnit Delete true]
    [];
  (** facades/manifest.cpp:477. *)
  fn eg_geopolitical_unit_get_object_id
    [Ptr c_eg_geopolitical_unit_t; Ptr (Ptr (Const c_char))]
    [arg GeopoliticalUnit GeopoliticalUnit Use false]
    [Fresh Text Text];
  (** facades/manifest.cpp:491. *)
  fn eg_geopolitical_unit_get_name
    [Ptr c_eg_geopolitical_unit_t; Ptr (Ptr (Const c_char))]
    [arg GeopoliticalUnit GeopoliticalUnit Use false]
    [Fresh Text Text];
  (** facades/manifest.cpp:510. *)
  fn eg_geopolitical_unit_crypto_hash
    [Ptr c_eg_geopolitical_unit_t; Ptr (Ptr c_eg_element_mod_q_t)]
    [arg GeopoliticalUnit GeopoliticalUnit Use false]
    [Fresh ElementModQ ElementModQ];
  (** facades/manifest.cpp:527. *)
  fn eg_ballot_style_new
    [Ptr c_char; Ptr (Ptr c_char); c_uint64_t; Ptr (Ptr c_eg_ballot_style_t)]
    []
    [Fresh BallotStyle BallotStyle];
  (** facades/manifest.cpp:549. *)
  fn eg_ballot_style_new_with_parties
    [Ptr c_char; Ptr (Ptr c_char); c_uint64_t; Ptr (Ptr c_char); c_uint64_t; Ptr c_char; Ptr (Ptr c_eg_ballot_style_t)]
    []
    [Fresh BallotStyle BallotStyle];
  (** facades/manifest.cpp:580. *)
  fn eg_ballot_style_free
    [Ptr c_eg_ballot_style_t]
    [arg BallotStyle BallotStyle Delete true]
    [];
  (** facades/manifest.cpp:591. *)
  fn eg_ballot_style_get_object_id
    [Ptr c_eg_ballot_style_t; Ptr (Ptr (Const c_char))]
    [arg BallotStyle BallotStyle Use false]
    [Fresh Text Text];
  (** facades/manifest.cpp:605. *)
  fn eg_ballot_style_get_geopolitical_unit_ids_size
    [Ptr c_eg_ballot_style_t]
    [arg BallotStyle BallotStyle Use false]
    [];
  (** facades/manifest.cpp:610. *)
  fn eg_ballot_style_get_geopolitical_unit_id_at_index
    [Ptr c_eg_ballot_style_t; c_uint64_t; Ptr (Ptr c_char)]
    [arg BallotStyle BallotStyle Use false]
    [Fresh Text Text];
  (** facades/manifest.cpp:626. *)
  fn eg_ballot_style_get_party_ids_size
    [Ptr c_eg_ballot_style_t]
    [arg BallotStyle BallotStyle Use false]
    [];
  (** facades/manifest.cpp:631. *)
  fn eg_ballot_style_get_party_id_at_index
    [Ptr c_eg_ballot_style_t; c_uint64_t; Ptr (Ptr c_char)]
    [arg BallotStyle BallotStyle Use false]
    [Fresh Text Text];
  (** facades/manifest.cpp:647. *)
  fn eg_ballot_style_get_image_uri
    [Ptr c_eg_ballot_style_t; Ptr (Ptr (Const c_char))]
    [arg BallotStyle BallotStyle Use false]
    [Fresh Text Text];
  (** facades/manifest.cpp:661. *)
  fn eg_ballot_style_crypto_hash
    [Ptr c_eg_ballot_style_t; Ptr (Ptr c_eg_element_mod_q_t)]
    [arg BallotStyle BallotStyle Use false]
    [Fresh ElementModQ ElementModQ];
  (** facades/manifest.cpp:678. *)
  fn eg_party_new
    [Ptr c_char; Ptr (Ptr c_eg_party_t)]
    []
    [Fresh Party Party];
  (** facades/manifest.cpp:695. *)
  fn eg_party_new_with_extras
    [Ptr c_char; Ptr c_eg_internationalized_text_t; Ptr c_char; Ptr c_char; Ptr c_char; Ptr (Ptr c_eg_party_t)]
    [arg InternationalizedText InternationalizedText Move false]
    [Fresh Party Party];
  (** facades/manifest.cpp:720. *)
  fn eg_party_free
    [Ptr c_eg_party_t]
    [arg Party Party Delete true]
    [];
  (** facades/manifest.cpp:731. *)
  fn eg_party_get_object_id
    [Ptr c_eg_party_t; Ptr (Ptr (Const c_char))]
    [arg Party Party Use false]
    [Fresh Text Text];
  (** facades/manifest.cpp:744. *)
  fn eg_party_get_abbreviation
    [Ptr c_eg_party_t; Ptr (Ptr (Const c_char))]
    [arg Party Party Use false]
    [Fresh Text Text];
  (** facades/manifest.cpp:758. *)
  fn eg_party_get_name
    [Ptr c_eg_party_t; Ptr (Ptr c_eg_internationalized_text_t)]
    [arg Party Party Use false]
    [Inner InternationalizedText InternationalizedText];
  (** facades/manifest.cpp:771. *)
  fn eg_party_get_color
    [Ptr c_eg_party_t; Ptr (Ptr (Const c_char))]
    [arg Party Party Use false]
    [Fresh Text Text];
  (** facades/manifest.cpp:784. *)
  fn eg_party_get_logo_uri
    [Ptr c_eg_party_t; Ptr (Ptr (Const c_char))]
    [arg Party Party Use false]
    [Fresh Text Text];
  (** facades/manifest.cpp:796. *)
  fn eg_party_crypto_hash
    [Ptr c_eg_party_t; Ptr (Ptr c_eg_element_mod_q_t)]
    [arg Party Party Use false]
    [Fresh ElementModQ ElementModQ];
  (** facades/manifest.cpp:813. *)
  fn eg_candidate_new
    [Ptr c_char; c_bool; Ptr (Ptr c_eg_candidate_t)]
    []
    [Fresh Candidate Candidate];
  (** facades/manifest.cpp:831. *)
  fn eg_candidate_new_with_party
    [Ptr c_char; Ptr c_char; c_bool; Ptr (Ptr c_eg_candidate_t)]
    []
    [Fresh Candidate Candidate];
  (** facades/manifest.cpp:849. *)
  fn eg_candidate_new_with_extras
    [Ptr c_char; Ptr c_eg_internationalized_text_t; Ptr c_char; Ptr c_char; c_bool; Ptr (Ptr c_eg_candidate_t)]
    [arg InternationalizedText InternationalizedText Move false]
    [Fresh Candidate Candidate];
  (** facades/manifest.cpp:874. *)
  fn eg_candidate_free
    [Ptr c_eg_candidate_t]
    [arg Candidate Candidate Delete true]
    [];
  (** facades/manifest.cpp:885. *)
  fn eg_candidate_get_object_id
    [Ptr c_eg_candidate_t; Ptr (Ptr (Const c_char))]
    [arg Candidate Candidate Use false]
    [Fresh Text Text];
  (** facades/manifest.cpp:899. *)
  fn eg_candidate_get_candidate_id
    [Ptr c_eg_candidate_t; Ptr (Ptr (Const c_char))]
    [arg Candidate Candidate Use false]
    [Fresh Text Text];
  (** facades/manifest.cpp:913. *)
  fn eg_candidate_get_name
    [Ptr c_eg_candidate_t; Ptr (Ptr c_eg_internationalized_text_t)]
    [arg Candidate Candidate Use false]
    [Inner InternationalizedText InternationalizedText];
  (** facades/manifest.cpp:926. *)
  fn eg_candidate_get_party_id
    [Ptr c_eg_candidate_t; Ptr (Ptr (Const c_char))]
    [arg Candidate Candidate Use false]
    [Fresh Text Text];
  (** facades/manifest.cpp:940. *)
  fn eg_candidate_get_image_uri
    [Ptr c_eg_candidate_t; Ptr (Ptr (Const c_char))]
    [arg Candidate Candidate Use false]
    [Fresh Text Text];
  (** facades/manifest.cpp:954. *)
  fn eg_candidate_get_is_write_in
    [Ptr c_eg_candidate_t]
    [arg Candidate Candidate Use false]
    [];
  (** facades/manifest.cpp:964. *)
  fn eg_candidate_crypto_hash
    [Ptr c_eg_candidate_t; Ptr (Ptr c_eg_element_mod_q_t)]
    [arg Candidate Party Use false]
    [Fresh ElementModQ ElementModQ];
  (** facades/manifest.cpp:981. *)
  fn eg_selection_description_new
    [Ptr (Const c_char); Ptr (Const c_char); c_uint64_t; Ptr (Ptr c_eg_selection_description_t)]
    []
    [Fresh SelectionDescription SelectionDescription];
  (** facades/manifest.cpp:999. *)
  fn eg_selection_description_free
    [Ptr c_eg_selection_description_t]
    [arg SelectionDescription SelectionDescription Delete true]
    [];
  (** facades/manifest.cpp:1010. *)
  fn eg_selection_description_get_object_id
    [Ptr c_eg_selection_description_t; Ptr (Ptr (Const c_char))]
    [arg SelectionDescription SelectionDescription Use false]
    [Fresh Text Text];
  (** facades/manifest.cpp:1024. *)
  fn eg_selection_description_get_candidate_id
    [Ptr c_eg_selection_description_t; Ptr (Ptr (Const c_char))]
    [arg SelectionDescription SelectionDescription Use false]
    [Fresh Text Text];
  (** facades/manifest.cpp:1039. *)
  fn eg_selection_description_get_sequence_order
    [Ptr c_eg_selection_description_t]
    [arg SelectionDescription SelectionDescription Use false]
    [];
  (** facades/manifest.cpp:1049. *)
  fn eg_selection_description_crypto_hash
    [Ptr c_eg_selection_description_t; Ptr (Ptr c_eg_element_mod_q_t)]
    [arg SelectionDescription SelectionDescription Use false]
    [Fresh ElementModQ ElementModQ];
  (** facades/manifest.cpp:1066. *)
  fn eg_contest_description_new
    [Ptr (Const c_char); Ptr c_char; c_uint64_t; c_eg_vote_variation_type_t; c_uint64_t; Ptr c_char; Ptr (Ptr c_eg_selection_description_t); c_uint64_t; Ptr (Ptr c_eg_contest_description_t)]
    [arr SelectionDescription SelectionDescription Move false]
    [Fresh ContestDescription ContestDescription];
  (** facades/manifest.cpp:1099. *)
  fn eg_contest_description_new_with_title
    [Ptr (Const c_char); Ptr c_char; c_uint64_t; c_eg_vote_variation_type_t; c_uint64_t; c_uint64_t; Ptr c_char; Ptr c_eg_internationalized_text_t; Ptr c_eg_internationalized_text_t; Ptr (Ptr c_eg_selection_description_t); c_uint64_t; Ptr (Ptr c_eg_contest_description_t)]
    [arg InternationalizedText InternationalizedText Move false; arg InternationalizedText InternationalizedText Move false; arr SelectionDescription SelectionDescription Move false]
    [Fresh ContestDescription ContestDescription];
  (** facades/manifest.cpp:1137. *)
  fn eg_contest_description_new_with_parties
    [Ptr (Const c_char); Ptr c_char; c_uint64_t; c_eg_vote_variation_type_t; c_uint64_t; Ptr c_char; Ptr (Ptr c_eg_selection_description_t); c_uint64_t; Ptr (Ptr c_char); c_uint64_t; Ptr (Ptr c_eg_contest_description_t)]
    [arr SelectionDescription SelectionDescription Move false]
    [Fresh ContestDescription ContestDescription];
  (** facades/manifest.cpp:1176. *)
  fn eg_contest_description_new_with_title_and_parties
    [Ptr (Const c_char); Ptr c_char; c_uint64_t; c_eg_vote_variation_type_t; c_uint64_t; c_uint64_t; Ptr c_char; Ptr c_eg_internationalized_text_t; Ptr c_eg_internationalized_text_t; Ptr (Ptr c_eg_selection_description_t); c_uint64_t; Ptr (Ptr c_char); c_uint64_t; Ptr (Ptr c_eg_contest_description_t)]
    [arg InternationalizedText InternationalizedText Move false; arg InternationalizedText InternationalizedText Move false; arr SelectionDescription SelectionDescription Move false]
    [Fresh ContestDescription ContestDescription];
  (** facades/manifest.cpp:1222. *)
  fn eg_contest_description_free
    [Ptr c_eg_contest_description_t]
    [arg ContestDescription ContestDescription Delete true]
    [];
  (** facades/manifest.cpp:1234. *)
  fn eg_contest_description_get_object_id
    [Ptr c_eg_contest_description_t; Ptr (Ptr (Const c_char))]
    [arg ContestDescription ContestDescription Use false]
    [Fresh Text Text];
  (** facades/manifest.cpp:1248. *)
  fn eg_contest_description_get_electoral_district_id
    [Ptr c_eg_contest_description_t; Ptr (Ptr (Const c_char))]
    [arg ContestDescription ContestDescription Use false]
    [Fresh Text Text];
  (** facades/manifest.cpp:1263. *)
  fn eg_contest_description_get_sequence_order
    [Ptr c_eg_contest_description_t]
    [arg ContestDescription ContestDescription Use false]
    [];
  (** facades/manifest.cpp:1268. *)
  fn eg_contest_description_get_vote_variation
    [Ptr c_eg_contest_description_t]
    [arg ContestDescription ContestDescription Use false]
    [];
  (** facades/manifest.cpp:1273. *)
  fn eg_contest_description_get_number_elected
    [Ptr c_eg_contest_description_t]
    [arg ContestDescription ContestDescription Use false]
    [];
  (** facades/manifest.cpp:1278. *)
  fn eg_contest_description_get_votes_allowed
    [Ptr c_eg_contest_description_t]
    [arg ContestDescription ContestDescription Use false]
    [];
  (** facades/manifest.cpp:1283. *)
  fn eg_contest_description_get_name
    [Ptr c_eg_contest_description_t; Ptr (Ptr (Const c_char))]
    [arg ContestDescription ContestDescription Use false]
    [Fresh Text Text];
  (** facades/manifest.cpp:1297. *)
  fn eg_contest_description_get_ballot_title
    [Ptr c_eg_contest_description_t; Ptr (Ptr c_eg_internationalized_text_t)]
    [arg ContestDescription ContestDescription Use false]
    [Inner InternationalizedText InternationalizedText];
  (** facades/manifest.cpp:1311. *)
  fn eg_contest_description_get_ballot_subtitle
    [Ptr c_eg_contest_description_t; Ptr (Ptr c_eg_internationalized_text_t)]
    [arg ContestDescription ContestDescription Use false]
    [Inner InternationalizedText InternationalizedText];
  (** facades/manifest.cpp:1325. *)
  fn eg_contest_description_get_selections_size
    [Ptr c_eg_contest_description_t]
    [arg ContestDescription ContestDescription Use false]
    [];
  (** facades/manifest.cpp:1330. *)
  fn eg_contest_description_get_selection_at_index
    [Ptr c_eg_contest_description_t; c_uint64_t; Ptr (Ptr c_eg_selection_description_t)]
    [arg ContestDescription ContestDescription Use false]
    [Inner SelectionDescription SelectionDescription];
  (** facades/manifest.cpp:1347. *)
  fn eg_contest_description_crypto_hash
    [Ptr c_eg_contest_description_t; Ptr (Ptr c_eg_element_mod_q_t)]
    [arg ContestDescription ContestDescription Use false]
    [Fresh ElementModQ ElementModQ];
  (** facades/manifest.cpp:1364. *)
  fn eg_contest_description_with_placeholders_new
    [Ptr (Const c_char); Ptr c_char; c_uint64_t; c_eg_vote_variation_type_t; c_uint64_t; Ptr c_char; Ptr (Ptr c_eg_selection_description_t); c_uint64_t; Ptr (Ptr c_eg_selection_description_t); c_uint64_t; Ptr (Ptr c_eg_contest_description_with_placeholders_t)]
    [arr SelectionDescription SelectionDescription Move false; arr SelectionDescription SelectionDescription Move false]
    [Fresh ContestDescriptionWithPlaceholders ContestDescriptionWithPlaceholders];
  (** facades/manifest.cpp:1406. *)
  fn eg_contest_description_with_placeholders_new_with_title
    [Ptr (Const c_char); Ptr c_char; c_uint64_t; c_eg_vote_variation_type_t; c_uint64_t; c_uint64_t; Ptr c_char; Ptr c_eg_internationalized_text_t; Ptr c_eg_internationalized_text_t; Ptr (Ptr c_eg_selection_description_t); c_uint64_t; Ptr (Ptr c_eg_selection_description_t); c_uint64_t; Ptr (Ptr c_eg_contest_description_with_placeholders_t)]
    [arg InternationalizedText InternationalizedText Move false; arg InternationalizedText InternationalizedText Move false; arr SelectionDescription SelectionDescription Move false; arr SelectionDescription SelectionDescription Move false]
    [Fresh ContestDescriptionWithPlaceholders ContestDescriptionWithPlaceholders];
  (** facades/manifest.cpp:1455. *)
  fn eg_contest_description_with_placeholders_new_with_parties
    [Ptr (Const c_char); Ptr c_char; c_uint64_t; c_eg_vote_variation_type_t; c_uint64_t; Ptr c_char; Ptr (Ptr c_eg_selection_description_t); c_uint64_t; Ptr (Ptr c_char); c_uint64_t; Ptr (Ptr c_eg_selection_description_t); c_uint64_t; Ptr (Ptr c_eg_contest_description_with_placeholders_t)]
    [arr SelectionDescription SelectionDescription Move false; arr SelectionDescription SelectionDescription Move false]
    [Fresh ContestDescriptionWithPlaceholders ContestDescriptionWithPlaceholders];
  (** facades/manifest.cpp:1504. *)
  fn eg_contest_description_with_placeholders_new_with_title_and_parties
    [Ptr (Const c_char); Ptr c_char; c_uint64_t; c_eg_vote_variation_type_t; c_uint64_t; c_uint64_t; Ptr c_char; Ptr c_eg_internationalized_text_t; Ptr c_eg_internationalized_text_t; Ptr (Ptr c_eg_selection_description_t); c_uint64_t; Ptr (Ptr c_char); c_uint64_t; Ptr (Ptr c_eg_selection_description_t); c_uint64_t; Ptr (Ptr c_eg_contest_description_with_placeholders_t)]
    [arg InternationalizedText InternationalizedText Move false; arg InternationalizedText InternationalizedText Move false; arr SelectionDescription SelectionDescription Move false; arr SelectionDescription SelectionDescription Move false]
    [Fresh ContestDescriptionWithPlaceholders ContestDescriptionWithPlaceholders];
  (** facades/manifest.cpp:1560. *)
  fn eg_contest_description_with_placeholders_free
    [Ptr c_eg_contest_description_with_placeholders_t]
    [arg ContestDescriptionWithPlaceholders ContestDescriptionWithPlaceholders Delete true]
    [];
  (** facades/manifest.cpp:1573. *)
  fn eg_contest_description_with_placeholders_get_placeholders_size
    [Ptr c_eg_contest_description_with_placeholders_t]
    [arg ContestDescriptionWithPlaceholders ContestDescriptionWithPlaceholders Use false]
    [];
  (** facades/manifest.cpp:1579. *)
  fn eg_contest_description_with_placeholders_get_placeholder_at_index
    [Ptr c_eg_contest_description_with_placeholders_t; c_uint64_t; Ptr (Ptr c_eg_contest_description_with_placeholders_t)]
    [arg ContestDescriptionWithPlaceholders ContestDescriptionWithPlaceholders Use false]
    [Inner ContestDescriptionWithPlaceholders SelectionDescription];
  (** facades/manifest.cpp:1596. *)
  fn eg_contest_description_with_placeholders_is_placeholder
    [Ptr c_eg_contest_description_with_placeholders_t; Ptr c_eg_selection_description_t]
    [arg ContestDescriptionWithPlaceholders ContestDescriptionWithPlaceholders Use false; arg SelectionDescription SelectionDescription Use false]
    [];
  (** facades/manifest.cpp:1603. *)
  fn eg_contest_description_with_placeholders_selection_for_id
    [Ptr c_eg_contest_description_with_placeholders_t; Ptr c_char; Ptr (Ptr c_eg_selection_description_t)]
    [arg ContestDescriptionWithPlaceholders ContestDescriptionWithPlaceholders Use false]
    [Inner SelectionDescription SelectionDescription];
  (** facades/manifest.cpp:1625. *)
  fn eg_election_manifest_new
    [Ptr c_char; c_eg_election_type_t; c_uint64_t; c_uint64_t; Ptr (Ptr c_eg_geopolitical_unit_t); c_uint64_t; Ptr (Ptr c_eg_party_t); c_uint64_t; Ptr (Ptr c_eg_candidate_t); c_uint64_t; Ptr (Ptr c_eg_contest_description_t); c_uint64_t; Ptr (Ptr c_eg_ballot_style_t); c_uint64_t; Ptr (Ptr c_eg_election_manifest_t)]
    [arr GeopoliticalUnit GeopoliticalUnit Move false; arr Party Party Move false; arr Candidate Candidate Move false; arr ContestDescription ContestDescription Move false; arr BallotStyle BallotStyle Move false]
    [Fresh Manifest Manifest];
  (** facades/manifest.cpp:1693. *)
  fn eg_election_manifest_new_with_contact
    [Ptr c_char; c_eg_election_type_t; c_uint64_t; c_uint64_t; Ptr (Ptr c_eg_geopolitical_unit_t); c_uint64_t; Ptr (Ptr c_eg_party_t); c_uint64_t; Ptr (Ptr c_eg_candidate_t); c_uint64_t; Ptr (Ptr c_eg_contest_description_t); c_uint64_t; Ptr (Ptr c_eg_ballot_style_t); c_uint64_t; Ptr c_eg_internationalized_text_t; Ptr c_eg_contact_information_t; Ptr (Ptr c_eg_election_manifest_t)]
    [arr GeopoliticalUnit GeopoliticalUnit Move false; arr Party Party Move false; arr Candidate Candidate Move false; arr ContestDescription ContestDescription Move false; arr BallotStyle BallotStyle Move false; arg InternationalizedText InternationalizedText Move false; arg ContactInformation ContactInformation Move false]
    [Fresh Manifest Manifest];
  (** facades/manifest.cpp:1765. *)
  fn eg_election_manifest_free
    [Ptr c_eg_election_manifest_t]
    [arg Manifest Manifest Delete true]
    [];
  (** facades/manifest.cpp:1776. *)
  fn eg_election_manifest_get_election_scope_id
    [Ptr c_eg_election_manifest_t; Ptr (Ptr c_char)]
    [arg Manifest Manifest Use false]
    [Fresh Text Text];
  (** facades/manifest.cpp:1790. *)
  fn eg_election_manifest_get_type
    [Ptr c_eg_election_manifest_t]
    [arg Manifest Manifest Use false]
    [];
  (** facades/manifest.cpp:1795. *)
  fn eg_election_manifest_get_start_date
    [Ptr c_eg_election_manifest_t]
    [arg Manifest Manifest Use false]
    [];
  (** facades/manifest.cpp:1807. *)
  fn eg_election_manifest_get_end_date
    [Ptr c_eg_election_manifest_t]
    [arg Manifest Manifest Use false]
    [];
  (** facades/manifest.cpp:1819. *)
  fn eg_election_manifest_get_geopolitical_units_size
    [Ptr c_eg_election_manifest_t]
    [arg Manifest Manifest Use false]
    [];
  (** facades/manifest.cpp:1824. *)
  fn eg_election_manifest_get_geopolitical_unit_at_index
    [Ptr c_eg_election_manifest_t; c_uint64_t; Ptr (Ptr c_eg_geopolitical_unit_t)]
    [arg Manifest Manifest Use false]
    [Inner GeopoliticalUnit GeopoliticalUnit];
  (** facades/manifest.cpp:1840. *)
  fn eg_election_manifest_get_parties_size
    [Ptr c_eg_election_manifest_t]
    [arg Manifest Manifest Use false]
    [];
  (** facades/manifest.cpp:1845. *)
  fn eg_election_manifest_get_party_at_index
    [Ptr c_eg_election_manifest_t; c_uint64_t; Ptr (Ptr c_eg_party_t)]
    [arg Manifest Manifest Use false]
    [Inner Party Party];
  (** facades/manifest.cpp:1862. *)
  fn eg_election_manifest_get_candidates_size
    [Ptr c_eg_election_manifest_t]
    [arg Manifest Manifest Use false]
    [];
  (** facades/manifest.cpp:1867. *)
  fn eg_election_manifest_get_candidate_at_index
    [Ptr c_eg_election_manifest_t; c_uint64_t; Ptr (Ptr c_eg_candidate_t)]
    [arg Manifest Manifest Use false]
    [Inner Candidate Candidate];
  (** facades/manifest.cpp:1884. *)
  fn eg_election_manifest_get_contests_size
    [Ptr c_eg_election_manifest_t]
    [arg Manifest Manifest Use false]
    [];
  (** facades/manifest.cpp:1889. *)
  fn eg_election_manifest_get_contest_at_index
    [Ptr c_eg_election_manifest_t; c_uint64_t; Ptr (Ptr c_eg_contest_description_t)]
    [arg Manifest Manifest Use false]
    [Inner ContestDescription ContestDescription];
  (** facades/manifest.cpp:1906. *)
  fn eg_election_manifest_get_ballot_styles_size
    [Ptr c_eg_election_manifest_t]
    [arg Manifest Manifest Use false]
    [];
  (** facades/manifest.cpp:1911. *)
  fn eg_election_manifest_get_ballot_style_at_index
    [Ptr c_eg_election_manifest_t; c_uint64_t; Ptr (Ptr c_eg_ballot_style_t)]
    [arg Manifest Manifest Use false]
    [Inner BallotStyle BallotStyle];
  (** facades/manifest.cpp:1928. *)
  fn eg_election_manifest_get_name
    [Ptr c_eg_election_manifest_t; Ptr (Ptr c_eg_internationalized_text_t)]
    [arg Manifest Manifest Use false]
    [Inner InternationalizedText InternationalizedText];
  (** facades/manifest.cpp:1943. *)
  fn eg_election_manifest_get_contact_info
    [Ptr c_eg_election_manifest_t; Ptr (Ptr c_eg_contact_information_t)]
    [arg Manifest Manifest Use false]
    [Inner ContactInformation ContactInformation];
  (** facades/manifest.cpp:1959. *)
  fn eg_election_manifest_crypto_hash
    [Ptr c_eg_election_manifest_t; Ptr (Ptr c_eg_element_mod_q_t)]
    [arg Manifest Manifest Use false]
    [Fresh ElementModQ ElementModQ];
  (** facades/manifest.cpp:1972. *)
  fn eg_election_manifest_is_valid
    [Ptr c_eg_election_manifest_t]
    [arg Manifest Manifest Use false]
    [];
  (** facades/manifest.cpp:1983. *)
  fn eg_election_manifest_from_json
    [Ptr c_char; Ptr (Ptr c_eg_election_manifest_t)]
    []
    [Fresh Manifest Manifest];
  (** facades/manifest.cpp:1998. *)
  fn eg_election_manifest_from_bson
    [Ptr c_uint8_t; c_uint64_t; Ptr (Ptr c_eg_election_manifest_t)]
    []
    [Fresh Manifest Manifest];
  (** facades/manifest.cpp:2013. *)
  fn eg_election_manifest_from_msgpack
    [Ptr c_uint8_t; c_uint64_t; Ptr (Ptr c_eg_election_manifest_t)]
    []
    [Fresh Manifest Manifest];
  (** facades/manifest.cpp:2028. *)
  fn eg_election_manifest_to_json
    [Ptr c_eg_election_manifest_t; Ptr (Ptr c_char); Ptr c_uint64_t]
    [arg Manifest Manifest Use false]
    [Fresh Text Text];
  (** facades/manifest.cpp:2046. *)
  fn eg_election_manifest_to_bson
    [Ptr c_eg_election_manifest_t; Ptr (Ptr c_uint8_t); Ptr c_uint64_t]
    [arg Manifest Manifest Use false]
    [Fresh ByteBuffer ByteBuffer];
  (** facades/manifest.cpp:2064. *)
  fn eg_election_manifest_to_msgpack
    [Ptr c_eg_election_manifest_t; Ptr (Ptr c_uint8_t); Ptr c_uint64_t]
    [arg Manifest Manifest Use false]
    [Fresh ByteBuffer ByteBuffer];
  (** facades/manifest.cpp:2086. *)
  fn eg_internal_manifest_new
    [Ptr c_eg_election_manifest_t; Ptr (Ptr c_eg_internal_manifest_t)]
    [arg Manifest Manifest Use false]
    [Fresh InternalManifest InternalManifest];
  (** facades/manifest.cpp:2101. *)
  fn eg_internal_manifest_free
    [Ptr c_eg_internal_manifest_t]
    [arg InternalManifest InternalManifest Delete true]
    [];
  (** facades/manifest.cpp:2112. *)
  fn eg_internal_manifest_get_manifest_hash
    [Ptr c_eg_internal_manifest_t; Ptr (Ptr c_eg_element_mod_q_t)]
    [arg InternalManifest InternalManifest Use false]
    [Inner ElementModQ ElementModQ];
  (** facades/manifest.cpp:2121. *)
  fn eg_internal_manifest_get_geopolitical_units_size
    [Ptr c_eg_internal_manifest_t]
    [arg InternalManifest InternalManifest Use false]
    [];
  (** facades/manifest.cpp:2126. *)
  fn eg_internal_manifest_get_geopolitical_unit_at_index
    [Ptr c_eg_internal_manifest_t; c_uint64_t; Ptr (Ptr c_eg_geopolitical_unit_t)]
    [arg InternalManifest InternalManifest Use false]
    [Inner GeopoliticalUnit GeopoliticalUnit];
  (** facades/manifest.cpp:2142. *)
  fn eg_internal_manifest_get_contests_size
    [Ptr c_eg_internal_manifest_t]
    [arg InternalManifest InternalManifest Use false]
    [];
  (** facades/manifest.cpp:2147. *)
  fn eg_internal_manifest_get_contest_at_index
    [Ptr c_eg_internal_manifest_t; c_uint64_t; Ptr (Ptr c_eg_contest_description_with_placeholders_t)]
    [arg InternalManifest InternalManifest Use false]
    [Inner ContestDescriptionWithPlaceholders ContestDescriptionWithPlaceholders];
  (** facades/manifest.cpp:2164. *)
  fn eg_internal_manifest_get_ballot_styles_size
    [Ptr c_eg_internal_manifest_t]
    [arg InternalManifest InternalManifest Use false]
    [];
  (** facades/manifest.cpp:2169. *)
  fn eg_internal_manifest_get_ballot_style_at_index
    [Ptr c_eg_internal_manifest_t; c_uint64_t; Ptr (Ptr c_eg_ballot_style_t)]
    [arg InternalManifest InternalManifest Use false]
    [Inner BallotStyle BallotStyle];
  (** facades/manifest.cpp:2186. *)
  fn eg_internal_manifest_get_ballot_style
    [Ptr c_eg_internal_manifest_t; Ptr c_char; Ptr (Ptr c_eg_ballot_style_t)]
    [arg InternalManifest InternalManifest Use false]
    [Inner BallotStyle BallotStyle];
  (** facades/manifest.cpp:2203. *)
  fn eg_internal_manifest_from_json
    [Ptr c_char; Ptr (Ptr c_eg_internal_manifest_t)]
    []
    [Fresh InternalManifest InternalManifest];
  (** facades/manifest.cpp:2218. *)
  fn eg_internal_manifest_from_bson
    [Ptr c_uint8_t; c_uint64_t; Ptr (Ptr c_eg_internal_manifest_t)]
    []
    [Fresh InternalManifest InternalManifest];
  (** facades/manifest.cpp:2233. *)
  fn eg_internal_manifest_from_msgpack
    [Ptr c_uint8_t; c_uint64_t; Ptr (Ptr c_eg_internal_manifest_t)]
    []
    [Fresh InternalManifest InternalManifest];
  (** facades/manifest.cpp:2248. *)
  fn eg_internal_manifest_to_json
    [Ptr c_eg_internal_manifest_t; Ptr (Ptr c_char); Ptr c_uint64_t]
    [arg InternalManifest InternalManifest Use false]
    [Fresh Text Text];
  (** facades/manifest.cpp:2266. *)
  fn eg_internal_manifest_to_bson
    [Ptr c_eg_internal_manifest_t; Ptr (Ptr c_uint8_t); Ptr c_uint64_t]
    [arg InternalManifest InternalManifest Use false]
    [Fresh ByteBuffer ByteBuffer];
  (** facades/manifest.cpp:2284. *)
  fn eg_internal_manifest_to_msgpack
    [Ptr c_eg_internal_manifest_t; Ptr (Ptr c_uint8_t); Ptr c_uint64_t]
    [arg InternalManifest InternalManifest Use false]
    [Fresh ByteBuffer ByteBuffer];
  (** facades/collections.c:16. *)
  fn eg_linked_list_new
    [Ptr (Ptr c_eg_linked_list_t)]
    []
    [Fresh LinkedList LinkedList];
  (** facades/collections.c:30. *)
  fn eg_linked_list_free
    [Ptr c_eg_linked_list_t]
    [arg LinkedList LinkedList Delete true]
    [];
  (** facades/collections.c:44. *)
  fn eg_linked_list_append
    [Ptr c_eg_linked_list_t; Ptr c_char; Ptr c_char]
    [arg LinkedList LinkedList Use false]
    [];
  (** facades/collections.c:75. *)
  fn eg_linked_list_delete_last
    [Ptr c_eg_linked_list_t]
    [arg LinkedList LinkedList Trim false]
    [];
  (** facades/collections.c:102. *)
  fn eg_linked_list_get_count
    [Ptr c_eg_linked_list_t]
    [arg LinkedList LinkedList Use false]
    [];
  (** facades/collections.c:104. *)
  fn eg_linked_list_get_element_at
    [Ptr c_eg_linked_list_t; c_uint64_t; Ptr (Ptr c_char); Ptr (Ptr c_char)]
    [arg LinkedList LinkedList Use false]
    [Inner Text Text; Inner Text Text];
  (** facades/collections.c:127. *)
  fn eg_linked_list_get_value_at
    [Ptr c_eg_linked_list_t; c_uint64_t; Ptr (Ptr c_char)]
    [arg LinkedList LinkedList Use false]
    [Inner Text Text]
].
