(** What include/electionguard/*.h says about each function: one row per declaration.
    Written by tools/capi.py from the text of the headers.  A handle parameter is
    lent to the function unless the function is named [*_free] (or is one of the
    two [*_int_ptr] functions).  A result is a reference when its comment says it
    is "not owned by the caller" or it is named [*_ref] and no comment makes the
    caller responsible; otherwise it is the caller's. *)
From Coq Require Import List.
From Verif Require Import CApiClass CApiNames CApiSpec.
Import ListNotations.

Definition headers : list contract := [
  (** ballot.h:49. *)
  decl eg_extended_data_new
    [Ptr c_char; c_uint64_t; Ptr (Ptr c_eg_extended_data_t)]
    []
    [(ExtendedData, Owned)];
  (** ballot.h:52. *)
  decl eg_extended_data_free
    [Ptr c_eg_extended_data_t]
    [given ExtendedData Free]
    [];
  (** ballot.h:54. *)
  decl eg_extended_data_get_value
    [Ptr c_eg_extended_data_t; Ptr (Ptr c_char)]
    [given ExtendedData Borrow]
    [(Text, Owned)];
  (** ballot.h:57. *)
  decl eg_extended_data_get_length
    [Ptr c_eg_extended_data_t]
    [given ExtendedData Borrow]
    [];
  (** ballot.h:84. *)
  decl eg_plaintext_ballot_selection_new
    [Ptr (Const c_char); c_uint64_t; c_bool; Ptr (Ptr c_eg_plaintext_ballot_selection_t)]
    []
    [(PlaintextBallotSelection, Owned)];
  (** ballot.h:88. *)
  decl eg_plaintext_ballot_selection_new_with_extended_data
    [Ptr (Const c_char); c_uint64_t; c_bool; Ptr (Const c_char); c_uint64_t; Ptr (Ptr c_eg_plaintext_ballot_selection_t)]
    []
    [(PlaintextBallotSelection, Owned)];
  (** ballot.h:93. *)
  decl eg_plaintext_ballot_selection_free
    [Ptr c_eg_plaintext_ballot_selection_t]
    [given PlaintextBallotSelection Free]
    [];
  (** ballot.h:105. *)
  decl eg_plaintext_ballot_selection_get_object_id
    [Ptr c_eg_plaintext_ballot_selection_t; Ptr (Ptr c_char)]
    [given PlaintextBallotSelection Borrow]
    [(Text, Owned)];
  (** ballot.h:111. *)
  decl eg_plaintext_ballot_selection_get_vote
    [Ptr c_eg_plaintext_ballot_selection_t]
    [given PlaintextBallotSelection Borrow]
    [];
  (** ballot.h:116. *)
  decl eg_plaintext_ballot_selection_get_is_placeholder
    [Ptr c_eg_plaintext_ballot_selection_t]
    [given PlaintextBallotSelection Borrow]
    [];
  (** ballot.h:126. *)
  decl eg_plaintext_ballot_selection_get_extended_data
    [Ptr c_eg_plaintext_ballot_selection_t; Ptr (Ptr c_eg_extended_data_t)]
    [given PlaintextBallotSelection Borrow]
    [(ExtendedData, Reference)];
  (** ballot.h:133. *)
  decl eg_plaintext_ballot_selection_is_valid
    [Ptr c_eg_plaintext_ballot_selection_t; Ptr c_char]
    [given PlaintextBallotSelection Borrow]
    [];
  (** ballot.h:169. *)
  decl eg_ciphertext_ballot_selection_free
    [Ptr c_eg_ciphertext_ballot_selection_t]
    [given CiphertextBallotSelection Free]
    [];
  (** ballot.h:172. *)
  decl eg_ciphertext_ballot_selection_get_object_id
    [Ptr c_eg_ciphertext_ballot_selection_t; Ptr (Ptr c_char)]
    [given CiphertextBallotSelection Borrow]
    [(Text, Owned)];
  (** ballot.h:178. *)
  decl eg_ciphertext_ballot_selection_get_sequence_order
    [Ptr c_eg_ciphertext_ballot_selection_t]
    [given CiphertextBallotSelection Borrow]
    [];
  (** ballot.h:187. *)
  decl eg_ciphertext_ballot_selection_get_description_hash
    [Ptr c_eg_ciphertext_ballot_selection_t; Ptr (Ptr c_eg_element_mod_q_t)]
    [given CiphertextBallotSelection Borrow]
    [(ElementModQ, Reference)];
  (** ballot.h:193. *)
  decl eg_ciphertext_ballot_selection_get_is_placeholder
    [Ptr c_eg_ciphertext_ballot_selection_t]
    [given CiphertextBallotSelection Borrow]
    [];
  (** ballot.h:202. *)
  decl eg_ciphertext_ballot_selection_get_ciphertext
    [Ptr c_eg_ciphertext_ballot_selection_t; Ptr (Ptr c_eg_elgamal_ciphertext_t)]
    [given CiphertextBallotSelection Borrow]
    [(ElGamalCiphertext, Reference)];
  (** ballot.h:211. *)
  decl eg_ciphertext_ballot_selection_get_crypto_hash
    [Ptr c_eg_ciphertext_ballot_selection_t; Ptr (Ptr c_eg_element_mod_q_t)]
    [given CiphertextBallotSelection Borrow]
    [(ElementModQ, Reference)];
  (** ballot.h:220. *)
  decl eg_ciphertext_ballot_selection_get_nonce
    [Ptr c_eg_ciphertext_ballot_selection_t; Ptr (Ptr c_eg_element_mod_q_t)]
    [given CiphertextBallotSelection Borrow]
    [(ElementModQ, Reference)];
  (** ballot.h:230. *)
  decl eg_ciphertext_ballot_selection_get_proof
    [Ptr c_eg_ciphertext_ballot_selection_t; Ptr (Ptr c_eg_disjunctive_chaum_pedersen_proof_t)]
    [given CiphertextBallotSelection Borrow]
    [(DisjunctiveChaumPedersenProof, Reference)];
  (** ballot.h:245. *)
  decl eg_ciphertext_ballot_selection_crypto_hash_with
    [Ptr c_eg_ciphertext_ballot_selection_t; Ptr c_eg_element_mod_q_t; Ptr (Ptr c_eg_element_mod_q_t)]
    [given CiphertextBallotSelection Borrow; given ElementModQ Borrow]
    [(ElementModQ, Owned)];
  (** ballot.h:263. *)
  decl eg_ciphertext_ballot_selection_is_valid_encryption
    [Ptr c_eg_ciphertext_ballot_selection_t; Ptr c_eg_element_mod_q_t; Ptr c_eg_element_mod_p_t; Ptr c_eg_element_mod_q_t]
    [given CiphertextBallotSelection Borrow; given ElementModQ Borrow; given ElementModP Borrow; given ElementModQ Borrow]
    [];
  (** ballot.h:290. *)
  decl eg_plaintext_ballot_contest_new
    [Ptr c_char; Ptr (Ptr c_eg_plaintext_ballot_selection_t); c_uint64_t; Ptr (Ptr c_eg_plaintext_ballot_contest_t)]
    [given_all PlaintextBallotSelection Borrow]
    [(PlaintextBallotContest, Owned)];
  (** ballot.h:294. *)
  decl eg_plaintext_ballot_contest_free
    [Ptr c_eg_plaintext_ballot_contest_t]
    [given PlaintextBallotContest Free]
    [];
  (** ballot.h:301. *)
  decl eg_plaintext_ballot_contest_get_object_id
    [Ptr c_eg_plaintext_ballot_contest_t; Ptr (Ptr c_char)]
    [given PlaintextBallotContest Borrow]
    [(Text, Owned)];
  (** ballot.h:307. *)
  decl eg_plaintext_ballot_contest_get_selections_size
    [Ptr c_eg_plaintext_ballot_contest_t]
    [given PlaintextBallotContest Borrow]
    [];
  (** ballot.h:317. *)
  decl eg_plaintext_ballot_contest_get_selection_at_index
    [Ptr c_eg_plaintext_ballot_contest_t; c_uint64_t; Ptr (Ptr c_eg_plaintext_ballot_selection_t)]
    [given PlaintextBallotContest Borrow]
    [(PlaintextBallotSelection, Reference)];
  (** ballot.h:326. *)
  decl eg_plaintext_ballot_contest_is_valid
    [Ptr c_eg_plaintext_ballot_contest_t; Ptr c_char; c_uint64_t; c_uint64_t; c_uint64_t]
    [given PlaintextBallotContest Borrow]
    [];
  (** ballot.h:356. *)
  decl eg_ciphertext_ballot_contest_free
    [Ptr c_eg_ciphertext_ballot_contest_t]
    [given CiphertextBallotContest Free]
    [];
  (** ballot.h:363. *)
  decl eg_ciphertext_ballot_contest_get_object_id
    [Ptr c_eg_ciphertext_ballot_contest_t; Ptr (Ptr c_char)]
    [given CiphertextBallotContest Borrow]
    [(Text, Owned)];
  (** ballot.h:369. *)
  decl eg_ciphertext_ballot_contest_get_sequence_order
    [Ptr c_eg_ciphertext_ballot_contest_t]
    [given CiphertextBallotContest Borrow]
    [];
  (** ballot.h:378. *)
  decl eg_ciphertext_ballot_contest_get_description_hash
    [Ptr c_eg_ciphertext_ballot_contest_t; Ptr (Ptr c_eg_element_mod_q_t)]
    [given CiphertextBallotContest Borrow]
    [(ElementModQ, Reference)];
  (** ballot.h:384. *)
  decl eg_ciphertext_ballot_contest_get_selections_size
    [Ptr c_eg_ciphertext_ballot_contest_t]
    [given CiphertextBallotContest Borrow]
    [];
  (** ballot.h:394. *)
  decl eg_ciphertext_ballot_contest_get_selection_at_index
    [Ptr c_eg_ciphertext_ballot_contest_t; c_uint64_t; Ptr (Ptr c_eg_ciphertext_ballot_selection_t)]
    [given CiphertextBallotContest Borrow]
    [(CiphertextBallotSelection, Reference)];
  (** ballot.h:404. *)
  decl eg_ciphertext_ballot_contest_get_nonce
    [Ptr c_eg_ciphertext_ballot_contest_t; Ptr (Ptr c_eg_element_mod_q_t)]
    [given CiphertextBallotContest Borrow]
    [(ElementModQ, Reference)];
  (** ballot.h:413. *)
  decl eg_ciphertext_ballot_contest_get_ciphertext_accumulation
    [Ptr c_eg_ciphertext_ballot_contest_t; Ptr (Ptr c_eg_elgamal_ciphertext_t)]
    [given CiphertextBallotContest Borrow]
    [(ElGamalCiphertext, Reference)];
  (** ballot.h:423. *)
  decl eg_ciphertext_ballot_contest_get_crypto_hash
    [Ptr c_eg_ciphertext_ballot_contest_t; Ptr (Ptr c_eg_element_mod_q_t)]
    [given CiphertextBallotContest Borrow]
    [(ElementModQ, Reference)];
  (** ballot.h:433. *)
  decl eg_ciphertext_ballot_contest_get_proof
    [Ptr c_eg_ciphertext_ballot_contest_t; Ptr (Ptr c_eg_disjunctive_chaum_pedersen_proof_t)]
    [given CiphertextBallotContest Borrow]
    [(DisjunctiveChaumPedersenProof, Reference)];
  (** ballot.h:448. *)
  decl eg_ciphertext_ballot_contest_crypto_hash_with
    [Ptr c_eg_ciphertext_ballot_selection_t; Ptr c_eg_element_mod_q_t; Ptr (Ptr c_eg_element_mod_q_t)]
    [given CiphertextBallotSelection Borrow; given ElementModQ Borrow]
    [(ElementModQ, Owned)];
  (** ballot.h:463. *)
  decl eg_ciphertext_ballot_contest_aggregate_nonce
    [Ptr c_eg_ciphertext_ballot_selection_t; Ptr (Ptr c_eg_element_mod_q_t)]
    [given CiphertextBallotSelection Borrow]
    [(ElementModQ, Owned)];
  (** ballot.h:473. *)
  decl eg_ciphertext_ballot_contest_elgamal_accumulate
    [Ptr c_eg_ciphertext_ballot_selection_t; Ptr (Ptr c_eg_elgamal_ciphertext_t)]
    [given CiphertextBallotSelection Borrow]
    [(ElGamalCiphertext, Owned)];
  (** ballot.h:486. *)
  decl eg_ciphertext_ballot_contest_is_valid_encryption
    [Ptr c_eg_ciphertext_ballot_contest_t; Ptr c_eg_element_mod_q_t; Ptr c_eg_element_mod_p_t; Ptr c_eg_element_mod_q_t]
    [given CiphertextBallotContest Borrow; given ElementModQ Borrow; given ElementModP Borrow; given ElementModQ Borrow]
    [];
  (** ballot.h:509. *)
  decl eg_plaintext_ballot_new
    [Ptr c_char; Ptr c_char; Ptr (Ptr c_eg_plaintext_ballot_contest_t); c_uint64_t; Ptr (Ptr c_eg_plaintext_ballot_t)]
    [given_all PlaintextBallotContest Borrow]
    [(PlaintextBallot, Owned)];
  (** ballot.h:513. *)
  decl eg_plaintext_ballot_free
    [Ptr c_eg_plaintext_ballot_t]
    [given PlaintextBallot Free]
    [];
  (** ballot.h:519. *)
  decl eg_plaintext_ballot_get_object_id
    [Ptr c_eg_plaintext_ballot_t; Ptr (Ptr c_char)]
    [given PlaintextBallot Borrow]
    [(Text, Owned)];
  (** ballot.h:527. *)
  decl eg_plaintext_ballot_get_style_id
    [Ptr c_eg_plaintext_ballot_t; Ptr (Ptr c_char)]
    [given PlaintextBallot Borrow]
    [(Text, Owned)];
  (** ballot.h:533. *)
  decl eg_plaintext_ballot_get_contests_size
    [Ptr c_eg_plaintext_ballot_t]
    [given PlaintextBallot Borrow]
    [];
  (** ballot.h:542. *)
  decl eg_plaintext_ballot_get_contest_at_index
    [Ptr c_eg_plaintext_ballot_t; c_uint64_t; Ptr (Ptr c_eg_plaintext_ballot_contest_t)]
    [given PlaintextBallot Borrow]
    [(PlaintextBallotContest, Reference)];
  (** ballot.h:549. *)
  decl eg_plaintext_ballot_from_json
    [Ptr c_char; Ptr (Ptr c_eg_plaintext_ballot_t)]
    []
    [(PlaintextBallot, Owned)];
  (** ballot.h:555. *)
  decl eg_plaintext_ballot_from_bson
    [Ptr c_uint8_t; c_uint64_t; Ptr (Ptr c_eg_plaintext_ballot_t)]
    []
    [(PlaintextBallot, Owned)];
  (** ballot.h:561. *)
  decl eg_plaintext_ballot_from_msgpack
    [Ptr c_uint8_t; c_uint64_t; Ptr (Ptr c_eg_plaintext_ballot_t)]
    []
    [(PlaintextBallot, Owned)];
  (** ballot.h:567. *)
  decl eg_plaintext_ballot_to_json
    [Ptr c_eg_plaintext_ballot_t; Ptr (Ptr c_char); Ptr c_uint64_t]
    [given PlaintextBallot Borrow]
    [(Text, Owned)];
  (** ballot.h:573. *)
  decl eg_plaintext_ballot_to_bson
    [Ptr c_eg_plaintext_ballot_t; Ptr (Ptr c_uint8_t); Ptr c_uint64_t]
    [given PlaintextBallot Borrow]
    [(ByteBuffer, Owned)];
  (** ballot.h:580. *)
  decl eg_plaintext_ballot_to_msgpack
    [Ptr c_eg_plaintext_ballot_t; Ptr (Ptr c_uint8_t); Ptr c_uint64_t]
    [given PlaintextBallot Borrow]
    [(ByteBuffer, Owned)];
  (** ballot.h:603. *)
  decl eg_ciphertext_ballot_free
    [Ptr c_eg_ciphertext_ballot_t]
    [given CiphertextBallot Free]
    [];
  (** ballot.h:608. *)
  decl eg_ciphertext_ballot_get_object_id
    [Ptr c_eg_ciphertext_ballot_t; Ptr (Ptr c_char)]
    [given CiphertextBallot Borrow]
    [(Text, Owned)];
  (** ballot.h:616. *)
  decl eg_ciphertext_ballot_get_style_id
    [Ptr c_eg_ciphertext_ballot_t; Ptr (Ptr c_char)]
    [given CiphertextBallot Borrow]
    [(Text, Owned)];
  (** ballot.h:625. *)
  decl eg_ciphertext_ballot_get_manifest_hash
    [Ptr c_eg_ciphertext_ballot_t; Ptr (Ptr c_eg_element_mod_q_t)]
    [given CiphertextBallot Borrow]
    [(ElementModQ, Reference)];
  (** ballot.h:636. *)
  decl eg_ciphertext_ballot_get_ballot_code_seed
    [Ptr c_eg_ciphertext_ballot_t; Ptr (Ptr c_eg_element_mod_q_t)]
    [given CiphertextBallot Borrow]
    [(ElementModQ, Reference)];
  (** ballot.h:642. *)
  decl eg_ciphertext_ballot_get_contests_size
    [Ptr c_eg_ciphertext_ballot_t]
    [given CiphertextBallot Borrow]
    [];
  (** ballot.h:651. *)
  decl eg_ciphertext_ballot_get_contest_at_index
    [Ptr c_eg_ciphertext_ballot_t; c_uint64_t; Ptr (Ptr c_eg_ciphertext_ballot_contest_t)]
    [given CiphertextBallot Borrow]
    [(CiphertextBallotContest, Reference)];
  (** ballot.h:661. *)
  decl eg_ciphertext_ballot_get_ballot_code
    [Ptr c_eg_ciphertext_ballot_t; Ptr (Ptr c_eg_element_mod_q_t)]
    [given CiphertextBallot Borrow]
    [(ElementModQ, Reference)];
  (** ballot.h:670. *)
  decl eg_ciphertext_ballot_get_timestamp
    [Ptr c_eg_ciphertext_ballot_t; Ptr c_uint64_t]
    [given CiphertextBallot Borrow]
    [];
  (** ballot.h:679. *)
  decl eg_ciphertext_ballot_get_nonce
    [Ptr c_eg_ciphertext_ballot_t; Ptr (Ptr c_eg_element_mod_q_t)]
    [given CiphertextBallot Borrow]
    [(ElementModQ, Reference)];
  (** ballot.h:688. *)
  decl eg_ciphertext_ballot_get_crypto_hash
    [Ptr c_eg_ciphertext_ballot_t; Ptr (Ptr c_eg_element_mod_q_t)]
    [given CiphertextBallot Borrow]
    [(ElementModQ, Reference)];
  (** ballot.h:703. *)
  decl eg_ciphertext_ballot_crypto_hash_with
    [Ptr c_eg_ciphertext_ballot_t; Ptr c_eg_element_mod_q_t; Ptr (Ptr c_eg_element_mod_q_t)]
    [given CiphertextBallot Borrow; given ElementModQ Borrow]
    [(ElementModQ, Owned)];
  (** ballot.h:709. *)
  decl eg_ciphertext_ballot_is_valid_encryption
    [Ptr c_eg_ciphertext_ballot_t; Ptr c_eg_element_mod_q_t; Ptr c_eg_element_mod_p_t; Ptr c_eg_element_mod_q_t]
    [given CiphertextBallot Borrow; given ElementModQ Borrow; given ElementModP Borrow; given ElementModQ Borrow]
    [];
  (** ballot.h:716. *)
  decl eg_ciphertext_ballot_from_json
    [Ptr c_char; Ptr (Ptr c_eg_ciphertext_ballot_t)]
    []
    [(CiphertextBallot, Owned)];
  (** ballot.h:722. *)
  decl eg_ciphertext_ballot_from_bson
    [Ptr c_uint8_t; c_uint64_t; Ptr (Ptr c_eg_ciphertext_ballot_t)]
    []
    [(CiphertextBallot, Owned)];
  (** ballot.h:728. *)
  decl eg_ciphertext_ballot_from_msgpack
    [Ptr c_uint8_t; c_uint64_t; Ptr (Ptr c_eg_ciphertext_ballot_t)]
    []
    [(CiphertextBallot, Owned)];
  (** ballot.h:734. *)
  decl eg_ciphertext_ballot_to_json
    [Ptr c_eg_ciphertext_ballot_t; Ptr (Ptr c_char); Ptr c_uint64_t]
    [given CiphertextBallot Borrow]
    [(Text, Owned)];
  (** ballot.h:740. *)
  decl eg_ciphertext_ballot_to_json_with_nonces
    [Ptr c_eg_ciphertext_ballot_t; Ptr (Ptr c_char); Ptr c_uint64_t]
    [given CiphertextBallot Borrow]
    [(Text, Owned)];
  (** ballot.h:746. *)
  decl eg_ciphertext_ballot_to_bson
    [Ptr c_eg_ciphertext_ballot_t; Ptr (Ptr c_uint8_t); Ptr c_uint64_t]
    [given CiphertextBallot Borrow]
    [(ByteBuffer, Owned)];
  (** ballot.h:753. *)
  decl eg_ciphertext_ballot_to_bson_with_nonces
    [Ptr c_eg_ciphertext_ballot_t; Ptr (Ptr c_uint8_t); Ptr c_uint64_t]
    [given CiphertextBallot Borrow]
    [(ByteBuffer, Owned)];
  (** ballot.h:759. *)
  decl eg_ciphertext_ballot_to_msgpack
    [Ptr c_eg_ciphertext_ballot_t; Ptr (Ptr c_uint8_t); Ptr c_uint64_t]
    [given CiphertextBallot Borrow]
    [(ByteBuffer, Owned)];
  (** ballot.h:766. *)
  decl eg_ciphertext_ballot_to_msgpack_with_nonces
    [Ptr c_eg_ciphertext_ballot_t; Ptr (Ptr c_uint8_t); Ptr c_uint64_t]
    [given CiphertextBallot Borrow]
    [(ByteBuffer, Owned)];
  (** ballot.h:789. *)
  decl eg_submitted_ballot_free
    [Ptr c_eg_submitted_ballot_t]
    [given SubmittedBallot Free]
    [];
  (** ballot.h:794. *)
  decl eg_submitted_ballot_get_state
    [Ptr c_eg_submitted_ballot_t]
    [given SubmittedBallot Borrow]
    [];
  (** ballot.h:803. *)
  decl eg_submitted_ballot_from
    [Ptr c_eg_ciphertext_ballot_t; c_eg_ballot_box_state_t; Ptr (Ptr c_eg_submitted_ballot_t)]
    [given CiphertextBallot Borrow]
    [(SubmittedBallot, Owned)];
  (** ballot.h:810. *)
  decl eg_submitted_ballot_from_json
    [Ptr c_char; Ptr (Ptr c_eg_submitted_ballot_t)]
    []
    [(SubmittedBallot, Owned)];
  (** ballot.h:816. *)
  decl eg_submitted_ballot_from_bson
    [Ptr c_uint8_t; c_uint64_t; Ptr (Ptr c_eg_submitted_ballot_t)]
    []
    [(SubmittedBallot, Owned)];
  (** ballot.h:822. *)
  decl eg_submitted_ballot_from_msgpack
    [Ptr c_uint8_t; c_uint64_t; Ptr (Ptr c_eg_submitted_ballot_t)]
    []
    [(SubmittedBallot, Owned)];
  (** ballot.h:828. *)
  decl eg_submitted_ballot_to_json
    [Ptr c_eg_submitted_ballot_t; Ptr (Ptr c_char); Ptr c_uint64_t]
    [given SubmittedBallot Borrow]
    [(Text, Owned)];
  (** ballot.h:834. *)
  decl eg_submitted_ballot_to_bson
    [Ptr c_eg_submitted_ballot_t; Ptr (Ptr c_uint8_t); Ptr c_uint64_t]
    [given SubmittedBallot Borrow]
    [(ByteBuffer, Owned)];
  (** ballot.h:841. *)
  decl eg_submitted_ballot_to_msgpack
    [Ptr c_eg_submitted_ballot_t; Ptr (Ptr c_uint8_t); Ptr c_uint64_t]
    [given SubmittedBallot Borrow]
    [(ByteBuffer, Owned)];
  (** ballot_code.h:27. *)
  decl eg_ballot_code_get_hash_for_device
    [c_uint64_t; c_uint64_t; c_uint64_t; Ptr (Const c_char); Ptr (Ptr c_eg_element_mod_q_t)]
    []
    [(ElementModQ, Owned)];
  (** ballot_code.h:46. *)
  decl eg_ballot_code_get_ballot_code
    [Ptr c_eg_element_mod_q_t; c_uint64_t; Ptr c_eg_element_mod_q_t; Ptr (Ptr c_eg_element_mod_q_t)]
    [given ElementModQ Borrow; given ElementModQ Borrow]
    [(ElementModQ, Owned)];
  (** ballot_compact.h:37. *)
  decl eg_compact_plaintext_ballot_free
    [Ptr c_eg_compact_plaintext_ballot_t]
    [given CompactPlaintextBallot Free]
    [];
  (** ballot_compact.h:42. *)
  decl eg_compact_plaintext_ballot_from_msgpack
    [Ptr c_uint8_t; c_uint64_t; Ptr (Ptr c_eg_compact_plaintext_ballot_t)]
    []
    [(CompactPlaintextBallot, Owned)];
  (** ballot_compact.h:45. *)
  decl eg_compact_plaintext_ballot_to_msgpack
    [Ptr c_eg_compact_plaintext_ballot_t; Ptr (Ptr c_uint8_t); Ptr c_uint64_t]
    [given CompactPlaintextBallot Borrow]
    [(ByteBuffer, Owned)];
  (** ballot_compact.h:48. *)
  decl eg_compact_plaintext_ballot_msgpack_free
    [Ptr c_uint8_t]
    [given ByteBuffer Free]
    [];
  (** ballot_compact.h:69. *)
  decl eg_compact_ciphertext_ballot_free
    [Ptr c_eg_compact_ciphertext_ballot_t]
    [given CompactCiphertextBallot Free]
    [];
  (** ballot_compact.h:74. *)
  decl eg_compact_ciphertext_ballot_get_object_id
    [Ptr c_eg_compact_ciphertext_ballot_t; Ptr (Ptr c_char)]
    [given CompactCiphertextBallot Borrow]
    [(Text, Owned)];
  (** ballot_compact.h:77. *)
  decl eg_compact_ciphertext_ballot_from_msgpack
    [Ptr c_uint8_t; c_uint64_t; Ptr (Ptr c_eg_compact_ciphertext_ballot_t)]
    []
    [(CompactCiphertextBallot, Owned)];
  (** ballot_compact.h:80. *)
  decl eg_compact_ciphertext_ballot_to_msgpack
    [Ptr c_eg_compact_ciphertext_ballot_t; Ptr (Ptr c_uint8_t); Ptr c_uint64_t]
    [given CompactCiphertextBallot Borrow]
    [(ByteBuffer, Owned)];
  (** ballot_compact.h:83. *)
  decl eg_compact_ciphertext_ballot_msgpack_free
    [Ptr c_uint8_t]
    [given ByteBuffer Free]
    [];
  (** ballot_compact.h:89. *)
  decl eg_free_int_ptr
    [Ptr c_char]
    [given Text Free]
    [];
  (** ballot_compact.h:91. *)
  decl eg_delete_int_ptr
    [Ptr c_uint8_t]
    [given ByteBuffer Free]
    [];
  (** chaum_pedersen.h:31. *)
  decl eg_disjunctive_chaum_pedersen_proof_free
    [Ptr c_eg_disjunctive_chaum_pedersen_proof_t]
    [given DisjunctiveChaumPedersenProof Free]
    [];
  (** chaum_pedersen.h:40. *)
  decl eg_disjunctive_chaum_pedersen_proof_get_zero_pad
    [Ptr c_eg_disjunctive_chaum_pedersen_proof_t; Ptr (Ptr c_eg_element_mod_p_t)]
    [given DisjunctiveChaumPedersenProof Borrow]
    [(ElementModP, Reference)];
  (** chaum_pedersen.h:49. *)
  decl eg_disjunctive_chaum_pedersen_proof_get_zero_data
    [Ptr c_eg_disjunctive_chaum_pedersen_proof_t; Ptr (Ptr c_eg_element_mod_p_t)]
    [given DisjunctiveChaumPedersenProof Borrow]
    [(ElementModP, Reference)];
  (** chaum_pedersen.h:58. *)
  decl eg_disjunctive_chaum_pedersen_proof_get_one_pad
    [Ptr c_eg_disjunctive_chaum_pedersen_proof_t; Ptr (Ptr c_eg_element_mod_p_t)]
    [given DisjunctiveChaumPedersenProof Borrow]
    [(ElementModP, Reference)];
  (** chaum_pedersen.h:67. *)
  decl eg_disjunctive_chaum_pedersen_proof_get_one_data
    [Ptr c_eg_disjunctive_chaum_pedersen_proof_t; Ptr (Ptr c_eg_element_mod_p_t)]
    [given DisjunctiveChaumPedersenProof Borrow]
    [(ElementModP, Reference)];
  (** chaum_pedersen.h:76. *)
  decl eg_disjunctive_chaum_pedersen_proof_get_zero_challenge
    [Ptr c_eg_disjunctive_chaum_pedersen_proof_t; Ptr (Ptr c_eg_element_mod_q_t)]
    [given DisjunctiveChaumPedersenProof Borrow]
    [(ElementModQ, Reference)];
  (** chaum_pedersen.h:85. *)
  decl eg_disjunctive_chaum_pedersen_proof_get_one_challenge
    [Ptr c_eg_disjunctive_chaum_pedersen_proof_t; Ptr (Ptr c_eg_element_mod_q_t)]
    [given DisjunctiveChaumPedersenProof Borrow]
    [(ElementModQ, Reference)];
  (** chaum_pedersen.h:94. *)
  decl eg_disjunctive_chaum_pedersen_proof_get_challenge
    [Ptr c_eg_disjunctive_chaum_pedersen_proof_t; Ptr (Ptr c_eg_element_mod_q_t)]
    [given DisjunctiveChaumPedersenProof Borrow]
    [(ElementModQ, Reference)];
  (** chaum_pedersen.h:103. *)
  decl eg_disjunctive_chaum_pedersen_proof_get_zero_response
    [Ptr c_eg_disjunctive_chaum_pedersen_proof_t; Ptr (Ptr c_eg_element_mod_q_t)]
    [given DisjunctiveChaumPedersenProof Borrow]
    [(ElementModQ, Reference)];
  (** chaum_pedersen.h:112. *)
  decl eg_disjunctive_chaum_pedersen_proof_get_one_response
    [Ptr c_eg_disjunctive_chaum_pedersen_proof_t; Ptr (Ptr c_eg_element_mod_q_t)]
    [given DisjunctiveChaumPedersenProof Borrow]
    [(ElementModQ, Reference)];
  (** chaum_pedersen.h:129. *)
  decl eg_disjunctive_chaum_pedersen_proof_make
    [Ptr c_eg_elgamal_ciphertext_t; Ptr c_eg_element_mod_q_t; Ptr c_eg_element_mod_p_t; Ptr c_eg_element_mod_q_t; c_uint64_t; Ptr (Ptr c_eg_disjunctive_chaum_pedersen_proof_t)]
    [given ElGamalCiphertext Borrow; given ElementModQ Borrow; given ElementModP Borrow; given ElementModQ Borrow]
    [(DisjunctiveChaumPedersenProof, Owned)];
  (** chaum_pedersen.h:149. *)
  decl eg_disjunctive_chaum_pedersen_proof_make_deterministic
    [Ptr c_eg_elgamal_ciphertext_t; Ptr c_eg_element_mod_q_t; Ptr c_eg_element_mod_p_t; Ptr c_eg_element_mod_q_t; Ptr c_eg_element_mod_q_t; c_uint64_t; Ptr (Ptr c_eg_disjunctive_chaum_pedersen_proof_t)]
    [given ElGamalCiphertext Borrow; given ElementModQ Borrow; given ElementModP Borrow; given ElementModQ Borrow; given ElementModQ Borrow]
    [(DisjunctiveChaumPedersenProof, Owned)];
  (** chaum_pedersen.h:161. *)
  decl eg_disjunctive_chaum_pedersen_proof_is_valid
    [Ptr c_eg_disjunctive_chaum_pedersen_proof_t; Ptr c_eg_elgamal_ciphertext_t; Ptr c_eg_element_mod_p_t; Ptr c_eg_element_mod_q_t]
    [given DisjunctiveChaumPedersenProof Borrow; given ElGamalCiphertext Borrow; given ElementModP Borrow; given ElementModQ Borrow]
    [];
  (** chaum_pedersen.h:187. *)
  decl eg_constant_chaum_pedersen_proof_free
    [Ptr c_eg_constant_chaum_pedersen_proof_t]
    [given ConstantChaumPedersenProof Free]
    [];
  (** chaum_pedersen.h:196. *)
  decl eg_constant_chaum_pedersen_proof_get_pad
    [Ptr c_eg_constant_chaum_pedersen_proof_t; Ptr (Ptr c_eg_element_mod_p_t)]
    [given ConstantChaumPedersenProof Borrow]
    [(ElementModP, Reference)];
  (** chaum_pedersen.h:205. *)
  decl eg_constant_chaum_pedersen_proof_get_data
    [Ptr c_eg_constant_chaum_pedersen_proof_t; Ptr (Ptr c_eg_element_mod_p_t)]
    [given ConstantChaumPedersenProof Borrow]
    [(ElementModP, Reference)];
  (** chaum_pedersen.h:214. *)
  decl eg_constant_chaum_pedersen_proof_get_challenge
    [Ptr c_eg_constant_chaum_pedersen_proof_t; Ptr (Ptr c_eg_element_mod_q_t)]
    [given ConstantChaumPedersenProof Borrow]
    [(ElementModQ, Reference)];
  (** chaum_pedersen.h:223. *)
  decl eg_constant_chaum_pedersen_proof_get_response
    [Ptr c_eg_constant_chaum_pedersen_proof_t; Ptr (Ptr c_eg_element_mod_q_t)]
    [given ConstantChaumPedersenProof Borrow]
    [(ElementModQ, Reference)];
  (** chaum_pedersen.h:237. *)
  decl eg_constant_chaum_pedersen_proof_make
    [Ptr c_eg_elgamal_ciphertext_t; Ptr c_eg_element_mod_q_t; Ptr c_eg_element_mod_p_t; Ptr c_eg_element_mod_q_t; Ptr c_eg_element_mod_q_t; c_uint64_t; Ptr (Ptr c_eg_constant_chaum_pedersen_proof_t)]
    [given ElGamalCiphertext Borrow; given ElementModQ Borrow; given ElementModP Borrow; given ElementModQ Borrow; given ElementModQ Borrow]
    [(ConstantChaumPedersenProof, Owned)];
  (** chaum_pedersen.h:249. *)
  decl eg_constant_chaum_pedersen_proof_is_valid
    [Ptr c_eg_constant_chaum_pedersen_proof_t; Ptr c_eg_elgamal_ciphertext_t; Ptr c_eg_element_mod_p_t; Ptr c_eg_element_mod_q_t]
    [given ConstantChaumPedersenProof Borrow; given ElGamalCiphertext Borrow; given ElementModP Borrow; given ElementModQ Borrow]
    [];
  (** collections.h:31. *)
  decl eg_linked_list_new
    [Ptr (Ptr c_eg_linked_list_t)]
    []
    [(LinkedList, Owned)];
  (** collections.h:33. *)
  decl eg_linked_list_free
    [Ptr c_eg_linked_list_t]
    [given LinkedList Free]
    [];
  (** collections.h:44. *)
  decl eg_linked_list_append
    [Ptr c_eg_linked_list_t; Ptr c_char; Ptr c_char]
    [given LinkedList Borrow]
    [];
  (** collections.h:53. *)
  decl eg_linked_list_delete_last
    [Ptr c_eg_linked_list_t]
    [given LinkedList Borrow]
    [];
  (** collections.h:60. *)
  decl eg_linked_list_get_count
    [Ptr c_eg_linked_list_t]
    [given LinkedList Borrow]
    [];
  (** collections.h:73. *)
  decl eg_linked_list_get_element_at
    [Ptr c_eg_linked_list_t; c_uint64_t; Ptr (Ptr c_char); Ptr (Ptr c_char)]
    [given LinkedList Borrow]
    [(Text, Owned); (Text, Owned)];
  (** collections.h:87. *)
  decl eg_linked_list_get_value_at
    [Ptr c_eg_linked_list_t; c_uint64_t; Ptr (Ptr c_char)]
    [given LinkedList Borrow]
    [(Text, Owned)];
  (** election.h:21. *)
  decl eg_ciphertext_election_context_config_get_allowed_overvotes
    [Ptr c_eg_context_configuration_t; Ptr c_bool]
    [given ContextConfiguration Borrow]
    [];
  (** election.h:24. *)
  decl eg_ciphertext_election_context_config_get_max_ballots
    [Ptr c_eg_context_configuration_t; Ptr c_uint64_t]
    [given ContextConfiguration Borrow]
    [];
  (** election.h:27. *)
  decl eg_ciphertext_election_context_config_free
    [Ptr c_eg_context_configuration_t]
    [given ContextConfiguration Free]
    [];
  (** election.h:30. *)
  decl eg_ciphertext_election_context_config_make
    [c_bool; c_uint64_t; Ptr (Ptr c_eg_context_configuration_t)]
    []
    [(ContextConfiguration, Owned)];
  (** election.h:41. *)
  decl eg_ciphertext_election_context_free
    [Ptr c_eg_ciphertext_election_context_t]
    [given CiphertextElectionContext Free]
    [];
  (** election.h:50. *)
  decl eg_ciphertext_election_context_get_elgamal_public_key
    [Ptr c_eg_ciphertext_election_context_t; Ptr (Ptr c_eg_element_mod_p_t)]
    [given CiphertextElectionContext Borrow]
    [(ElementModP, Reference)];
  (** election.h:59. *)
  decl eg_ciphertext_election_context_get_configuration
    [Ptr c_eg_ciphertext_election_context_t; Ptr (Ptr c_eg_context_configuration_t)]
    [given CiphertextElectionContext Borrow]
    [(ContextConfiguration, Reference)];
  (** election.h:69. *)
  decl eg_ciphertext_election_context_get_commitment_hash
    [Ptr c_eg_ciphertext_election_context_t; Ptr (Ptr c_eg_element_mod_q_t)]
    [given CiphertextElectionContext Borrow]
    [(ElementModQ, Reference)];
  (** election.h:78. *)
  decl eg_ciphertext_election_context_get_manifest_hash
    [Ptr c_eg_ciphertext_election_context_t; Ptr (Ptr c_eg_element_mod_q_t)]
    [given CiphertextElectionContext Borrow]
    [(ElementModQ, Reference)];
  (** election.h:87. *)
  decl eg_ciphertext_election_context_get_crypto_base_hash
    [Ptr c_eg_ciphertext_election_context_t; Ptr (Ptr c_eg_element_mod_q_t)]
    [given CiphertextElectionContext Borrow]
    [(ElementModQ, Reference)];
  (** election.h:96. *)
  decl eg_ciphertext_election_context_get_crypto_extended_base_hash
    [Ptr c_eg_ciphertext_election_context_t; Ptr (Ptr c_eg_element_mod_q_t)]
    [given CiphertextElectionContext Borrow]
    [(ElementModQ, Reference)];
  (** election.h:105. *)
  decl eg_ciphertext_election_context_get_extended_data
    [Ptr c_eg_ciphertext_election_context_t; Ptr (Ptr c_eg_linked_list_t)]
    [given CiphertextElectionContext Borrow]
    [(LinkedList, Owned)];
  (** election.h:118. *)
  decl eg_ciphertext_election_context_make
    [c_uint64_t; c_uint64_t; Ptr c_eg_element_mod_p_t; Ptr c_eg_element_mod_q_t; Ptr c_eg_element_mod_q_t; Ptr (Ptr c_eg_ciphertext_election_context_t)]
    [given ElementModP Borrow; given ElementModQ Borrow; given ElementModQ Borrow]
    [(CiphertextElectionContext, Owned)];
  (** election.h:123. *)
  decl eg_ciphertext_election_context_make_with_configuration
    [c_uint64_t; c_uint64_t; Ptr c_eg_element_mod_p_t; Ptr c_eg_element_mod_q_t; Ptr c_eg_element_mod_q_t; Ptr c_eg_context_configuration_t; Ptr (Ptr c_eg_ciphertext_election_context_t)]
    [given ElementModP Borrow; given ElementModQ Borrow; given ElementModQ Borrow; given ContextConfiguration Borrow]
    [(CiphertextElectionContext, Owned)];
  (** election.h:139. *)
  decl eg_ciphertext_election_context_make_with_extended_data
    [c_uint64_t; c_uint64_t; Ptr c_eg_element_mod_p_t; Ptr c_eg_element_mod_q_t; Ptr c_eg_element_mod_q_t; Ptr c_eg_linked_list_t; Ptr (Ptr c_eg_ciphertext_election_context_t)]
    [given ElementModP Borrow; given ElementModQ Borrow; given ElementModQ Borrow; given LinkedList Borrow]
    [(CiphertextElectionContext, Owned)];
  (** election.h:144. *)
  decl eg_ciphertext_election_context_make_with_configuration_and_extended_data
    [c_uint64_t; c_uint64_t; Ptr c_eg_element_mod_p_t; Ptr c_eg_element_mod_q_t; Ptr c_eg_element_mod_q_t; Ptr c_eg_context_configuration_t; Ptr c_eg_linked_list_t; Ptr (Ptr c_eg_ciphertext_election_context_t)]
    [given ElementModP Borrow; given ElementModQ Borrow; given ElementModQ Borrow; given ContextConfiguration Borrow; given LinkedList Borrow]
    [(CiphertextElectionContext, Owned)];
  (** election.h:161. *)
  decl eg_ciphertext_election_context_make_from_hex
    [c_uint64_t; c_uint64_t; Ptr (Const c_char); Ptr (Const c_char); Ptr (Const c_char); Ptr (Ptr c_eg_ciphertext_election_context_t)]
    []
    [(CiphertextElectionContext, Owned)];
  (** election.h:177. *)
  decl eg_ciphertext_election_context_make_from_hex_with_extended_data
    [c_uint64_t; c_uint64_t; Ptr (Const c_char); Ptr (Const c_char); Ptr (Const c_char); Ptr c_eg_linked_list_t; Ptr (Ptr c_eg_ciphertext_election_context_t)]
    [given LinkedList Borrow]
    [(CiphertextElectionContext, Owned)];
  (** election.h:182. *)
  decl eg_ciphertext_election_context_from_json
    [Ptr c_char; Ptr (Ptr c_eg_ciphertext_election_context_t)]
    []
    [(CiphertextElectionContext, Owned)];
  (** election.h:185. *)
  decl eg_ciphertext_election_context_from_bson
    [Ptr c_uint8_t; c_uint64_t; Ptr (Ptr c_eg_ciphertext_election_context_t)]
    []
    [(CiphertextElectionContext, Owned)];
  (** election.h:188. *)
  decl eg_ciphertext_election_context_to_json
    [Ptr c_eg_ciphertext_election_context_t; Ptr (Ptr c_char); Ptr c_uint64_t]
    [given CiphertextElectionContext Borrow]
    [(Text, Owned)];
  (** election.h:191. *)
  decl eg_ciphertext_election_context_to_bson
    [Ptr c_eg_ciphertext_election_context_t; Ptr (Ptr c_uint8_t); Ptr c_uint64_t]
    [given CiphertextElectionContext Borrow]
    [(ByteBuffer, Owned)];
  (** elgamal.h:19. *)
  decl eg_elgamal_keypair_from_secret_new
    [Ptr c_eg_element_mod_q_t; Ptr (Ptr c_eg_elgamal_keypair_t)]
    [given ElementModQ Borrow]
    [(ElGamalKeyPair, Owned)];
  (** elgamal.h:22. *)
  decl eg_elgamal_keypair_free
    [Ptr c_eg_elgamal_keypair_t]
    [given ElGamalKeyPair Free]
    [];
  (** elgamal.h:24. *)
  decl eg_elgamal_keypair_get_public_key
    [Ptr c_eg_elgamal_keypair_t; Ptr (Ptr c_eg_element_mod_p_t)]
    [given ElGamalKeyPair Borrow]
    [(ElementModP, Owned)];
  (** elgamal.h:27. *)
  decl eg_elgamal_keypair_get_secret_key
    [Ptr c_eg_elgamal_keypair_t; Ptr (Ptr c_eg_element_mod_q_t)]
    [given ElGamalKeyPair Borrow]
    [(ElementModQ, Owned)];
  (** elgamal.h:45. *)
  decl eg_elgamal_ciphertext_free
    [Ptr c_eg_elgamal_ciphertext_t]
    [given ElGamalCiphertext Free]
    [];
  (** elgamal.h:47. *)
  decl eg_elgamal_ciphertext_get_pad
    [Ptr c_eg_elgamal_ciphertext_t; Ptr (Ptr c_eg_element_mod_p_t)]
    [given ElGamalCiphertext Borrow]
    [(ElementModP, Owned)];
  (** elgamal.h:49. *)
  decl eg_elgamal_ciphertext_get_data
    [Ptr c_eg_elgamal_ciphertext_t; Ptr (Ptr c_eg_element_mod_p_t)]
    [given ElGamalCiphertext Borrow]
    [(ElementModP, Owned)];
  (** elgamal.h:52. *)
  decl eg_elgamal_ciphertext_crypto_hash
    [Ptr c_eg_elgamal_ciphertext_t; Ptr (Ptr c_eg_element_mod_q_t)]
    [given ElGamalCiphertext Borrow]
    [(ElementModQ, Owned)];
  (** elgamal.h:55. *)
  decl eg_elgamal_ciphertext_decrypt_with_secret
    [Ptr c_eg_elgamal_ciphertext_t; Ptr c_eg_element_mod_q_t; Ptr c_uint64_t]
    [given ElGamalCiphertext Borrow; given ElementModQ Borrow]
    [];
  (** elgamal.h:70. *)
  decl eg_elgamal_encrypt
    [c_uint64_t; Ptr c_eg_element_mod_q_t; Ptr c_eg_element_mod_p_t; Ptr (Ptr c_eg_elgamal_ciphertext_t)]
    [given ElementModQ Borrow; given ElementModP Borrow]
    [(ElGamalCiphertext, Owned)];
  (** encrypt.h:43. *)
  decl eg_encryption_device_new
    [c_uint64_t; c_uint64_t; c_uint64_t; Ptr (Const c_char); Ptr (Ptr c_eg_encryption_device_t)]
    []
    [(EncryptionDevice, Owned)];
  (** encrypt.h:49. *)
  decl eg_encryption_device_free
    [Ptr c_eg_encryption_device_t]
    [given EncryptionDevice Free]
    [];
  (** encrypt.h:57. *)
  decl eg_encryption_device_get_hash
    [Ptr c_eg_encryption_device_t; Ptr (Ptr c_eg_element_mod_q_t)]
    [given EncryptionDevice Borrow]
    [(ElementModQ, Owned)];
  (** encrypt.h:66. *)
  decl eg_encryption_device_from_json
    [Ptr c_char; Ptr (Ptr c_eg_encryption_device_t)]
    []
    [(EncryptionDevice, Owned)];
  (** encrypt.h:76. *)
  decl eg_encryption_device_to_json
    [Ptr c_eg_encryption_device_t; Ptr (Ptr c_char); Ptr c_uint64_t]
    [given EncryptionDevice Borrow]
    [(Text, Owned)];
  (** encrypt.h:95. *)
  decl eg_encryption_mediator_new
    [Ptr c_eg_internal_manifest_t; Ptr c_eg_ciphertext_election_context_t; Ptr c_eg_encryption_device_t; Ptr (Ptr c_eg_encryption_mediator_t)]
    [given InternalManifest Borrow; given CiphertextElectionContext Borrow; given EncryptionDevice Borrow]
    [(EncryptionMediator, Owned)];
  (** encrypt.h:99. *)
  decl eg_encryption_mediator_free
    [Ptr c_eg_encryption_mediator_t]
    [given EncryptionMediator Free]
    [];
  (** encrypt.h:101. *)
  decl eg_encryption_mediator_compact_encrypt_ballot
    [Ptr c_eg_encryption_mediator_t; Ptr c_eg_plaintext_ballot_t; Ptr (Ptr c_eg_compact_ciphertext_ballot_t)]
    [given EncryptionMediator Borrow; given PlaintextBallot Borrow]
    [(CompactCiphertextBallot, Owned)];
  (** encrypt.h:105. *)
  decl eg_encryption_mediator_compact_encrypt_ballot_verify_proofs
    [Ptr c_eg_encryption_mediator_t; Ptr c_eg_plaintext_ballot_t; Ptr (Ptr c_eg_compact_ciphertext_ballot_t)]
    [given EncryptionMediator Borrow; given PlaintextBallot Borrow]
    [(CompactCiphertextBallot, Owned)];
  (** encrypt.h:109. *)
  decl eg_encryption_mediator_encrypt_ballot
    [Ptr c_eg_encryption_mediator_t; Ptr c_eg_plaintext_ballot_t; Ptr (Ptr c_eg_ciphertext_ballot_t)]
    [given EncryptionMediator Borrow; given PlaintextBallot Borrow]
    [(CiphertextBallot, Owned)];
  (** encrypt.h:113. *)
  decl eg_encryption_mediator_encrypt_ballot_verify_proofs
    [Ptr c_eg_encryption_mediator_t; Ptr c_eg_plaintext_ballot_t; Ptr (Ptr c_eg_ciphertext_ballot_t)]
    [given EncryptionMediator Borrow; given PlaintextBallot Borrow]
    [(CiphertextBallot, Owned)];
  (** encrypt.h:139. *)
  decl eg_encrypt_selection
    [Ptr c_eg_plaintext_ballot_selection_t; Ptr c_eg_selection_description_t; Ptr c_eg_element_mod_p_t; Ptr c_eg_element_mod_q_t; Ptr c_eg_element_mod_q_t; c_bool; c_bool; Ptr (Ptr c_eg_ciphertext_ballot_selection_t)]
    [given PlaintextBallotSelection Borrow; given SelectionDescription Borrow; given ElementModP Borrow; given ElementModQ Borrow; given ElementModQ Borrow]
    [(CiphertextBallotSelection, Owned)];
  (** encrypt.h:163. *)
  decl eg_encrypt_contest
    [Ptr c_eg_plaintext_ballot_contest_t; Ptr c_eg_contest_description_with_placeholders_t; Ptr c_eg_element_mod_p_t; Ptr c_eg_element_mod_q_t; Ptr c_eg_element_mod_q_t; c_bool; Ptr (Ptr c_eg_ciphertext_ballot_contest_t)]
    [given PlaintextBallotContest Borrow; given ContestDescriptionWithPlaceholders Borrow; given ElementModP Borrow; given ElementModQ Borrow; given ElementModQ Borrow]
    [(CiphertextBallotContest, Owned)];
  (** encrypt.h:186. *)
  decl eg_encrypt_ballot
    [Ptr c_eg_plaintext_ballot_t; Ptr c_eg_internal_manifest_t; Ptr c_eg_ciphertext_election_context_t; Ptr c_eg_element_mod_q_t; c_bool; Ptr (Ptr c_eg_ciphertext_ballot_t)]
    [given PlaintextBallot Borrow; given InternalManifest Borrow; given CiphertextElectionContext Borrow; given ElementModQ Borrow]
    [(CiphertextBallot, Owned)];
  (** encrypt.h:212. *)
  decl eg_encrypt_ballot_with_nonce
    [Ptr c_eg_plaintext_ballot_t; Ptr c_eg_internal_manifest_t; Ptr c_eg_ciphertext_election_context_t; Ptr c_eg_element_mod_q_t; Ptr c_eg_element_mod_q_t; c_bool; Ptr (Ptr c_eg_ciphertext_ballot_t)]
    [given PlaintextBallot Borrow; given InternalManifest Borrow; given CiphertextElectionContext Borrow; given ElementModQ Borrow; given ElementModQ Borrow]
    [(CiphertextBallot, Owned)];
  (** encrypt.h:238. *)
  decl eg_encrypt_compact_ballot
    [Ptr c_eg_plaintext_ballot_t; Ptr c_eg_internal_manifest_t; Ptr c_eg_ciphertext_election_context_t; Ptr c_eg_element_mod_q_t; c_bool; Ptr (Ptr c_eg_compact_ciphertext_ballot_t)]
    [given PlaintextBallot Borrow; given InternalManifest Borrow; given CiphertextElectionContext Borrow; given ElementModQ Borrow]
    [(CompactCiphertextBallot, Owned)];
  (** encrypt.h:265. *)
  decl eg_encrypt_compact_ballot_with_nonce
    [Ptr c_eg_plaintext_ballot_t; Ptr c_eg_internal_manifest_t; Ptr c_eg_ciphertext_election_context_t; Ptr c_eg_element_mod_q_t; Ptr c_eg_element_mod_q_t; c_bool; Ptr (Ptr c_eg_compact_ciphertext_ballot_t)]
    [given PlaintextBallot Borrow; given InternalManifest Borrow; given CiphertextElectionContext Borrow; given ElementModQ Borrow; given ElementModQ Borrow]
    [(CompactCiphertextBallot, Owned)];
  (** encrypt.h:275. *)
  decl eg_precompute_init
    [c_int]
    []
    [];
  (** encrypt.h:277. *)
  decl eg_precompute_populate
    [Ptr c_eg_element_mod_p_t]
    [given ElementModP Borrow]
    [];
  (** encrypt.h:279. *)
  decl eg_precompute_stop
    []
    []
    [];
  (** encrypt.h:281. *)
  decl eg_precompute_status
    [Ptr c_int; Ptr c_int]
    []
    [];
  (** group.h:23. *)
  decl eg_element_mod_p_new
    [Const c_uint64_t; Ptr (Ptr c_eg_element_mod_p_t)]
    []
    [(ElementModP, Owned)];
  (** group.h:25. *)
  decl eg_element_mod_p_new_unchecked
    [Const c_uint64_t; Ptr (Ptr c_eg_element_mod_p_t)]
    []
    [(ElementModP, Owned)];
  (** group.h:28. *)
  decl eg_element_mod_p_free
    [Ptr c_eg_element_mod_p_t]
    [given ElementModP Free]
    [];
  (** group.h:30. *)
  decl eg_element_mod_p_get_data
    [Ptr c_eg_element_mod_p_t; Ptr (Ptr c_uint64_t); Ptr c_uint64_t]
    [given ElementModP Borrow]
    [(Words, Reference)];
  (** group.h:33. *)
  decl eg_element_mod_p_to_hex
    [Ptr c_eg_element_mod_p_t; Ptr (Ptr c_char)]
    [given ElementModP Borrow]
    [(Text, Owned)];
  (** group.h:45. *)
  decl eg_element_mod_q_new
    [Const c_uint64_t; Ptr (Ptr c_eg_element_mod_q_t)]
    []
    [(ElementModQ, Owned)];
  (** group.h:47. *)
  decl eg_element_mod_q_new_unchecked
    [Const c_uint64_t; Ptr (Ptr c_eg_element_mod_q_t)]
    []
    [(ElementModQ, Owned)];
  (** group.h:50. *)
  decl eg_element_mod_q_free
    [Ptr c_eg_element_mod_q_t]
    [given ElementModQ Free]
    [];
  (** group.h:52. *)
  decl eg_element_mod_q_get_data
    [Ptr c_eg_element_mod_q_t; Ptr (Ptr c_uint64_t); Ptr c_uint64_t]
    [given ElementModQ Borrow]
    [(Words, Reference)];
  (** group.h:55. *)
  decl eg_element_mod_q_to_hex
    [Ptr c_eg_element_mod_q_t; Ptr (Ptr c_char)]
    [given ElementModQ Borrow]
    [(Text, Owned)];
  (** group.h:58. *)
  decl eg_element_mod_q_from_hex
    [Ptr c_char; Ptr (Ptr c_eg_element_mod_q_t)]
    []
    [(ElementModQ, Owned)];
  (** group.h:61. *)
  decl eg_element_mod_q_from_hex_unchecked
    [Ptr c_char; Ptr (Ptr c_eg_element_mod_q_t)]
    []
    [(ElementModQ, Owned)];
  (** group.h:70. *)
  decl eg_element_mod_p_constant_g
    [Ptr (Ptr c_eg_element_mod_p_t)]
    []
    [(ElementModP, Reference)];
  (** group.h:71. *)
  decl eg_element_mod_p_constant_p
    [Ptr (Ptr c_eg_element_mod_p_t)]
    []
    [(ElementModP, Reference)];
  (** group.h:72. *)
  decl eg_element_mod_p_constant_r
    [Ptr (Ptr c_eg_element_mod_p_t)]
    []
    [(ElementModP, Reference)];
  (** group.h:73. *)
  decl eg_element_mod_p_constant_zero_mod_p
    [Ptr (Ptr c_eg_element_mod_p_t)]
    []
    [(ElementModP, Reference)];
  (** group.h:75. *)
  decl eg_element_mod_p_constant_one_mod_p
    [Ptr (Ptr c_eg_element_mod_p_t)]
    []
    [(ElementModP, Reference)];
  (** group.h:77. *)
  decl eg_element_mod_p_constant_two_mod_p
    [Ptr (Ptr c_eg_element_mod_p_t)]
    []
    [(ElementModP, Reference)];
  (** group.h:80. *)
  decl eg_element_mod_q_constant_q
    [Ptr (Ptr c_eg_element_mod_q_t)]
    []
    [(ElementModQ, Reference)];
  (** group.h:81. *)
  decl eg_element_mod_q_constant_zero_mod_q
    [Ptr (Ptr c_eg_element_mod_q_t)]
    []
    [(ElementModQ, Reference)];
  (** group.h:83. *)
  decl eg_element_mod_q_constant_one_mod_q
    [Ptr (Ptr c_eg_element_mod_q_t)]
    []
    [(ElementModQ, Reference)];
  (** group.h:85. *)
  decl eg_element_mod_q_constant_two_mod_q
    [Ptr (Ptr c_eg_element_mod_q_t)]
    []
    [(ElementModQ, Reference)];
  (** group.h:87. *)
  decl eg_constant_to_json
    [Ptr (Ptr c_char); Ptr c_uint64_t]
    []
    [(Text, Owned)];
  (** group.h:95. *)
  decl eg_element_mod_q_pow_mod_p
    [Ptr c_eg_element_mod_p_t; Ptr c_eg_element_mod_q_t; Ptr (Ptr c_eg_element_mod_p_t)]
    [given ElementModP Borrow; given ElementModQ Borrow]
    [(ElementModP, Owned)];
  (** group.h:99. *)
  decl eg_element_mod_q_rand_q_new
    [Ptr (Ptr c_eg_element_mod_q_t)]
    []
    [(ElementModQ, Owned)];
  (** hash.h:12. *)
  decl eg_hash_elems_string
    [Ptr (Const c_char); Ptr (Ptr c_eg_element_mod_q_t)]
    []
    [(ElementModQ, Owned)];
  (** hash.h:14. *)
  decl eg_hash_elems_strings
    [Ptr (Ptr (Const c_char)); c_uint64_t; Ptr (Ptr c_eg_element_mod_q_t)]
    []
    [(ElementModQ, Owned)];
  (** hash.h:16. *)
  decl eg_hash_elems_int
    [c_uint64_t; Ptr (Ptr c_eg_element_mod_q_t)]
    []
    [(ElementModQ, Owned)];
  (** manifest.h:108. *)
  decl eg_annotated_string_new
    [Ptr (Const c_char); Ptr (Const c_char); Ptr (Ptr c_eg_annotated_string_t)]
    []
    [(AnnotatedString, Owned)];
  (** manifest.h:112. *)
  decl eg_annotated_string_free
    [Ptr c_eg_annotated_string_t]
    [given AnnotatedString Free]
    [];
  (** manifest.h:117. *)
  decl eg_annotated_string_get_annotation
    [Ptr c_eg_annotated_string_t; Ptr (Ptr (Const c_char))]
    [given AnnotatedString Borrow]
    [(Text, Owned)];
  (** manifest.h:123. *)
  decl eg_annotated_string_get_value
    [Ptr c_eg_annotated_string_t; Ptr (Ptr (Const c_char))]
    [given AnnotatedString Borrow]
    [(Text, Owned)];
  (** manifest.h:129. *)
  decl eg_annotated_string_crypto_hash
    [Ptr c_eg_annotated_string_t; Ptr (Ptr c_eg_element_mod_q_t)]
    [given AnnotatedString Borrow]
    [(ElementModQ, Owned)];
  (** manifest.h:145. *)
  decl eg_language_new
    [Ptr (Const c_char); Ptr (Const c_char); Ptr (Ptr c_eg_language_t)]
    []
    [(Language, Owned)];
  (** manifest.h:148. *)
  decl eg_language_free
    [Ptr c_eg_language_t]
    [given Language Free]
    [];
  (** manifest.h:153. *)
  decl eg_language_get_value
    [Ptr c_eg_language_t; Ptr (Ptr c_char)]
    [given Language Borrow]
    [(Text, Owned)];
  (** manifest.h:158. *)
  decl eg_language_get_language
    [Ptr c_eg_language_t; Ptr (Ptr c_char)]
    [given Language Borrow]
    [(Text, Owned)];
  (** manifest.h:164. *)
  decl eg_language_crypto_hash
    [Ptr c_eg_language_t; Ptr (Ptr c_eg_element_mod_q_t)]
    [given Language Borrow]
    [(ElementModQ, Owned)];
  (** manifest.h:179. *)
  decl eg_internationalized_text_new
    [Ptr (Ptr c_eg_language_t); c_uint64_t; Ptr (Ptr c_eg_internationalized_text_t)]
    [given_all Language Borrow]
    [(InternationalizedText, Owned)];
  (** manifest.h:182. *)
  decl eg_internationalized_text_free
    [Ptr c_eg_internationalized_text_t]
    [given InternationalizedText Free]
    [];
  (** manifest.h:188. *)
  decl eg_internationalized_text_get_text_size
    [Ptr c_eg_internationalized_text_t]
    [given InternationalizedText Borrow]
    [];
  (** manifest.h:197. *)
  decl eg_internationalized_text_get_text_at_index
    [Ptr c_eg_internationalized_text_t; c_uint64_t; Ptr (Ptr c_eg_language_t)]
    [given InternationalizedText Borrow]
    [(Language, Reference)];
  (** manifest.h:203. *)
  decl eg_intertnationalized_text_crypto_hash
    [Ptr c_eg_language_t; Ptr (Ptr c_eg_element_mod_q_t)]
    [given Language Borrow]
    [(ElementModQ, Owned)];
  (** manifest.h:222. *)
  decl eg_contact_information_new
    [Ptr c_char; Ptr (Ptr c_eg_contact_information_t)]
    []
    [(ContactInformation, Owned)];
  (** manifest.h:225. *)
  decl eg_contact_information_new_with_collections
    [Ptr c_char; Ptr (Ptr c_char); c_uint64_t; Ptr (Ptr c_eg_annotated_string_t); c_uint64_t; Ptr (Ptr c_eg_annotated_string_t); c_uint64_t; Ptr (Ptr c_eg_contact_information_t)]
    [given_all AnnotatedString Borrow; given_all AnnotatedString Borrow]
    [(ContactInformation, Owned)];
  (** manifest.h:231. *)
  decl eg_contact_information_free
    [Ptr c_eg_contact_information_t]
    [given ContactInformation Free]
    [];
  (** manifest.h:236. *)
  decl eg_contact_information_get_address_line_size
    [Ptr c_eg_contact_information_t]
    [given ContactInformation Borrow]
    [];
  (** manifest.h:250. *)
  decl eg_contact_information_get_address_line_at_index
    [Ptr c_eg_contact_information_t; c_uint64_t; Ptr (Ptr c_char)]
    [given ContactInformation Borrow]
    [(Text, Reference)];
  (** manifest.h:256. *)
  decl eg_contact_information_get_email_line_size
    [Ptr c_eg_contact_information_t]
    [given ContactInformation Borrow]
    [];
  (** manifest.h:270. *)
  decl eg_contact_information_get_email_line_at_index
    [Ptr c_eg_contact_information_t; c_uint64_t; Ptr (Ptr c_eg_internationalized_text_t)]
    [given ContactInformation Borrow]
    [(InternationalizedText, Reference)];
  (** manifest.h:277. *)
  decl eg_contact_information_get_phone_line_size
    [Ptr c_eg_contact_information_t]
    [given ContactInformation Borrow]
    [];
  (** manifest.h:291. *)
  decl eg_contact_information_get_phone_line_at_index
    [Ptr c_eg_contact_information_t; c_uint64_t; Ptr (Ptr c_eg_internationalized_text_t)]
    [given ContactInformation Borrow]
    [(InternationalizedText, Reference)];
  (** manifest.h:294. *)
  decl eg_contact_information_get_name
    [Ptr c_eg_contact_information_t; Ptr (Ptr (Const c_char))]
    [given ContactInformation Borrow]
    [(Text, Owned)];
  (** manifest.h:300. *)
  decl eg_contact_information_crypto_hash
    [Ptr c_eg_contact_information_t; Ptr (Ptr c_eg_element_mod_q_t)]
    [given ContactInformation Borrow]
    [(ElementModQ, Owned)];
  (** manifest.h:324. *)
  decl eg_geopolitical_unit_new
    [Ptr c_char; Ptr c_char; c_eg_reporting_unit_type_t; Ptr (Ptr c_eg_geopolitical_unit_t)]
    []
    [(GeopoliticalUnit, Owned)];
  (** manifest.h:328. *)
  decl eg_geopolitical_unit_new_with_contact_info
    [Ptr c_char; Ptr c_char; c_eg_reporting_unit_type_t; Ptr c_eg_contact_information_t; Ptr (Ptr c_eg_geopolitical_unit_t)]
    [given ContactInformation Borrow]
    [(GeopoliticalUnit, Owned)];
  (** manifest.h:332. *)
  decl eg_geopolitical_unit_free
    [Ptr c_eg_geopolitical_unit_t]
    [given GeopoliticalUnit Free]
    [];
  (** manifest.h:334. *)
  decl eg_geopolitical_unit_get_object_id
    [Ptr c_eg_geopolitical_unit_t; Ptr (Ptr (Const c_char))]
    [given GeopoliticalUnit Borrow]
    [(Text, Owned)];
  (** manifest.h:337. *)
  decl eg_geopolitical_unit_get_name
    [Ptr c_eg_geopolitical_unit_t; Ptr (Ptr (Const c_char))]
    [given GeopoliticalUnit Borrow]
    [(Text, Owned)];
  (** manifest.h:345. *)
  decl eg_geopolitical_unit_crypto_hash
    [Ptr c_eg_geopolitical_unit_t; Ptr (Ptr c_eg_element_mod_q_t)]
    [given GeopoliticalUnit Borrow]
    [(ElementModQ, Owned)];
  (** manifest.h:365. *)
  decl eg_ballot_style_new
    [Ptr c_char; Ptr (Ptr c_char); c_uint64_t; Ptr (Ptr c_eg_ballot_style_t)]
    []
    [(BallotStyle, Owned)];
  (** manifest.h:370. *)
  decl eg_ballot_style_new_with_parties
    [Ptr c_char; Ptr (Ptr c_char); c_uint64_t; Ptr (Ptr c_char); c_uint64_t; Ptr c_char; Ptr (Ptr c_eg_ballot_style_t)]
    []
    [(BallotStyle, Owned)];
  (** manifest.h:375. *)
  decl eg_ballot_style_free
    [Ptr c_eg_ballot_style_t]
    [given BallotStyle Free]
    [];
  (** manifest.h:377. *)
  decl eg_ballot_style_get_object_id
    [Ptr c_eg_ballot_style_t; Ptr (Ptr (Const c_char))]
    [given BallotStyle Borrow]
    [(Text, Owned)];
  (** manifest.h:380. *)
  decl eg_ballot_style_get_geopolitical_unit_ids_size
    [Ptr c_eg_ballot_style_t]
    [given BallotStyle Borrow]
    [];
  (** manifest.h:382. *)
  decl eg_ballot_style_get_geopolitical_unit_id_at_index
    [Ptr c_eg_ballot_style_t; c_uint64_t; Ptr (Ptr c_char)]
    [given BallotStyle Borrow]
    [(Text, Owned)];
  (** manifest.h:385. *)
  decl eg_ballot_style_get_party_ids_size
    [Ptr c_eg_ballot_style_t]
    [given BallotStyle Borrow]
    [];
  (** manifest.h:387. *)
  decl eg_ballot_style_get_party_id_at_index
    [Ptr c_eg_ballot_style_t; c_uint64_t; Ptr (Ptr c_char)]
    [given BallotStyle Borrow]
    [(Text, Owned)];
  (** manifest.h:391. *)
  decl eg_ballot_style_get_image_uri
    [Ptr c_eg_ballot_style_t; Ptr (Ptr (Const c_char))]
    [given BallotStyle Borrow]
    [(Text, Owned)];
  (** manifest.h:397. *)
  decl eg_ballot_style_crypto_hash
    [Ptr c_eg_ballot_style_t; Ptr (Ptr c_eg_element_mod_q_t)]
    [given BallotStyle Borrow]
    [(ElementModQ, Owned)];
  (** manifest.h:415. *)
  decl eg_party_new
    [Ptr c_char; Ptr (Ptr c_eg_party_t)]
    []
    [(Party, Owned)];
  (** manifest.h:419. *)
  decl eg_party_new_with_extras
    [Ptr c_char; Ptr c_eg_internationalized_text_t; Ptr c_char; Ptr c_char; Ptr c_char; Ptr (Ptr c_eg_party_t)]
    [given InternationalizedText Borrow]
    [(Party, Owned)];
  (** manifest.h:425. *)
  decl eg_party_free
    [Ptr c_eg_party_t]
    [given Party Free]
    [];
  (** manifest.h:427. *)
  decl eg_party_get_object_id
    [Ptr c_eg_party_t; Ptr (Ptr (Const c_char))]
    [given Party Borrow]
    [(Text, Owned)];
  (** manifest.h:430. *)
  decl eg_party_get_abbreviation
    [Ptr c_eg_party_t; Ptr (Ptr (Const c_char))]
    [given Party Borrow]
    [(Text, Owned)];
  (** manifest.h:433. *)
  decl eg_party_get_name
    [Ptr c_eg_party_t; Ptr (Ptr c_eg_internationalized_text_t)]
    [given Party Borrow]
    [(InternationalizedText, Reference)];
  (** manifest.h:436. *)
  decl eg_party_get_color
    [Ptr c_eg_party_t; Ptr (Ptr (Const c_char))]
    [given Party Borrow]
    [(Text, Owned)];
  (** manifest.h:438. *)
  decl eg_party_get_logo_uri
    [Ptr c_eg_party_t; Ptr (Ptr (Const c_char))]
    [given Party Borrow]
    [(Text, Owned)];
  (** manifest.h:444. *)
  decl eg_party_crypto_hash
    [Ptr c_eg_party_t; Ptr (Ptr c_eg_element_mod_q_t)]
    [given Party Borrow]
    [(ElementModQ, Owned)];
  (** manifest.h:465. *)
  decl eg_candidate_new
    [Ptr c_char; c_bool; Ptr (Ptr c_eg_candidate_t)]
    []
    [(Candidate, Owned)];
  (** manifest.h:470. *)
  decl eg_candidate_new_with_party
    [Ptr c_char; Ptr c_char; c_bool; Ptr (Ptr c_eg_candidate_t)]
    []
    [(Candidate, Owned)];
  (** manifest.h:474. *)
  decl eg_candidate_new_with_extras
    [Ptr c_char; Ptr c_eg_internationalized_text_t; Ptr c_char; Ptr c_char; c_bool; Ptr (Ptr c_eg_candidate_t)]
    [given InternationalizedText Borrow]
    [(Candidate, Owned)];
  (** manifest.h:480. *)
  decl eg_candidate_free
    [Ptr c_eg_candidate_t]
    [given Candidate Free]
    [];
  (** manifest.h:482. *)
  decl eg_candidate_get_object_id
    [Ptr c_eg_candidate_t; Ptr (Ptr (Const c_char))]
    [given Candidate Borrow]
    [(Text, Owned)];
  (** manifest.h:485. *)
  decl eg_candidate_get_candidate_id
    [Ptr c_eg_candidate_t; Ptr (Ptr (Const c_char))]
    [given Candidate Borrow]
    [(Text, Owned)];
  (** manifest.h:488. *)
  decl eg_candidate_get_name
    [Ptr c_eg_candidate_t; Ptr (Ptr c_eg_internationalized_text_t)]
    [given Candidate Borrow]
    [(InternationalizedText, Reference)];
  (** manifest.h:491. *)
  decl eg_candidate_get_party_id
    [Ptr c_eg_candidate_t; Ptr (Ptr (Const c_char))]
    [given Candidate Borrow]
    [(Text, Owned)];
  (** manifest.h:494. *)
  decl eg_candidate_get_image_uri
    [Ptr c_eg_candidate_t; Ptr (Ptr (Const c_char))]
    [given Candidate Borrow]
    [(Text, Owned)];
  (** manifest.h:497. *)
  decl eg_candidate_get_is_write_in
    [Ptr c_eg_candidate_t]
    [given Candidate Borrow]
    [];
  (** manifest.h:502. *)
  decl eg_candidate_crypto_hash
    [Ptr c_eg_candidate_t; Ptr (Ptr c_eg_element_mod_q_t)]
    [given Candidate Borrow]
    [(ElementModQ, Owned)];
  (** manifest.h:527. *)
  decl eg_selection_description_new
    [Ptr (Const c_char); Ptr (Const c_char); c_uint64_t; Ptr (Ptr c_eg_selection_description_t)]
    []
    [(SelectionDescription, Owned)];
  (** manifest.h:531. *)
  decl eg_selection_description_free
    [Ptr c_eg_selection_description_t]
    [given SelectionDescription Free]
    [];
  (** manifest.h:536. *)
  decl eg_selection_description_get_object_id
    [Ptr c_eg_selection_description_t; Ptr (Ptr (Const c_char))]
    [given SelectionDescription Borrow]
    [(Text, Owned)];
  (** manifest.h:542. *)
  decl eg_selection_description_get_candidate_id
    [Ptr c_eg_selection_description_t; Ptr (Ptr (Const c_char))]
    [given SelectionDescription Borrow]
    [(Text, Owned)];
  (** manifest.h:550. *)
  decl eg_selection_description_get_sequence_order
    [Ptr c_eg_selection_description_t]
    [given SelectionDescription Borrow]
    [];
  (** manifest.h:555. *)
  decl eg_selection_description_crypto_hash
    [Ptr c_eg_selection_description_t; Ptr (Ptr c_eg_element_mod_q_t)]
    [given SelectionDescription Borrow]
    [(ElementModQ, Owned)];
  (** manifest.h:576. *)
  decl eg_contest_description_new
    [Ptr (Const c_char); Ptr c_char; c_uint64_t; c_eg_vote_variation_type_t; c_uint64_t; Ptr c_char; Ptr (Ptr c_eg_selection_description_t); c_uint64_t; Ptr (Ptr c_eg_contest_description_t)]
    [given_all SelectionDescription Borrow]
    [(ContestDescription, Owned)];
  (** manifest.h:582. *)
  decl eg_contest_description_new_with_title
    [Ptr (Const c_char); Ptr c_char; c_uint64_t; c_eg_vote_variation_type_t; c_uint64_t; c_uint64_t; Ptr c_char; Ptr c_eg_internationalized_text_t; Ptr c_eg_internationalized_text_t; Ptr (Ptr c_eg_selection_description_t); c_uint64_t; Ptr (Ptr c_eg_contest_description_t)]
    [given InternationalizedText Borrow; given InternationalizedText Borrow; given_all SelectionDescription Borrow]
    [(ContestDescription, Owned)];
  (** manifest.h:589. *)
  decl eg_contest_description_new_with_parties
    [Ptr (Const c_char); Ptr c_char; c_uint64_t; c_eg_vote_variation_type_t; c_uint64_t; Ptr c_char; Ptr (Ptr c_eg_selection_description_t); c_uint64_t; Ptr (Ptr c_char); c_uint64_t; Ptr (Ptr c_eg_contest_description_t)]
    [given_all SelectionDescription Borrow]
    [(ContestDescription, Owned)];
  (** manifest.h:596. *)
  decl eg_contest_description_new_with_title_and_parties
    [Ptr (Const c_char); Ptr c_char; c_uint64_t; c_eg_vote_variation_type_t; c_uint64_t; Ptr c_char; Ptr c_eg_internationalized_text_t; Ptr c_eg_internationalized_text_t; Ptr (Ptr c_eg_selection_description_t); c_uint64_t; Ptr (Ptr c_char); c_uint64_t; Ptr (Ptr c_eg_contest_description_t)]
    [given InternationalizedText Borrow; given InternationalizedText Borrow; given_all SelectionDescription Borrow]
    [(ContestDescription, Owned)];
  (** manifest.h:604. *)
  decl eg_contest_description_free
    [Ptr c_eg_contest_description_t]
    [given ContestDescription Free]
    [];
  (** manifest.h:609. *)
  decl eg_contest_description_get_object_id
    [Ptr c_eg_contest_description_t; Ptr (Ptr (Const c_char))]
    [given ContestDescription Borrow]
    [(Text, Owned)];
  (** manifest.h:616. *)
  decl eg_contest_description_get_electoral_district_id
    [Ptr c_eg_contest_description_t; Ptr (Ptr (Const c_char))]
    [given ContestDescription Borrow]
    [(Text, Owned)];
  (** manifest.h:624. *)
  decl eg_contest_description_get_sequence_order
    [Ptr c_eg_contest_description_t]
    [given ContestDescription Borrow]
    [];
  (** manifest.h:629. *)
  decl eg_contest_description_get_vote_variation
    [Ptr c_eg_contest_description_t]
    [given ContestDescription Borrow]
    [];
  (** manifest.h:635. *)
  decl eg_contest_description_get_number_elected
    [Ptr c_eg_contest_description_t]
    [given ContestDescription Borrow]
    [];
  (** manifest.h:640. *)
  decl eg_contest_description_get_votes_allowed
    [Ptr c_eg_contest_description_t]
    [given ContestDescription Borrow]
    [];
  (** manifest.h:646. *)
  decl eg_contest_description_get_name
    [Ptr c_eg_contest_description_t; Ptr (Ptr (Const c_char))]
    [given ContestDescription Borrow]
    [(Text, Owned)];
  (** manifest.h:652. *)
  decl eg_contest_description_get_ballot_title
    [Ptr c_eg_contest_description_t; Ptr (Ptr c_eg_internationalized_text_t)]
    [given ContestDescription Borrow]
    [(InternationalizedText, Reference)];
  (** manifest.h:658. *)
  decl eg_contest_description_get_ballot_subtitle
    [Ptr c_eg_contest_description_t; Ptr (Ptr c_eg_internationalized_text_t)]
    [given ContestDescription Borrow]
    [(InternationalizedText, Reference)];
  (** manifest.h:661. *)
  decl eg_contest_description_get_selections_size
    [Ptr c_eg_contest_description_t]
    [given ContestDescription Borrow]
    [];
  (** manifest.h:663. *)
  decl eg_contest_description_get_selection_at_index
    [Ptr c_eg_contest_description_t; c_uint64_t; Ptr (Ptr c_eg_selection_description_t)]
    [given ContestDescription Borrow]
    [(SelectionDescription, Reference)];
  (** manifest.h:670. *)
  decl eg_contest_description_crypto_hash
    [Ptr c_eg_contest_description_t; Ptr (Ptr c_eg_element_mod_q_t)]
    [given ContestDescription Borrow]
    [(ElementModQ, Owned)];
  (** manifest.h:688. *)
  decl eg_contest_description_with_placeholders_new
    [Ptr (Const c_char); Ptr c_char; c_uint64_t; c_eg_vote_variation_type_t; c_uint64_t; Ptr c_char; Ptr (Ptr c_eg_selection_description_t); c_uint64_t; Ptr (Ptr c_eg_selection_description_t); c_uint64_t; Ptr (Ptr c_eg_contest_description_with_placeholders_t)]
    [given_all SelectionDescription Borrow; given_all SelectionDescription Borrow]
    [(ContestDescriptionWithPlaceholders, Owned)];
  (** manifest.h:695. *)
  decl eg_contest_description_with_placeholders_new_with_title
    [Ptr (Const c_char); Ptr c_char; c_uint64_t; c_eg_vote_variation_type_t; c_uint64_t; Ptr c_char; Ptr c_eg_internationalized_text_t; Ptr c_eg_internationalized_text_t; Ptr (Ptr c_eg_selection_description_t); c_uint64_t; Ptr (Ptr c_eg_selection_description_t); c_uint64_t; Ptr (Ptr c_eg_contest_description_with_placeholders_t)]
    [given InternationalizedText Borrow; given InternationalizedText Borrow; given_all SelectionDescription Borrow; given_all SelectionDescription Borrow]
    [(ContestDescriptionWithPlaceholders, Owned)];
  (** manifest.h:703. *)
  decl eg_contest_description_with_placeholders_new_with_parties
    [Ptr (Const c_char); Ptr c_char; c_uint64_t; c_eg_vote_variation_type_t; c_uint64_t; Ptr c_char; Ptr (Ptr c_eg_selection_description_t); c_uint64_t; Ptr (Ptr c_char); c_uint64_t; Ptr (Ptr c_eg_selection_description_t); c_uint64_t; Ptr (Ptr c_eg_contest_description_with_placeholders_t)]
    [given_all SelectionDescription Borrow; given_all SelectionDescription Borrow]
    [(ContestDescriptionWithPlaceholders, Owned)];
  (** manifest.h:711. *)
  decl eg_contest_description_with_placeholders_new_with_title_and_parties
    [Ptr (Const c_char); Ptr c_char; c_uint64_t; c_eg_vote_variation_type_t; c_uint64_t; Ptr c_char; Ptr c_eg_internationalized_text_t; Ptr c_eg_internationalized_text_t; Ptr (Ptr c_eg_selection_description_t); c_uint64_t; Ptr (Ptr c_char); c_uint64_t; Ptr (Ptr c_eg_selection_description_t); c_uint64_t; Ptr (Ptr c_eg_contest_description_with_placeholders_t)]
    [given InternationalizedText Borrow; given InternationalizedText Borrow; given_all SelectionDescription Borrow; given_all SelectionDescription Borrow]
    [(ContestDescriptionWithPlaceholders, Owned)];
  (** manifest.h:721. *)
  decl eg_contest_description_with_placeholders_free
    [Ptr c_eg_contest_description_with_placeholders_t]
    [given ContestDescriptionWithPlaceholders Free]
    [];
  (** manifest.h:724. *)
  decl eg_contest_description_with_placeholders_get_placeholders_size
    [Ptr c_eg_contest_description_with_placeholders_t]
    [given ContestDescriptionWithPlaceholders Borrow]
    [];
  (** manifest.h:727. *)
  decl eg_contest_description_with_placeholders_get_placeholder_at_index
    [Ptr c_eg_contest_description_with_placeholders_t; c_uint64_t; Ptr (Ptr c_eg_contest_description_with_placeholders_t)]
    [given ContestDescriptionWithPlaceholders Borrow]
    [(ContestDescriptionWithPlaceholders, Reference)];
  (** manifest.h:731. *)
  decl eg_contest_description_with_placeholders_is_placeholder
    [Ptr c_eg_contest_description_with_placeholders_t; Ptr c_eg_selection_description_t]
    [given ContestDescriptionWithPlaceholders Borrow; given SelectionDescription Borrow]
    [];
  (** manifest.h:734. *)
  decl eg_contest_description_with_placeholders_selection_for_id
    [Ptr c_eg_contest_description_with_placeholders_t; Ptr c_char; Ptr (Ptr c_eg_selection_description_t)]
    [given ContestDescriptionWithPlaceholders Borrow]
    [(SelectionDescription, Reference)];
  (** manifest.h:758. *)
  decl eg_election_manifest_new
    [Ptr c_char; c_eg_election_type_t; c_uint64_t; c_uint64_t; Ptr (Ptr c_eg_geopolitical_unit_t); c_uint64_t; Ptr (Ptr c_eg_party_t); c_uint64_t; Ptr (Ptr c_eg_candidate_t); c_uint64_t; Ptr (Ptr c_eg_contest_description_t); c_uint64_t; Ptr (Ptr c_eg_ballot_style_t); c_uint64_t; Ptr (Ptr c_eg_election_manifest_t)]
    [given_all GeopoliticalUnit Borrow; given_all Party Borrow; given_all Candidate Borrow; given_all ContestDescription Borrow; given_all BallotStyle Borrow]
    [(Manifest, Owned)];
  (** manifest.h:767. *)
  decl eg_election_manifest_new_with_contact
    [Ptr c_char; c_eg_election_type_t; c_uint64_t; c_uint64_t; Ptr (Ptr c_eg_geopolitical_unit_t); c_uint64_t; Ptr (Ptr c_eg_party_t); c_uint64_t; Ptr (Ptr c_eg_candidate_t); c_uint64_t; Ptr (Ptr c_eg_contest_description_t); c_uint64_t; Ptr (Ptr c_eg_ballot_style_t); c_uint64_t; Ptr c_eg_internationalized_text_t; Ptr c_eg_contact_information_t; Ptr (Ptr c_eg_election_manifest_t)]
    [given_all GeopoliticalUnit Borrow; given_all Party Borrow; given_all Candidate Borrow; given_all ContestDescription Borrow; given_all BallotStyle Borrow; given InternationalizedText Borrow; given ContactInformation Borrow]
    [(Manifest, Owned)];
  (** manifest.h:777. *)
  decl eg_election_manifest_free
    [Ptr c_eg_election_manifest_t]
    [given Manifest Free]
    [];
  (** manifest.h:779. *)
  decl eg_election_manifest_get_election_scope_id
    [Ptr c_eg_election_manifest_t; Ptr (Ptr c_char)]
    [given Manifest Borrow]
    [(Text, Owned)];
  (** manifest.h:782. *)
  decl eg_election_manifest_get_type
    [Ptr c_eg_election_manifest_t]
    [given Manifest Borrow]
    [];
  (** manifest.h:784. *)
  decl eg_election_manifest_get_start_date
    [Ptr c_eg_election_manifest_t]
    [given Manifest Borrow]
    [];
  (** manifest.h:786. *)
  decl eg_election_manifest_get_end_date
    [Ptr c_eg_election_manifest_t]
    [given Manifest Borrow]
    [];
  (** manifest.h:788. *)
  decl eg_election_manifest_get_geopolitical_units_size
    [Ptr c_eg_election_manifest_t]
    [given Manifest Borrow]
    [];
  (** manifest.h:790. *)
  decl eg_election_manifest_get_geopolitical_unit_at_index
    [Ptr c_eg_election_manifest_t; c_uint64_t; Ptr (Ptr c_eg_geopolitical_unit_t)]
    [given Manifest Borrow]
    [(GeopoliticalUnit, Reference)];
  (** manifest.h:793. *)
  decl eg_election_manifest_get_parties_size
    [Ptr c_eg_election_manifest_t]
    [given Manifest Borrow]
    [];
  (** manifest.h:795. *)
  decl eg_election_manifest_get_party_at_index
    [Ptr c_eg_election_manifest_t; c_uint64_t; Ptr (Ptr c_eg_party_t)]
    [given Manifest Borrow]
    [(Party, Reference)];
  (** manifest.h:798. *)
  decl eg_election_manifest_get_candidates_size
    [Ptr c_eg_election_manifest_t]
    [given Manifest Borrow]
    [];
  (** manifest.h:800. *)
  decl eg_election_manifest_get_candidate_at_index
    [Ptr c_eg_election_manifest_t; c_uint64_t; Ptr (Ptr c_eg_candidate_t)]
    [given Manifest Borrow]
    [(Candidate, Reference)];
  (** manifest.h:803. *)
  decl eg_election_manifest_get_contests_size
    [Ptr c_eg_election_manifest_t]
    [given Manifest Borrow]
    [];
  (** manifest.h:805. *)
  decl eg_election_manifest_get_contest_at_index
    [Ptr c_eg_election_manifest_t; c_uint64_t; Ptr (Ptr c_eg_contest_description_t)]
    [given Manifest Borrow]
    [(ContestDescription, Reference)];
  (** manifest.h:808. *)
  decl eg_election_manifest_get_ballot_styles_size
    [Ptr c_eg_election_manifest_t]
    [given Manifest Borrow]
    [];
  (** manifest.h:810. *)
  decl eg_election_manifest_get_ballot_style_at_index
    [Ptr c_eg_election_manifest_t; c_uint64_t; Ptr (Ptr c_eg_ballot_style_t)]
    [given Manifest Borrow]
    [(BallotStyle, Reference)];
  (** manifest.h:813. *)
  decl eg_election_manifest_get_name
    [Ptr c_eg_election_manifest_t; Ptr (Ptr c_eg_internationalized_text_t)]
    [given Manifest Borrow]
    [(InternationalizedText, Reference)];
  (** manifest.h:816. *)
  decl eg_election_manifest_get_contact_info
    [Ptr c_eg_election_manifest_t; Ptr (Ptr c_eg_contact_information_t)]
    [given Manifest Borrow]
    [(ContactInformation, Reference)];
  (** manifest.h:827. *)
  decl eg_election_manifest_crypto_hash
    [Ptr c_eg_election_manifest_t; Ptr (Ptr c_eg_element_mod_q_t)]
    [given Manifest Borrow]
    [(ElementModQ, Owned)];
  (** manifest.h:830. *)
  decl eg_election_manifest_is_valid
    [Ptr c_eg_election_manifest_t]
    [given Manifest Borrow]
    [];
  (** manifest.h:832. *)
  decl eg_election_manifest_from_json
    [Ptr c_char; Ptr (Ptr c_eg_election_manifest_t)]
    []
    [(Manifest, Owned)];
  (** manifest.h:835. *)
  decl eg_election_manifest_from_bson
    [Ptr c_uint8_t; c_uint64_t; Ptr (Ptr c_eg_election_manifest_t)]
    []
    [(Manifest, Owned)];
  (** manifest.h:838. *)
  decl eg_election_manifest_from_msgpack
    [Ptr c_uint8_t; c_uint64_t; Ptr (Ptr c_eg_election_manifest_t)]
    []
    [(Manifest, Owned)];
  (** manifest.h:841. *)
  decl eg_election_manifest_to_json
    [Ptr c_eg_election_manifest_t; Ptr (Ptr c_char); Ptr c_uint64_t]
    [given Manifest Borrow]
    [(Text, Owned)];
  (** manifest.h:845. *)
  decl eg_election_manifest_to_bson
    [Ptr c_eg_election_manifest_t; Ptr (Ptr c_uint8_t); Ptr c_uint64_t]
    [given Manifest Borrow]
    [(ByteBuffer, Owned)];
  (** manifest.h:849. *)
  decl eg_election_manifest_to_msgpack
    [Ptr c_eg_election_manifest_t; Ptr (Ptr c_uint8_t); Ptr c_uint64_t]
    [given Manifest Borrow]
    [(ByteBuffer, Owned)];
  (** manifest.h:873. *)
  decl eg_internal_manifest_new
    [Ptr c_eg_election_manifest_t; Ptr (Ptr c_eg_internal_manifest_t)]
    [given Manifest Borrow]
    [(InternalManifest, Owned)];
  (** manifest.h:876. *)
  decl eg_internal_manifest_free
    [Ptr c_eg_internal_manifest_t]
    [given InternalManifest Free]
    [];
  (** manifest.h:884. *)
  decl eg_internal_manifest_get_manifest_hash
    [Ptr c_eg_internal_manifest_t; Ptr (Ptr c_eg_element_mod_q_t)]
    [given InternalManifest Borrow]
    [(ElementModQ, Reference)];
  (** manifest.h:887. *)
  decl eg_internal_manifest_get_geopolitical_units_size
    [Ptr c_eg_internal_manifest_t]
    [given InternalManifest Borrow]
    [];
  (** manifest.h:889. *)
  decl eg_internal_manifest_get_geopolitical_unit_at_index
    [Ptr c_eg_internal_manifest_t; c_uint64_t; Ptr (Ptr c_eg_geopolitical_unit_t)]
    [given InternalManifest Borrow]
    [(GeopoliticalUnit, Reference)];
  (** manifest.h:892. *)
  decl eg_internal_manifest_get_contests_size
    [Ptr c_eg_internal_manifest_t]
    [given InternalManifest Borrow]
    [];
  (** manifest.h:894. *)
  decl eg_internal_manifest_get_contest_at_index
    [Ptr c_eg_internal_manifest_t; c_uint64_t; Ptr (Ptr c_eg_contest_description_with_placeholders_t)]
    [given InternalManifest Borrow]
    [(ContestDescriptionWithPlaceholders, Reference)];
  (** manifest.h:898. *)
  decl eg_internal_manifest_get_ballot_styles_size
    [Ptr c_eg_internal_manifest_t]
    [given InternalManifest Borrow]
    [];
  (** manifest.h:900. *)
  decl eg_internal_manifest_get_ballot_style_at_index
    [Ptr c_eg_internal_manifest_t; c_uint64_t; Ptr (Ptr c_eg_ballot_style_t)]
    [given InternalManifest Borrow]
    [(BallotStyle, Reference)];
  (** manifest.h:903. *)
  decl eg_internal_manifest_get_ballot_style
    [Ptr c_eg_internal_manifest_t; Ptr c_char; Ptr (Ptr c_eg_ballot_style_t)]
    [given InternalManifest Borrow]
    [(BallotStyle, Reference)];
  (** manifest.h:907. *)
  decl eg_internal_manifest_from_json
    [Ptr c_char; Ptr (Ptr c_eg_internal_manifest_t)]
    []
    [(InternalManifest, Owned)];
  (** manifest.h:910. *)
  decl eg_internal_manifest_from_bson
    [Ptr c_uint8_t; c_uint64_t; Ptr (Ptr c_eg_internal_manifest_t)]
    []
    [(InternalManifest, Owned)];
  (** manifest.h:913. *)
  decl eg_internal_manifest_from_msgpack
    [Ptr c_uint8_t; c_uint64_t; Ptr (Ptr c_eg_internal_manifest_t)]
    []
    [(InternalManifest, Owned)];
  (** manifest.h:916. *)
  decl eg_internal_manifest_to_json
    [Ptr c_eg_internal_manifest_t; Ptr (Ptr c_char); Ptr c_uint64_t]
    [given InternalManifest Borrow]
    [(Text, Owned)];
  (** manifest.h:920. *)
  decl eg_internal_manifest_to_bson
    [Ptr c_eg_internal_manifest_t; Ptr (Ptr c_uint8_t); Ptr c_uint64_t]
    [given InternalManifest Borrow]
    [(ByteBuffer, Owned)];
  (** manifest.h:924. *)
  decl eg_internal_manifest_to_msgpack
    [Ptr c_eg_internal_manifest_t; Ptr (Ptr c_uint8_t); Ptr c_uint64_t]
    [given InternalManifest Borrow]
    [(ByteBuffer, Owned)]
].
