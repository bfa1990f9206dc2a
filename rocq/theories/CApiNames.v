(** Numbers for the functions and the C types of the interface, so that names can be
    compared quickly.  Written by tools/capi.py. *)
From Coq Require Import PArith.
Definition name := positive.
(** The C types: a named type, a pointer to a type, or a const one. *)
Inductive ctype := Base (n : positive) | Ptr (t : ctype) | Const (t : ctype).
Fixpoint ctype_eqb (a b : ctype) : bool :=
  match a, b with
  | Base n, Base m => Pos.eqb n m
  | Ptr x, Ptr y | Const x, Const y => ctype_eqb x y
  | _, _ => false
  end.
Definition c_char : ctype := Base 1.
Definition c_uint64_t : ctype := Base 2.
Definition c_eg_extended_data_t : ctype := Base 3.
Definition c_bool : ctype := Base 4.
Definition c_eg_plaintext_ballot_selection_t : ctype := Base 5.
Definition c_eg_ciphertext_ballot_selection_t : ctype := Base 6.
Definition c_eg_element_mod_q_t : ctype := Base 7.
Definition c_eg_elgamal_ciphertext_t : ctype := Base 8.
Definition c_eg_disjunctive_chaum_pedersen_proof_t : ctype := Base 9.
Definition c_eg_element_mod_p_t : ctype := Base 10.
Definition c_eg_plaintext_ballot_contest_t : ctype := Base 11.
Definition c_eg_ciphertext_ballot_contest_t : ctype := Base 12.
Definition c_eg_plaintext_ballot_t : ctype := Base 13.
Definition c_uint8_t : ctype := Base 14.
Definition c_eg_ciphertext_ballot_t : ctype := Base 15.
Definition c_eg_submitted_ballot_t : ctype := Base 16.
Definition c_eg_ballot_box_state_t : ctype := Base 17.
Definition c_eg_compact_plaintext_ballot_t : ctype := Base 18.
Definition c_eg_compact_ciphertext_ballot_t : ctype := Base 19.
Definition c_eg_constant_chaum_pedersen_proof_t : ctype := Base 20.
Definition c_eg_context_configuration_t : ctype := Base 21.
Definition c_eg_ciphertext_election_context_t : ctype := Base 22.
Definition c_eg_linked_list_t : ctype := Base 23.
Definition c_eg_elgamal_keypair_t : ctype := Base 24.
Definition c_eg_encryption_device_t : ctype := Base 25.
Definition c_eg_internal_manifest_t : ctype := Base 26.
Definition c_eg_encryption_mediator_t : ctype := Base 27.
Definition c_eg_selection_description_t : ctype := Base 28.
Definition c_eg_contest_description_with_placeholders_t : ctype := Base 29.
Definition c_int : ctype := Base 30.
Definition c_eg_annotated_string_t : ctype := Base 31.
Definition c_eg_language_t : ctype := Base 32.
Definition c_eg_internationalized_text_t : ctype := Base 33.
Definition c_eg_contact_information_t : ctype := Base 34.
Definition c_eg_reporting_unit_type_t : ctype := Base 35.
Definition c_eg_geopolitical_unit_t : ctype := Base 36.
Definition c_eg_ballot_style_t : ctype := Base 37.
Definition c_eg_party_t : ctype := Base 38.
Definition c_eg_candidate_t : ctype := Base 39.
Definition c_eg_vote_variation_type_t : ctype := Base 40.
Definition c_eg_contest_description_t : ctype := Base 41.
Definition c_eg_election_type_t : ctype := Base 42.
Definition c_eg_election_manifest_t : ctype := Base 43.
Definition eg_extended_data_new : name := 1%positive.
Definition eg_extended_data_free : name := 2%positive.
Definition eg_extended_data_get_value : name := 3%positive.
Definition eg_extended_data_get_length : name := 4%positive.
Definition eg_plaintext_ballot_selection_new : name := 5%positive.
Definition eg_plaintext_ballot_selection_new_with_write_in : name := 6%positive.
Definition eg_plaintext_ballot_selection_free : name := 7%positive.
Definition eg_plaintext_ballot_selection_get_object_id : name := 8%positive.
Definition eg_plaintext_ballot_selection_get_vote : name := 9%positive.
Definition eg_plaintext_ballot_selection_get_is_placeholder : name := 10%positive.
Definition eg_plaintext_ballot_selection_get_write_in : name := 11%positive.
Definition eg_plaintext_ballot_selection_is_valid : name := 12%positive.
Definition eg_ciphertext_ballot_selection_free : name := 13%positive.
Definition eg_ciphertext_ballot_selection_get_object_id : name := 14%positive.
Definition eg_ciphertext_ballot_selection_get_sequence_order : name := 15%positive.
Definition eg_ciphertext_ballot_selection_get_description_hash : name := 16%positive.
Definition eg_ciphertext_ballot_selection_get_is_placeholder : name := 17%positive.
Definition eg_ciphertext_ballot_selection_get_ciphertext : name := 18%positive.
Definition eg_ciphertext_ballot_selection_get_crypto_hash : name := 19%positive.
Definition eg_ciphertext_ballot_selection_get_nonce : name := 20%positive.
Definition eg_ciphertext_ballot_selection_get_proof : name := 21%positive.
Definition eg_ciphertext_ballot_selection_crypto_hash_with : name := 22%positive.
Definition eg_ciphertext_ballot_selection_is_valid_encryption : name := 23%positive.
Definition eg_plaintext_ballot_contest_new : name := 24%positive.
Definition eg_plaintext_ballot_contest_free : name := 25%positive.
Definition eg_plaintext_ballot_contest_get_object_id : name := 26%positive.
Definition eg_plaintext_ballot_contest_get_selections_size : name := 27%positive.
Definition eg_plaintext_ballot_contest_get_selection_at_index : name := 28%positive.
Definition eg_plaintext_ballot_contest_is_valid : name := 29%positive.
Definition eg_ciphertext_ballot_contest_free : name := 30%positive.
Definition eg_ciphertext_ballot_contest_get_object_id : name := 31%positive.
Definition eg_ciphertext_ballot_contest_get_sequence_order : name := 32%positive.
Definition eg_ciphertext_ballot_contest_get_description_hash : name := 33%positive.
Definition eg_ciphertext_ballot_contest_get_selections_size : name := 34%positive.
Definition eg_ciphertext_ballot_contest_get_selection_at_index : name := 35%positive.
Definition eg_ciphertext_ballot_contest_get_nonce : name := 36%positive.
Definition eg_ciphertext_ballot_contest_get_ciphertext_accumulation : name := 37%positive.
Definition eg_ciphertext_ballot_contest_get_crypto_hash : name := 38%positive.
Definition eg_ciphertext_ballot_contest_get_proof : name := 39%positive.
Definition eg_ciphertext_ballot_contest_crypto_hash_with : name := 40%positive.
Definition eg_ciphertext_ballot_contest_aggregate_nonce : name := 41%positive.
Definition eg_ciphertext_ballot_contest_elgamal_accumulate : name := 42%positive.
Definition eg_ciphertext_ballot_contest_is_valid_encryption : name := 43%positive.
Definition eg_plaintext_ballot_new : name := 44%positive.
Definition eg_plaintext_ballot_free : name := 45%positive.
Definition eg_plaintext_ballot_get_object_id : name := 46%positive.
Definition eg_plaintext_ballot_get_style_id : name := 47%positive.
Definition eg_plaintext_ballot_get_contests_size : name := 48%positive.
Definition eg_plaintext_ballot_get_contest_at_index : name := 49%positive.
Definition eg_plaintext_ballot_from_json : name := 50%positive.
Definition eg_plaintext_ballot_from_bson : name := 51%positive.
Definition eg_plaintext_ballot_from_msgpack : name := 52%positive.
Definition eg_plaintext_ballot_to_json : name := 53%positive.
Definition eg_plaintext_ballot_to_bson : name := 54%positive.
Definition eg_plaintext_ballot_to_msgpack : name := 55%positive.
Definition eg_ciphertext_ballot_free : name := 56%positive.
Definition eg_ciphertext_ballot_get_object_id : name := 57%positive.
Definition eg_ciphertext_ballot_get_style_id : name := 58%positive.
Definition eg_ciphertext_ballot_get_manifest_hash : name := 59%positive.
Definition eg_ciphertext_ballot_get_ballot_code_seed : name := 60%positive.
Definition eg_ciphertext_ballot_get_contests_size : name := 61%positive.
Definition eg_ciphertext_ballot_get_contest_at_index : name := 62%positive.
Definition eg_ciphertext_ballot_get_ballot_code : name := 63%positive.
Definition eg_ciphertext_ballot_get_timestamp : name := 64%positive.
Definition eg_ciphertext_ballot_get_nonce : name := 65%positive.
Definition eg_ciphertext_ballot_get_crypto_hash : name := 66%positive.
Definition eg_ciphertext_ballot_crypto_hash_with : name := 67%positive.
Definition eg_ciphertext_ballot_is_valid_encryption : name := 68%positive.
Definition eg_ciphertext_ballot_from_json : name := 69%positive.
Definition eg_ciphertext_ballot_from_bson : name := 70%positive.
Definition eg_ciphertext_ballot_from_msgpack : name := 71%positive.
Definition eg_ciphertext_ballot_to_json : name := 72%positive.
Definition eg_ciphertext_ballot_to_json_with_nonces : name := 73%positive.
Definition eg_ciphertext_ballot_to_bson : name := 74%positive.
Definition eg_ciphertext_ballot_to_bson_with_nonces : name := 75%positive.
Definition eg_ciphertext_ballot_to_msgpack : name := 76%positive.
Definition eg_ciphertext_ballot_to_msgpack_with_nonces : name := 77%positive.
Definition eg_submitted_ballot_free : name := 78%positive.
Definition eg_submitted_ballot_get_state : name := 79%positive.
Definition eg_submitted_ballot_from : name := 80%positive.
Definition eg_submitted_ballot_from_json : name := 81%positive.
Definition eg_submitted_ballot_from_bson : name := 82%positive.
Definition eg_submitted_ballot_from_msgpack : name := 83%positive.
Definition eg_submitted_ballot_to_json : name := 84%positive.
Definition eg_submitted_ballot_to_bson : name := 85%positive.
Definition eg_submitted_ballot_to_msgpack : name := 86%positive.
Definition eg_ballot_code_get_hash_for_device : name := 87%positive.
Definition eg_ballot_code_get_ballot_code : name := 88%positive.
Definition eg_compact_plaintext_ballot_free : name := 89%positive.
Definition eg_compact_plaintext_ballot_from_msgpack : name := 90%positive.
Definition eg_compact_plaintext_ballot_to_msgpack : name := 91%positive.
Definition eg_compact_plaintext_ballot_msgpack_free : name := 92%positive.
Definition eg_compact_ciphertext_ballot_free : name := 93%positive.
Definition eg_compact_ciphertext_ballot_get_object_id : name := 94%positive.
Definition eg_compact_ciphertext_ballot_from_msgpack : name := 95%positive.
Definition eg_compact_ciphertext_ballot_to_msgpack : name := 96%positive.
Definition eg_compact_ciphertext_ballot_msgpack_free : name := 97%positive.
Definition eg_free_int_ptr : name := 98%positive.
Definition eg_delete_int_ptr : name := 99%positive.
Definition eg_disjunctive_chaum_pedersen_proof_free : name := 100%positive.
Definition eg_disjunctive_chaum_pedersen_proof_get_zero_pad : name := 101%positive.
Definition eg_disjunctive_chaum_pedersen_proof_get_zero_data : name := 102%positive.
Definition eg_disjunctive_chaum_pedersen_proof_get_one_pad : name := 103%positive.
Definition eg_disjunctive_chaum_pedersen_proof_get_one_data : name := 104%positive.
Definition eg_disjunctive_chaum_pedersen_proof_get_zero_challenge : name := 105%positive.
Definition eg_disjunctive_chaum_pedersen_proof_get_one_challenge : name := 106%positive.
Definition eg_disjunctive_chaum_pedersen_proof_get_challenge : name := 107%positive.
Definition eg_disjunctive_chaum_pedersen_proof_get_zero_response : name := 108%positive.
Definition eg_disjunctive_chaum_pedersen_proof_get_one_response : name := 109%positive.
Definition eg_disjunctive_chaum_pedersen_proof_make : name := 110%positive.
Definition eg_disjunctive_chaum_pedersen_proof_make_deterministic : name := 111%positive.
Definition eg_disjunctive_chaum_pedersen_proof_is_valid : name := 112%positive.
Definition eg_constant_chaum_pedersen_proof_free : name := 113%positive.
Definition eg_constant_chaum_pedersen_proof_get_pad : name := 114%positive.
Definition eg_constant_chaum_pedersen_proof_get_data : name := 115%positive.
Definition eg_constant_chaum_pedersen_proof_get_challenge : name := 116%positive.
Definition eg_constant_chaum_pedersen_proof_get_response : name := 117%positive.
Definition eg_constant_chaum_pedersen_proof_make : name := 118%positive.
Definition eg_constant_chaum_pedersen_proof_is_valid : name := 119%positive.
Definition eg_ciphertext_election_context_config_get_allowed_overvotes : name := 120%positive.
Definition eg_ciphertext_election_context_config_get_max_ballots : name := 121%positive.
Definition eg_ciphertext_election_context_config_free : name := 122%positive.
Definition eg_ciphertext_election_context_config_make : name := 123%positive.
Definition eg_ciphertext_election_context_free : name := 124%positive.
Definition eg_ciphertext_election_context_get_elgamal_public_key : name := 125%positive.
Definition eg_ciphertext_election_context_get_configuration : name := 126%positive.
Definition eg_ciphertext_election_context_get_commitment_hash : name := 127%positive.
Definition eg_ciphertext_election_context_get_manifest_hash : name := 128%positive.
Definition eg_ciphertext_election_context_get_crypto_base_hash : name := 129%positive.
Definition eg_ciphertext_election_context_get_crypto_extended_base_hash : name := 130%positive.
Definition eg_ciphertext_election_context_get_extended_data : name := 131%positive.
Definition eg_ciphertext_election_context_make : name := 132%positive.
Definition eg_ciphertext_election_context_make_with_configuration : name := 133%positive.
Definition eg_ciphertext_election_context_make_with_extended_data : name := 134%positive.
Definition eg_ciphertext_election_context_make_with_configuration_and_extended_data : name := 135%positive.
Definition eg_ciphertext_election_context_make_from_hex : name := 136%positive.
Definition eg_ciphertext_election_context_make_from_hex_with_extended_data : name := 137%positive.
Definition eg_ciphertext_election_context_from_json : name := 138%positive.
Definition eg_ciphertext_election_context_from_bson : name := 139%positive.
Definition eg_ciphertext_election_context_to_json : name := 140%positive.
Definition eg_ciphertext_election_context_to_bson : name := 141%positive.
Definition eg_elgamal_keypair_from_secret_new : name := 142%positive.
Definition eg_elgamal_keypair_free : name := 143%positive.
Definition eg_elgamal_keypair_get_secret_key : name := 144%positive.
Definition eg_elgamal_keypair_get_public_key : name := 145%positive.
Definition eg_elgamal_ciphertext_free : name := 146%positive.
Definition eg_elgamal_ciphertext_get_pad : name := 147%positive.
Definition eg_elgamal_ciphertext_get_data : name := 148%positive.
Definition eg_elgamal_ciphertext_crypto_hash : name := 149%positive.
Definition eg_elgamal_ciphertext_decrypt_with_secret : name := 150%positive.
Definition eg_elgamal_encrypt : name := 151%positive.
Definition eg_encryption_device_new : name := 152%positive.
Definition eg_encryption_device_free : name := 153%positive.
Definition eg_encryption_device_get_hash : name := 154%positive.
Definition eg_encryption_device_from_json : name := 155%positive.
Definition eg_encryption_device_to_json : name := 156%positive.
Definition eg_encryption_mediator_new : name := 157%positive.
Definition eg_encryption_mediator_free : name := 158%positive.
Definition eg_encryption_mediator_encrypt_ballot : name := 159%positive.
Definition eg_encryption_mediator_compact_encrypt_ballot : name := 160%positive.
Definition eg_encryption_mediator_compact_encrypt_ballot_verify_proofs : name := 161%positive.
Definition eg_encryption_mediator_encrypt_ballot_verify_proofs : name := 162%positive.
Definition eg_encrypt_selection : name := 163%positive.
Definition eg_encrypt_contest : name := 164%positive.
Definition eg_encrypt_ballot : name := 165%positive.
Definition eg_encrypt_ballot_with_nonce : name := 166%positive.
Definition eg_encrypt_compact_ballot : name := 167%positive.
Definition eg_encrypt_compact_ballot_with_nonce : name := 168%positive.
Definition eg_precompute_init : name := 169%positive.
Definition eg_precompute_populate : name := 170%positive.
Definition eg_precompute_stop : name := 171%positive.
Definition eg_precompute_status : name := 172%positive.
Definition eg_element_mod_p_new : name := 173%positive.
Definition eg_element_mod_p_new_unchecked : name := 174%positive.
Definition eg_element_mod_p_free : name := 175%positive.
Definition eg_element_mod_p_get_data : name := 176%positive.
Definition eg_element_mod_p_to_hex : name := 177%positive.
Definition eg_element_mod_q_new : name := 178%positive.
Definition eg_element_mod_q_new_unchecked : name := 179%positive.
Definition eg_element_mod_q_free : name := 180%positive.
Definition eg_element_mod_q_get_data : name := 181%positive.
Definition eg_element_mod_q_to_hex : name := 182%positive.
Definition eg_element_mod_q_from_hex : name := 183%positive.
Definition eg_element_mod_q_from_hex_unchecked : name := 184%positive.
Definition eg_element_mod_p_constant_g : name := 185%positive.
Definition eg_element_mod_p_constant_p : name := 186%positive.
Definition eg_element_mod_p_constant_r : name := 187%positive.
Definition eg_element_mod_p_constant_zero_mod_p : name := 188%positive.
Definition eg_element_mod_p_constant_one_mod_p : name := 189%positive.
Definition eg_element_mod_p_constant_two_mod_p : name := 190%positive.
Definition eg_element_mod_q_constant_q : name := 191%positive.
Definition eg_element_mod_q_constant_zero_mod_q : name := 192%positive.
Definition eg_element_mod_q_constant_one_mod_q : name := 193%positive.
Definition eg_element_mod_q_constant_two_mod_q : name := 194%positive.
Definition eg_element_mod_q_pow_mod_p : name := 195%positive.
Definition eg_element_mod_q_rand_q_new : name := 196%positive.
Definition eg_constant_to_json : name := 197%positive.
Definition eg_hash_elems_string : name := 198%positive.
Definition eg_hash_elems_strings : name := 199%positive.
Definition eg_hash_elems_int : name := 200%positive.
Definition eg_annotated_string_new : name := 201%positive.
Definition eg_annotated_string_free : name := 202%positive.
Definition eg_annotated_string_get_annotation : name := 203%positive.
Definition eg_annotated_string_get_value : name := 204%positive.
Definition eg_annotated_string_crypto_hash : name := 205%positive.
Definition eg_language_new : name := 206%positive.
Definition eg_language_free : name := 207%positive.
Definition eg_language_get_value : name := 208%positive.
Definition eg_language_get_language : name := 209%positive.
Definition eg_language_crypto_hash : name := 210%positive.
Definition eg_internationalized_text_new : name := 211%positive.
Definition eg_internationalized_text_free : name := 212%positive.
Definition eg_internationalized_text_get_text_size : name := 213%positive.
Definition eg_internationalized_text_get_text_at_index : name := 214%positive.
Definition eg_intertnationalized_text_crypto_hash : name := 215%positive.
Definition eg_contact_information_new : name := 216%positive.
Definition eg_contact_information_new_with_collections : name := 217%positive.
Definition eg_contact_information_free : name := 218%positive.
Definition eg_contact_information_get_address_line_size : name := 219%positive.
Definition eg_contact_information_get_address_line_at_index : name := 220%positive.
Definition eg_contact_information_get_email_line_size : name := 221%positive.
Definition eg_contact_information_get_email_line_at_index : name := 222%positive.
Definition eg_contact_information_get_phone_line_size : name := 223%positive.
Definition eg_contact_information_get_phone_line_at_index : name := 224%positive.
Definition eg_contact_information_get_name : name := 225%positive.
Definition eg_contact_information_crypto_hash : name := 226%positive.
Definition eg_geopolitical_unit_new : name := 227%positive.
Definition eg_geopolitical_unit_new_with_contact_info : name := 228%positive.
Definition eg_geopolitical_unit_free : name := 229%positive.
Definition eg_geopolitical_unit_get_object_id : name := 230%positive.
Definition eg_geopolitical_unit_get_name : name := 231%positive.
Definition eg_geopolitical_unit_crypto_hash : name := 232%positive.
Definition eg_ballot_style_new : name := 233%positive.
Definition eg_ballot_style_new_with_parties : name := 234%positive.
Definition eg_ballot_style_free : name := 235%positive.
Definition eg_ballot_style_get_object_id : name := 236%positive.
Definition eg_ballot_style_get_geopolitical_unit_ids_size : name := 237%positive.
Definition eg_ballot_style_get_geopolitical_unit_id_at_index : name := 238%positive.
Definition eg_ballot_style_get_party_ids_size : name := 239%positive.
Definition eg_ballot_style_get_party_id_at_index : name := 240%positive.
Definition eg_ballot_style_get_image_uri : name := 241%positive.
Definition eg_ballot_style_crypto_hash : name := 242%positive.
Definition eg_party_new : name := 243%positive.
Definition eg_party_new_with_extras : name := 244%positive.
Definition eg_party_free : name := 245%positive.
Definition eg_party_get_object_id : name := 246%positive.
Definition eg_party_get_abbreviation : name := 247%positive.
Definition eg_party_get_name : name := 248%positive.
Definition eg_party_get_color : name := 249%positive.
Definition eg_party_get_logo_uri : name := 250%positive.
Definition eg_party_crypto_hash : name := 251%positive.
Definition eg_candidate_new : name := 252%positive.
Definition eg_candidate_new_with_party : name := 253%positive.
Definition eg_candidate_new_with_extras : name := 254%positive.
Definition eg_candidate_free : name := 255%positive.
Definition eg_candidate_get_object_id : name := 256%positive.
Definition eg_candidate_get_candidate_id : name := 257%positive.
Definition eg_candidate_get_name : name := 258%positive.
Definition eg_candidate_get_party_id : name := 259%positive.
Definition eg_candidate_get_image_uri : name := 260%positive.
Definition eg_candidate_get_is_write_in : name := 261%positive.
Definition eg_candidate_crypto_hash : name := 262%positive.
Definition eg_selection_description_new : name := 263%positive.
Definition eg_selection_description_free : name := 264%positive.
Definition eg_selection_description_get_object_id : name := 265%positive.
Definition eg_selection_description_get_candidate_id : name := 266%positive.
Definition eg_selection_description_get_sequence_order : name := 267%positive.
Definition eg_selection_description_crypto_hash : name := 268%positive.
Definition eg_contest_description_new : name := 269%positive.
Definition eg_contest_description_new_with_title : name := 270%positive.
Definition eg_contest_description_new_with_parties : name := 271%positive.
Definition eg_contest_description_new_with_title_and_parties : name := 272%positive.
Definition eg_contest_description_free : name := 273%positive.
Definition eg_contest_description_get_object_id : name := 274%positive.
Definition eg_contest_description_get_electoral_district_id : name := 275%positive.
Definition eg_contest_description_get_sequence_order : name := 276%positive.
Definition eg_contest_description_get_vote_variation : name := 277%positive.
Definition eg_contest_description_get_number_elected : name := 278%positive.
Definition eg_contest_description_get_votes_allowed : name := 279%positive.
Definition eg_contest_description_get_name : name := 280%positive.
Definition eg_contest_description_get_ballot_title : name := 281%positive.
Definition eg_contest_description_get_ballot_subtitle : name := 282%positive.
Definition eg_contest_description_get_selections_size : name := 283%positive.
Definition eg_contest_description_get_selection_at_index : name := 284%positive.
Definition eg_contest_description_crypto_hash : name := 285%positive.
Definition eg_contest_description_with_placeholders_new : name := 286%positive.
Definition eg_contest_description_with_placeholders_new_with_title : name := 287%positive.
Definition eg_contest_description_with_placeholders_new_with_parties : name := 288%positive.
Definition eg_contest_description_with_placeholders_new_with_title_and_parties : name := 289%positive.
Definition eg_contest_description_with_placeholders_free : name := 290%positive.
Definition eg_contest_description_with_placeholders_get_placeholders_size : name := 291%positive.
Definition eg_contest_description_with_placeholders_get_placeholder_at_index : name := 292%positive.
Definition eg_contest_description_with_placeholders_is_placeholder : name := 293%positive.
Definition eg_contest_description_with_placeholders_selection_for_id : name := 294%positive.
Definition eg_election_manifest_new : name := 295%positive.
Definition eg_election_manifest_new_with_contact : name := 296%positive.
Definition eg_election_manifest_free : name := 297%positive.
Definition eg_election_manifest_get_election_scope_id : name := 298%positive.
Definition eg_election_manifest_get_type : name := 299%positive.
Definition eg_election_manifest_get_start_date : name := 300%positive.
Definition eg_election_manifest_get_end_date : name := 301%positive.
Definition eg_election_manifest_get_geopolitical_units_size : name := 302%positive.
Definition eg_election_manifest_get_geopolitical_unit_at_index : name := 303%positive.
Definition eg_election_manifest_get_parties_size : name := 304%positive.
Definition eg_election_manifest_get_party_at_index : name := 305%positive.
Definition eg_election_manifest_get_candidates_size : name := 306%positive.
Definition eg_election_manifest_get_candidate_at_index : name := 307%positive.
Definition eg_election_manifest_get_contests_size : name := 308%positive.
Definition eg_election_manifest_get_contest_at_index : name := 309%positive.
Definition eg_election_manifest_get_ballot_styles_size : name := 310%positive.
Definition eg_election_manifest_get_ballot_style_at_index : name := 311%positive.
Definition eg_election_manifest_get_name : name := 312%positive.
Definition eg_election_manifest_get_contact_info : name := 313%positive.
Definition eg_election_manifest_crypto_hash : name := 314%positive.
Definition eg_election_manifest_is_valid : name := 315%positive.
Definition eg_election_manifest_from_json : name := 316%positive.
Definition eg_election_manifest_from_bson : name := 317%positive.
Definition eg_election_manifest_from_msgpack : name := 318%positive.
Definition eg_election_manifest_to_json : name := 319%positive.
Definition eg_election_manifest_to_bson : name := 320%positive.
Definition eg_election_manifest_to_msgpack : name := 321%positive.
Definition eg_internal_manifest_new : name := 322%positive.
Definition eg_internal_manifest_free : name := 323%positive.
Definition eg_internal_manifest_get_manifest_hash : name := 324%positive.
Definition eg_internal_manifest_get_geopolitical_units_size : name := 325%positive.
Definition eg_internal_manifest_get_geopolitical_unit_at_index : name := 326%positive.
Definition eg_internal_manifest_get_contests_size : name := 327%positive.
Definition eg_internal_manifest_get_contest_at_index : name := 328%positive.
Definition eg_internal_manifest_get_ballot_styles_size : name := 329%positive.
Definition eg_internal_manifest_get_ballot_style_at_index : name := 330%positive.
Definition eg_internal_manifest_get_ballot_style : name := 331%positive.
Definition eg_internal_manifest_from_json : name := 332%positive.
Definition eg_internal_manifest_from_bson : name := 333%positive.
Definition eg_internal_manifest_from_msgpack : name := 334%positive.
Definition eg_internal_manifest_to_json : name := 335%positive.
Definition eg_internal_manifest_to_bson : name := 336%positive.
Definition eg_internal_manifest_to_msgpack : name := 337%positive.
Definition eg_linked_list_new : name := 338%positive.
Definition eg_linked_list_free : name := 339%positive.
Definition eg_linked_list_append : name := 340%positive.
Definition eg_linked_list_delete_last : name := 341%positive.
Definition eg_linked_list_get_count : name := 342%positive.
Definition eg_linked_list_get_element_at : name := 343%positive.
Definition eg_linked_list_get_value_at : name := 344%positive.
Definition eg_plaintext_ballot_selection_new_with_extended_data : name := 345%positive.
Definition eg_plaintext_ballot_selection_get_extended_data : name := 346%positive.
Definition read_text : name := 347%positive.
Definition read_bytes : name := 348%positive.
Definition read_words : name := 349%positive.
