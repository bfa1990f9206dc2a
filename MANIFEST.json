{
 "claims": [
  {
   "property": "C01",
   "status": "proved",
   "theorems": [
    "C01_add_mod_q",
    "C01_add_mod_q_list",
    "C01_add_mod_q_list_order",
    "C01_add_mod_q_list_throws",
    "C01_limbs_add_mod_q"
   ],
   "note": ""
  },
  {
   "property": "C02",
   "status": "proved",
   "theorems": [
    "C02_sub_mod_q",
    "C02_a_plus_bc",
    "C02_sub_from_q",
    "C02_limbs_sub_mod_q",
    "C02_limbs_a_plus_bc",
    "C02_limbs_sub_from_q"
   ],
   "note": ""
  },
  {
   "property": "C03",
   "status": "partial",
   "theorems": [
    "C03_add_every_operand_refuted",
    "C03_hash_all_ones_refuted",
    "C03_sub_every_operand_refuted",
    "C03_add_partial",
    "C03_sub_partial",
    "C03_limbs_add_every_operand",
    "C03_limbs_refuted"
   ],
   "note": "False of the code as stated (witnesses in the _refuted theorems); proved whenever there is no carry/borrow and the sum is not 2^256-1."
  },
  {
   "property": "C04",
   "status": "proved",
   "theorems": [
    "C04_mul_mod_p",
    "C04_mul_mod_p_list",
    "C04_mul_mod_p_list_order",
    "C04_limbs_mul_mod_p"
   ],
   "note": ""
  },
  {
   "property": "C05",
   "status": "proved",
   "theorems": [
    "C05_pow_mod_p",
    "C05_pow_mod_p_fixed",
    "C05_paths_agree",
    "C05_limbs_pow_mod_p",
    "C05_limbs_table"
   ],
   "note": ""
  },
  {
   "property": "C06",
   "status": "partial",
   "theorems": [
    "C06_pow_mod_p_big_exponent_refuted",
    "C06_pow_mod_p_partial",
    "C06_pow_mod_p_truncates",
    "C06_limbs_pow_mod_p_truncates"
   ],
   "note": "False of the code: only the low 512 bits of the exponent are used; proved for exponents below 2^512 and the exact value for all others."
  },
  {
   "property": "C07",
   "status": "partial",
   "theorems": [
    "C07_add_mod_p_out_of_bounds_refuted",
    "C07_mod_p_out_of_bounds_refuted",
    "C07_add_mod_p_partial",
    "C07_add_mod_p_ub"
   ],
   "note": "False of the code: add_mod_p reads out of bounds when the sum reaches 2^4096-1, mod_p always; proved for the remaining sums."
  },
  {
   "property": "C08",
   "status": "partial",
   "theorems": [
    "C08_modulus_accepted_refuted",
    "C08_limbs_p_partial",
    "C08_limbs_q_partial",
    "C08_bytes_p_partial",
    "C08_bytes_q_partial",
    "C08_hex_p_partial",
    "C08_hex_q_partial",
    "C08_long_vector_refuted",
    "C08_limbs_bytes_p",
    "C08_limbs_bytes_q"
   ],
   "note": "False at the modulus itself (accepted) and for over-long limb vectors; exact acceptance set proved for limbs, integers, bytes and hex strings of non-zero value."
  },
  {
   "property": "C09",
   "status": "partial",
   "theorems": [
    "C09_zero_hex_refuted",
    "C09_hex_roundtrip_p_partial",
    "C09_hex_roundtrip_q_partial",
    "C09_bytes_roundtrip_p",
    "C09_bytes_roundtrip_q",
    "C09_hex_injective_p",
    "C09_hex_injective_q",
    "C09_limbs_roundtrip_p",
    "C09_limbs_roundtrip_q"
   ],
   "note": "False for hex of zero (fromHex throws); proved for all other values, bytes round trip and injectivity proved without exception."
  },
  {
   "property": "C10",
   "status": "proved",
   "theorems": [
    "C10_in_bounds",
    "C10_valid_residue",
    "C10_limbs_compare",
    "C10_limbs_valid_residue"
   ],
   "note": ""
  },
  {
   "property": "C11",
   "status": "proved",
   "theorems": [
    "C11_add",
    "C11_sub",
    "C11_mul",
    "C11_sqr",
    "C11_karatsuba_mul",
    "C11_karatsuba_sqr",
    "C11_compare",
    "C11_from_bytes",
    "C11_to_bytes",
    "C11_bytes_roundtrip"
   ],
   "note": ""
  },
  {
   "property": "C12",
   "status": "proved",
   "theorems": [
    "C12_context",
    "C12_reduction",
    "C12_mod_precomp",
    "C12_mod"
   ],
   "note": ""
  },
  {
   "property": "C13",
   "status": "proved",
   "theorems": [
    "C13_exponentiation",
    "C13_precomp_vartime",
    "C13_precomp_consttime",
    "C13_algorithms_agree",
    "C13_inverse",
    "C13_inverse_prime"
   ],
   "note": ""
  },
  {
   "property": "C14",
   "status": "proved",
   "theorems": [
    "C14_constants",
    "C14_arrays",
    "C14_generator_order"
   ],
   "note": ""
  },
  {
   "property": "C15",
   "status": "proved",
   "theorems": [
    "C15_decrypt_encrypt",
    "C15_encrypt_spec",
    "C15_decrypt_exact"
   ],
   "note": ""
  },
  {
   "property": "C16",
   "status": "partial",
   "theorems": [
    "C16_plaintext_changed_refuted",
    "C16_other_values_partial"
   ],
   "note": "False for plaintexts above 1 (encrypted as 0); faithful for 0 and 1."
  },
  {
   "property": "C17",
   "status": "proved",
   "theorems": [
    "C17_homomorphic",
    "C17_product",
    "C17_order",
    "C17_throws"
   ],
   "note": ""
  },
  {
   "property": "C18",
   "status": "proved",
   "theorems": [
    "C18_tally"
   ],
   "note": ""
  },
  {
   "property": "C19",
   "status": "partial",
   "theorems": [
    "C19_malformed_pad_refuted",
    "C19_decrypt_sound_partial"
   ],
   "note": "False for pads of P or more (reported as 0); proved sound for pads in the subgroup."
  },
  {
   "property": "C20",
   "status": "proved",
   "theorems": [
    "C20_precomputed",
    "C20_precomputed_spec"
   ],
   "note": ""
  },
  {
   "property": "C21",
   "status": "partial",
   "theorems": [
    "C21_secret_rejected",
    "C21_nonce_rejected",
    "C21_public_key",
    "C21_copy_leaves_source_refuted"
   ],
   "note": "Rejection of secrets and nonces proved; 'copy leaves the source usable' is false of the code."
  },
  {
   "property": "C22",
   "status": "partial",
   "theorems": [
    "C22_roundtrip_padded",
    "C22_roundtrip_unpadded",
    "C22_roundtrip_precomputed",
    "C22_encrypt_total",
    "C22_empty_unpadded_refuted"
   ],
   "note": "Proved for padded messages and non-empty unpadded ones; false for the empty unpadded message."
  },
  {
   "property": "C23",
   "status": "proved",
   "theorems": [
    "C23_modified_rejected",
    "C23_illegal_length",
    "C23_accepted_mac"
   ],
   "note": ""
  },
  {
   "property": "C24",
   "status": "proved",
   "theorems": [
    "C24_canonical",
    "C24_digest",
    "C24_extensional"
   ],
   "note": ""
  },
  {
   "property": "C25",
   "status": "partial",
   "theorems": [
    "C25_delimiter_refuted",
    "C25_empty_refuted",
    "C25_type_refuted",
    "C25_items_partial",
    "C25_scalars_partial"
   ],
   "note": "False in general (delimiter injection, null aliases, untyped encoding); injectivity proved for delimiter-free items of equal kinds."
  },
  {
   "property": "C26",
   "status": "partial",
   "theorems": [
    "C26_history",
    "C26_next",
    "C26_range",
    "C26_range_wrap_refuted",
    "C26_distinct"
   ],
   "note": "Proved except for ranges whose end reaches 2^64 (refuted)."
  },
  {
   "property": "C27",
   "status": "partial",
   "theorems": [
    "C27_random",
    "C27_seeded",
    "C27_precomputed",
    "C27_make_total",
    "C27_unconditional_refuted"
   ],
   "note": "Proved with the exact side condition that no scalar of the proof is zero; the unconditional claim is refuted for every hash function."
  },
  {
   "property": "C28",
   "status": "partial",
   "theorems": [
    "C28_constant",
    "C28_unconditional_refuted"
   ],
   "note": "Proved with the exact side condition that challenge and response are non-zero; refuted without it."
  },
  {
   "property": "C29",
   "status": "proved",
   "theorems": [
    "C29_special_soundness"
   ],
   "note": ""
  },
  {
   "property": "C30",
   "status": "proved",
   "theorems": [
    "C30_special_soundness"
   ],
   "note": ""
  },
  {
   "property": "C31",
   "status": "proved",
   "theorems": [
    "C31_disjunctive_iff",
    "C31_constant_iff",
    "C31_constant_out_of_range",
    "C31_scalars_determine"
   ],
   "note": ""
  },
  {
   "property": "C32",
   "status": "partial",
   "theorems": [
    "C32_clone_refuted",
    "C32_clone_partial",
    "C32_clone_elements"
   ],
   "note": "False for the disjunctive proof (clone duplicates one commitment); exact result of clone proved."
  },
  {
   "property": "C33",
   "status": "proved",
   "theorems": [
    "C33_zero_and_one_indistinguishable",
    "C33_simulated_accepted"
   ],
   "note": ""
  },
  {
   "property": "C34",
   "status": "partial",
   "theorems": [
    "C34_selection",
    "C34_contest_partial",
    "C34_contest_modular",
    "C34_wrap_refuted"
   ],
   "note": "Exact answers proved while the votes add up to less than 2^64, and the exact modular answer for all others; an overvote whose total wraps is accepted (refuted)."
  },
  {
   "property": "C35",
   "status": "proved",
   "theorems": [
    "C35_manifest_ready",
    "C35_ballot",
    "C35_contest"
   ],
   "note": ""
  },
  {
   "property": "C36",
   "status": "partial",
   "theorems": [
    "C36_verify_iff_partial",
    "C36_ballot_partial",
    "C36_parts_partial"
   ],
   "note": "Proved with the exact side condition that no challenge or response of the proofs is zero; the random source must give values below Q."
  },
  {
   "property": "C37",
   "status": "partial",
   "theorems": [
    "C37_complete_partial",
    "C37_defined",
    "C37_idempotent",
    "C37_unknown_votes_refuted",
    "C37_style_refuted"
   ],
   "note": "Completion, definedness and idempotence proved; votes for unknown contests or options are dropped without an error and an unknown style is undefined behaviour (both refuted)."
  },
  {
   "property": "C38",
   "status": "proved",
   "theorems": [
    "C38_chain",
    "C38_failures",
    "C38_responses"
   ],
   "note": ""
  },
  {
   "property": "C39",
   "status": "partial",
   "theorems": [
    "C39_reproducible",
    "C39_succeeds",
    "C39_expand",
    "C39_precomputed_refuted"
   ],
   "note": "Hashes, codes, ciphertexts reproducible without precomputed values (the random proofs are not compared); with precomputed values false (refuted)."
  },
  {
   "property": "C40",
   "status": "proved",
   "theorems": [
    "C40_roundtrip",
    "C40_expand",
    "C40_short"
   ],
   "note": "Marks of placeholder selections and surplus votes, which the statement does not cover, are lost."
  },
  {
   "property": "C41",
   "status": "partial",
   "theorems": [
    "C41_only_if_partial",
    "C41_if",
    "C41_name_clash_refuted"
   ],
   "note": "Equivalence proved when the collected names are distinct; a name clash hides an invalid proof (refuted)."
  },
  {
   "property": "C42",
   "status": "partial",
   "theorems": [
    "C42_contest",
    "C42_selection_order",
    "C42_ballot_partial",
    "C42_encrypted",
    "C42_contest_order_refuted"
   ],
   "note": "Selections: any order. Ballots: proved for contests given in ascending order (so for every encrypted ballot); false for a ballot made in another order (refuted)."
  },
  {
   "property": "C43",
   "status": "proved",
   "theorems": [
    "C43_accumulation",
    "C43_product",
    "C43_ballot"
   ],
   "note": ""
  },
  {
   "property": "C44",
   "status": "partial",
   "theorems": [
    "C44_valid_iff",
    "C44_contest_valid_iff",
    "C44_candidates_refuted",
    "C44_style_party_refuted"
   ],
   "note": "Exact characterisation of isValid proved; candidate references of selections and party references of styles are not checked (refuted)."
  },
  {
   "property": "C45",
   "status": "partial",
   "theorems": [
    "C45_contests",
    "C45_throws",
    "C45_unknown_throws",
    "C45_exactly_once_partial",
    "C45_exactly_once_refuted"
   ],
   "note": "Set, order and exceptions proved for all styles; 'exactly once' needs a style without repeated units (refuted otherwise, though such a manifest validates)."
  },
  {
   "property": "C46",
   "status": "partial",
   "theorems": [
    "C46_count",
    "C46_fresh_partial",
    "C46_sequence_refuted",
    "C46_id_refuted"
   ],
   "note": "Count proved for all contests; freshness needs sequence orders below 2^32-1, and a real selection can carry a placeholder's id (both refuted)."
  },
  {
   "property": "C47",
   "status": "partial",
   "theorems": [
    "C47_commits",
    "C47_candidates_refuted",
    "C47_dates_refuted",
    "C47_primary_refuted",
    "C47_null_refuted",
    "C47_name_ub"
   ],
   "note": "Exact equivalence proved for delimiter-free manifests; candidates, primary parties, sub-second dates and the text \"null\" are not committed to (refuted)."
  },
  {
   "property": "C48",
   "status": "partial",
   "theorems": [
    "C48_fifo",
    "C48_order",
    "C48_no_reuse",
    "C48_miss",
    "C48_progress",
    "C48_locked_no_race",
    "C48_writes_exclusive",
    "C48_race_refuted"
   ],
   "note": "Order, no reuse, misses and progress proved for every interleaving of sequentially consistent steps; populate, stop_populate and the two size getters race with the locked calls (refuted for the code, proved absent for the other calls)."
  },
  {
   "property": "C49",
   "status": "partial",
   "theorems": [
    "C49_bound",
    "C49_fills",
    "C49_stop",
    "C49_stop_returns",
    "C49_exceeds_refuted"
   ],
   "note": "Bound of max-1 plus the number of populate calls, exact fill, stopping and return proved; the configured size itself is exceeded because populate puts before it compares (refuted)."
  },
  {
   "property": "C50",
   "status": "partial",
   "theorems": [
    "C50_consistent",
    "C50_from_draws",
    "C50_key_refuted"
   ],
   "note": "Proved when all calls of populate use one key; the buffers are not tied to a key, so values of another key can be handed out (refuted)."
  },
  {
   "property": "C51",
   "status": "proved",
   "theorems": [
    "C51_fifo",
    "C51_answers",
    "C51_pushes",
    "C51_empty",
    "C51_no_race",
    "C51_progress"
   ],
   "note": ""
  },
  {
   "property": "C52",
   "status": "partial",
   "theorems": [
    "C52_all_once",
    "C52_throws",
    "C52_returns",
    "C52_in_order",
    "C52_order_refuted",
    "C52_invalid_refuted"
   ],
   "note": "Every result once, exceptions and return proved; the order is that of completion, not of the tasks, and an invalid future is polled for ever (both refuted)."
  },
  {
   "property": "C53",
   "status": "partial",
   "theorems": [
    "C53_right_table",
    "C53_progress",
    "C53_race_refuted",
    "C53_zero_refuted"
   ],
   "note": "Right table and progress proved with indivisible map operations; the code does not make them so, the semaphore excludes nobody (race refuted), and a count of 0 blocks every call."
  },
  {
   "property": "C54",
   "status": "proved",
   "theorems": [
    "C54_no_member",
    "C54_submitted_no_member",
    "C54_noninterference",
    "C54_submitted_noninterference",
    "C54_read_nonces"
   ],
   "note": ""
  },
  {
   "property": "C55",
   "status": "partial",
   "theorems": [
    "C55_plaintext",
    "C55_foreign_votes",
    "C55_device",
    "C55_context",
    "C55_ciphertext_written",
    "C55_ciphertext",
    "C55_ciphertext_exact",
    "C55_submitted",
    "C55_compact_partial",
    "C55_compact_refuted",
    "C55_compact_ciphertext",
    "C55_zero_nonce_refuted",
    "C55_zero_element_refuted",
    "C55_constants"
   ],
   "note": "False of the code for compact ballots (no compressed ballot survives), for ballots holding a zero element and for ballots read without nonces and written with them. Proved: exactly which ciphertext and submitted ballots and contexts can be read back and what is restored; plaintext ballots and devices without exception."
  },
  {
   "property": "C56",
   "status": "partial",
   "theorems": [
    "C56_exact",
    "C56_trimmed",
    "C56_mac_refuted",
    "C56_lost",
    "C56_refuted"
   ],
   "note": "False of the code: leading zero bytes are lost (witness, and no ciphertext whose MAC begins with a zero byte decrypts after reading). Proved: exactly the others survive."
  },
  {
   "property": "C57",
   "status": "partial",
   "theorems": [
    "C57_hashes",
    "C57_hex_partial",
    "C57_hex_zero_refuted",
    "C57_binds",
    "C57_key_refuted",
    "C57_mediator"
   ],
   "note": "Hashes and mediator check proved; hexadecimal overloads refuse zero and the public key is not bound (both refuted)."
  },
  {
   "property": "C58",
   "status": "partial",
   "theorems": [
    "C58_four_never_drawn_refuted",
    "C58_rand_q_image_partial",
    "C58_rand_q_range"
   ],
   "note": "False of the code: bits 2-5 and 7 are always clear; exact image proved."
  },
  {
   "property": "C59",
   "status": "partial",
   "theorems": [
    "C59_preserved_partial",
    "C59_preserved_refuted",
    "C59_title_ub"
   ],
   "note": "False of the code: votesAllowed is lost without a title and primary parties always; the preserved fields are proved."
  },
  {
   "property": "C60",
   "status": "partial",
   "theorems": [
    "C60_accepted_partial",
    "C60_any_constant",
    "C60_two_votes_refuted"
   ],
   "note": "False of the code: the constant is never compared with the manifest (refuted); proved that it is the constant of the contest's own proof."
  },
  {
   "property": "C61",
   "status": "partial",
   "theorems": [
    "C61_contest_data",
    "C61_marks_refuted"
   ],
   "note": "Proved with the exact content; an overvote with a mark above 1 does not list that option (refuted)."
  },
  {
   "property": "C62",
   "status": "proved",
   "theorems": [
    "C62_encryption_succeeds",
    "C62_refused",
    "C62_unknown_style"
   ],
   "note": ""
  },
  {
   "property": "C63",
   "status": "partial",
   "theorems": [
    "C63_order",
    "C63_all_run",
    "C63_can_end",
    "C63_no_workers_refuted",
    "C63_nested_refuted"
   ],
   "note": "Proved for tasks that submit no tasks and at least one worker; a nested submission is lost and a pool without workers never ends (both refuted)."
  },
  {
   "property": "C64",
   "status": "partial",
   "theorems": [
    "C64_at_most",
    "C64_progress",
    "C64_zero_refuted"
   ],
   "note": "Proved for every count; with count 0, which hardware_concurrency may return, nobody ever passes (refuted)."
  },
  {
   "property": "C65",
   "status": "proved",
   "theorems": [
    "C65_manifest",
    "C65_manifest_parts",
    "C65_ciphertext",
    "C65_hashed_ciphertext",
    "C65_device",
    "C65_code",
    "C65_context",
    "C65_nonces",
    "C65_disjunctive",
    "C65_constant",
    "C65_hashed_elgamal",
    "C65_ballot"
   ],
   "note": ""
  },
  {
   "property": "C66",
   "status": "partial",
   "theorems": [
    "C66_hash_commits",
    "C66_code_commits",
    "C66_encrypted",
    "C66_extended_data_refuted"
   ],
   "note": "Equivalence proved for ids without the delimiter, up to the empty/null text alias; the extended data ciphertext and the style are not committed to (refuted on an accepted ballot)."
  },
  {
   "property": "C67",
   "status": "partial",
   "theorems": [
    "C67_manifest",
    "C67_order_refuted",
    "C67_allowed_refuted",
    "C67_party_refuted",
    "C67_contact_refuted",
    "C67_titled_refuted",
    "C67_internal"
   ],
   "note": "False of the code: the hash changes for contests out of sequence order, for zero allowed votes, for parties without name and for empty contact entries; an internal manifest with a titled contest cannot be read. Proved: what is restored for every manifest, and that the hash is kept otherwise; dates through an arbitrary pair of formatting and parsing functions that restore them (C73_manifest: those of the code do)."
  },
  {
   "property": "C68",
   "status": "partial",
   "theorems": [
    "C68_streaming",
    "C68_reuse",
    "C68_one_shot",
    "C68_digest",
    "C68_hash_elems",
    "C68_long",
    "C68_long_refuted"
   ],
   "note": "Proved for strings below 2^32 bytes and totals below 2^61; a longer string is cut to its length modulo 2^32, so different strings collide (refuted)."
  },
  {
   "property": "C69",
   "status": "partial",
   "theorems": [
    "C69_hmac",
    "C69_get_hmac",
    "C69_digest",
    "C69_zero_padded_key",
    "C69_empty_refuted"
   ],
   "note": "Proved for non-empty keys and data below 2^32 bytes; the empty key and the empty message are undefined behaviour (refuted)."
  },
  {
   "property": "C70",
   "status": "proved",
   "theorems": [
    "C70_history",
    "C70_lengths",
    "C70_exhaustion",
    "C70_get_bytes",
    "C70_failure",
    "C70_rand_q"
   ],
   "note": ""
  },
  {
   "property": "C71",
   "status": "partial",
   "theorems": [
    "C71_history",
    "C71_no_leak",
    "C71_append_refuted"
   ],
   "note": "Proved for every history and every allocation failure, with the exact content; append reports success although a string could not be copied, leaving a null key or value (refuted)."
  },
  {
   "property": "C72",
   "status": "partial",
   "theorems": [
    "C72_declared_refuted",
    "C72_headers_safe_partial",
    "C72_amended_safe_partial",
    "C72_misdescribed_refuted",
    "C72_delete_last_refuted",
    "C72_free_null",
    "C72_null_refuted",
    "C72_cast"
   ],
   "note": "False of the code: 11 declared functions do not exist for C and 31 do not do what the header says with their handles (a history going wrong is given for each). Proved for every history of the other functions, and with 23 corrected header rules for all but 8."
  },
  {
   "property": "C73",
   "status": "partial",
   "theorems": [
    "C73_written",
    "C73_calendar",
    "C73_every_date",
    "C73_round_trip",
    "C73_read_utc",
    "C73_read_offset",
    "C73_impossible_refuted",
    "C73_unparsed_refuted",
    "C73_fraction_refuted",
    "C73_manifest"
   ],
   "note": "Writing, round trip and reading proved (against the Gregorian calendar defined by counting days); false of the code: impossible dates, fractions of a second and any other text are read as 1970 without an error, and dates a time point cannot hold overflow."
  },
  {
   "property": "C74",
   "status": "proved",
   "theorems": [
    "C74_plain",
    "C74_mod",
    "C74_context",
    "C74_group",
    "C74_meaning"
   ],
   "note": ""
  },
  {
   "property": "C75",
   "status": "partial",
   "theorems": [
    "C75_long_exponent_refuted",
    "C75_accepts_partial",
    "C75_agree_partial",
    "C75_platforms_differ_refuted"
   ],
   "note": "False of the code on every platform: words of the exponent beyond those that hold the bit count are ignored (refuted with a witness for both builds), and Windows ignores more of them than other builds. Proved: exactly what each build accepts and returns, and that both keep to the claim when the ignored words are zero."
  },
  {
   "property": "C76",
   "status": "partial",
   "theorems": [
    "C76_elements_are_values_partial",
    "C76_stale_text_refuted",
    "C76_equal_elements_same_text_refuted",
    "C76_poisoned_powers",
    "C76_powers_refuted",
    "C76_clone_refuted"
   ],
   "note": "False of the code: the cached hexadecimal text survives a store through get(), and as the key of the table cache makes powers of other elements wrong (exact wrong result proved); ElementModQ::clone throws for admitted values above Q. Proved for every history without those two, named, uses."
  },
  {
   "property": "C77",
   "status": "partial",
   "theorems": [
    "C77_erased_refuted",
    "C77_left_behind_partial",
    "C77_text_stays",
    "C77_secret_recoverable"
   ],
   "note": "False of the code: the destructors pass a number of limbs as a number of bytes, so only the low 32 (512) bits are cleared, and the text is not cleared. Proved: exactly what is left after every history, and that a secret key is determined by it, the public key and 2^32 tries."
  },
  {
   "property": "C78",
   "status": "partial",
   "theorems": [
    "C78_concurrent_reads_refuted",
    "C78_text_taken_before_partial",
    "C78_atomic_reads_agree"
   ],
   "note": "False of the code: toHex writes its cache without synchronization (refuted). Proved race free, for any threads and schedule, when the text was taken before; and the right text for every thread were accesses atomic."
  },
  {
   "property": "C79",
   "status": "partial",
   "theorems": [
    "C79_copy_exact",
    "C79_clone_exact",
    "C79_assign_exact",
    "C79_histories_partial",
    "C79_step_exact",
    "C79_encrypted",
    "C79_party_refuted",
    "C79_contest_refuted",
    "C79_placeholders_keep_contest",
    "C79_placeholders_refuted",
    "C79_move_refuted",
    "C79_keypair_emptied",
    "C79_keypair_refuted",
    "C79_nonces_needed",
    "C79_forgotten",
    "C79_proof_refuted",
    "C79_torn_refuted"
   ],
   "note": "False of the code: parties without a name, contests (primary parties, votes allowed, missing subtitle), assigned contests with placeholders, key pairs (source emptied), encrypted ballots without nonces (undefined), cloned disjunctive proofs and interrupted assignments of precomputed values. Proved: exactly which objects and pairs behave, for every class, and equality with the ideal over every program of such operations."
  },
  {
   "property": "C80",
   "status": "partial",
   "theorems": [
    "C80_contents",
    "C80_kept",
    "C80_encrypted",
    "C80_forgotten",
    "C80_readable",
    "C80_removed_refuted"
   ],
   "note": "False of the code: no nonce is removed, for any ballot (proved), and the votes are read from the submitted ballot without the secret key (proved); a ballot whose nonces were removed cannot be submitted. Proved: all other contents and the state are right."
  },
  {
   "property": "C81",
   "status": "partial",
   "theorems": [
    "C81_verdict",
    "C81_verdict_submitted",
    "C81_published_partial",
    "C81_options",
    "C81_zero_seed",
    "C81_zero_seed_refuted"
   ],
   "note": "Proved from the vote to the auditor's object for every ballot none of whose published hashes and scalars is zero; the verdict part for all ballots. False otherwise: a ballot made with the code seed zero verifies and cannot be read back (refuted)."
  },
  {
   "property": "C82",
   "status": "partial",
   "theorems": [
    "C82_made",
    "C82_refused",
    "C82_read",
    "C82_read_refused",
    "C82_round_trip",
    "C82_hex",
    "C82_hex_dropped_refuted",
    "C82_hex_refuted",
    "C82_allocation_refuted",
    "C82_null_refuted",
    "C82_zero_refuted",
    "C82_quorum_refuted"
   ],
   "note": "False of the code: the constructor from hexadecimal texts with extended data drops the data; failed allocations while data is read back are reported as success; lists holding a missing string crash; keys are cut at zero bytes; a quorum above the number of guardians is accepted (each refuted). Proved for the other constructors over every history of lists, and for reading back when allocations succeed."
  },
  {
   "property": "C83",
   "status": "partial",
   "theorems": [
    "C83_made",
    "C83_seconds_partial",
    "C83_dates_refuted",
    "C83_document"
   ],
   "note": "False of the code: dates are given in milliseconds and read back in seconds (refuted for every date but 1970-01-01T00:00:00). Proved: the manifest holds the right instant or the clock overflows, documents show it, and seconds are what is read back, before and after a document."
  },
  {
   "property": "C84",
   "status": "partial",
   "theorems": [
    "C84_text",
    "C84_bytes",
    "C84_document",
    "C84_ballot",
    "C84_parts",
    "C84_zero_refuted",
    "C84_allocation_refuted",
    "C84_extended_refuted"
   ],
   "note": "False of the code for texts with a zero byte, for failed allocations of texts and for the length of extended data (refuted). Proved for all other texts, all byte arrays, documents without zero bytes and ballots of voters."
  },
  {
   "property": "C85",
   "status": "partial",
   "theorems": [
    "C85_count_partial",
    "C85_decrypt",
    "C85_seats",
    "C85_order",
    "C85_twice_refuted"
   ],
   "note": "False of the code where a ballot style lists a unit twice, which validation accepts: the contest is encrypted twice and its votes count twice (refuted); and ElGamalCiphertext::decrypt gives counts above 1 as 2^64-1 (C85_decrypt). Proved for all other manifests and ballots whose proofs hold no zero scalar: the sums decrypt to the counts and to nothing else."
  },
  {
   "property": "C86",
   "status": "partial",
   "theorems": [
    "C86_locked",
    "C86_chain",
    "C86_finishes",
    "C86_gaps",
    "C86_apart",
    "C86_one_thread",
    "C86_unlocked_partial",
    "C86_fork_refuted",
    "C86_deleted_refuted"
   ],
   "note": "False of the code without a lock of the caller's: two ballots may get one seed, so that one of them can be left out unnoticed, and a seed may be read after its deletion (refuted). Proved with a lock, for calls that do not overlap and for one thread; without a lock seeds are still the device's hash or codes of earlier ballots."
  },
  {
   "property": "C87",
   "status": "partial",
   "theorems": [
    "C87_ballot",
    "C87_checked",
    "C87_check_fails",
    "C87_unknown_style",
    "C87_compact_partial",
    "C87_compact_seed",
    "C87_compact_checked",
    "C87_mediator",
    "C87_mediator_compact",
    "C87_mediator_moves",
    "C87_mediator_compact_moves",
    "C87_valid",
    "C87_compact_valid",
    "C87_mediator_new",
    "C87_contest",
    "C87_contest_checked",
    "C87_selection",
    "C87_selection_checked",
    "C87_selection_valid",
    "C87_contest_valid",
    "C87_text",
    "C87_text_names",
    "C87_text_total",
    "C87_text_refuted",
    "C87_compact_style_refuted",
    "C87_mediator_style_refuted",
    "C87_mediator_new_refuted",
    "C87_bare_style_refuted"
   ],
   "note": "Proved exactly for selections, contests and ballots whose style is known, directly and through a mediator, with and without the check of proofs; for compact ballots with a seed and nonce that are elements. False elsewhere (refuted): a compact ballot of an unknown style crashes, a context of another manifest or an unreduced seed is reported as lack of memory, a style without districts as RUNTIME_ERROR, and the text of a number that is no status is read outside of the array."
  },
  {
   "property": "C88",
   "status": "partial",
   "theorems": [
    "C88_pads",
    "C88_ballot_partial",
    "C88_manifest_partial",
    "C88_election_partial",
    "C88_reuse",
    "C88_ballot_refuted"
   ],
   "note": "Between ballots proved for all manifests. Within a ballot proved when sequence orders differ, which a valid manifest ensures unless a style lists a district twice or orders reach 2^32-1; a style that lists a district twice shows every power of the contest twice (refuted). Commitments of the selections' own proofs, whose exponents are drawn at random, and precomputed values (C53) are not covered."
  }
 ]
}